(** Selectors pick the elements that CSS says (C99); elements are told apart when they are counted and looked for (C100). *)
From Coq Require Import String List NArith ZArith Bool Sorted.
From Verif Require Import Chars NameModel ElemModel MatcherModel MatcherSpec MatcherProofs5 MatcherProofs6.
Import ListNotations.

(** Selectors without counting, in documents as they usually are: an element matches if CSS says so. *)
Theorem C99_match_partial d show opaque sel p : usual_doc d -> element_in d p -> all_plain d show sel -> none_counting sel ->
  exists b, matches_naive d show opaque sel p = Some b /\ (b = true <-> selects d None sel p).
Proof. intros U E A N. exact (naive_ok d show opaque sel p U E A (or_introl N)). Qed.
Print Assumptions C99_match_partial.
(** The elements that are found are the ones inside the starting point that CSS selects, each once, and outer ones first. *)
Theorem C99_select_partial d show opaque scope_at from sel : usual_doc d -> all_plain d show sel -> none_counting sel ->
  exists l, select d show opaque scope_at from sel = Some l /\ (forall p, In p l <-> element_in d p /\ inside p from /\ selects d (Some from) sel p) /\ NoDup l /\ StronglySorted (fun p q => List.length p <= List.length q) l.
Proof. intros U A N. exact (select_ok d show opaque scope_at from sel U A (or_introl N)). Qed.
Print Assumptions C99_select_partial.
(** A document and a selector that meet the hypotheses, [svg > .b#a:empty ~ rect], and what is found. *)
Example C99_sample : usual_doc sample /\ all_plain sample show_class sample_selector /\ none_counting sample_selector /\ forall opaque k, select sample show_class opaque k [] sample_selector = Some [[1; 0]; [2; 0]].
Proof. exact (conj sample_usual (conj sample_plain (conj sample_none sample_result))). Qed.

(** Names with capitals are never found. *)
Theorem C99_capitals_refuted : exists d n p, element_in d p /\ forall show opaque, selects d None (one [SType n]) p /\ matches_naive d show opaque (one [SType n]) p = Some false.
Proof. exact capitals_refuted. Qed.
Print Assumptions C99_capitals_refuted.
(** Nor are attributes with capitals. *)
Theorem C99_view_box_refuted : exists d n p, element_in d p /\ forall show opaque, selects d None (one [SAttr false n None]) p /\ matches_naive d show opaque (one [SAttr false n None]) p = Some false.
Proof. exact view_box_refuted. Qed.
Print Assumptions C99_view_box_refuted.
(** Values are compared as they would be printed, not as they are written. *)
Theorem C99_value_refuted : exists d n v p, element_in d p /\ forall opaque, selects d None (one [SAttr false n (Some (OEqual, v, None))]) p /\ matches_naive d show_class opaque (one [SAttr false n (Some (OEqual, v, None))]) p = Some false.
Proof. exact value_refuted. Qed.
Print Assumptions C99_value_refuted.
(** The values of some attributes are compared without case. *)
Theorem C99_case_refuted : exists d n v p, element_in d p /\ forall opaque, ~ selects d None (one [SAttr false n (Some (OEqual, v, None))]) p /\ matches_naive d show_class opaque (one [SAttr false n (Some (OEqual, v, None))]) p = Some true.
Proof. exact case_refuted. Qed.
Print Assumptions C99_case_refuted.
(** An attribute in any namespace is looked for in none. *)
Theorem C99_namespace_refuted : exists d n p, element_in d p /\ forall show opaque, selects d None (one [SAttr true n None]) p /\ matches_naive d show opaque (one [SAttr true n None]) p = Some false.
Proof. exact namespace_refuted. Qed.
Print Assumptions C99_namespace_refuted.
(** A comment makes an element not empty, and a no-break space does not. *)
Theorem C99_empty_refuted : (exists d p, element_in d p /\ forall show opaque, selects d None (one [SEmpty]) p /\ matches_naive d show opaque (one [SEmpty]) p = Some false) /\
  exists d p, element_in d p /\ forall show opaque, ~ selects d None (one [SEmpty]) p /\ matches_naive d show opaque (one [SEmpty]) p = Some true.
Proof. exact empty_refuted. Qed.
Print Assumptions C99_empty_refuted.
(** One pseudo-class that is not read spoils the whole list. *)
Theorem C99_link_refuted : exists d p s, element_in d p /\ forall show opaque, matches_naive d show opaque (one [SType (lit "svg"); SPseudo s]) p = None /\ matches_naive d show opaque [mkComplex [SType (lit "svg")] []; mkComplex [SPseudo s] []] p = None.
Proof. exact link_refuted. Qed.
Print Assumptions C99_link_refuted.

(** If elements are told apart, those that are counted match as CSS says. *)
Theorem C100_match_partial d show opaque sel p : usual_doc d -> element_in d p -> all_plain d show sel -> told_apart d opaque ->
  exists b, matches_naive d show opaque sel p = Some b /\ (b = true <-> selects d None sel p).
Proof. intros U E A N. exact (naive_ok d show opaque sel p U E A (or_intror N)). Qed.
Print Assumptions C100_match_partial.
Theorem C100_select_partial d show opaque from sel : usual_doc d -> all_plain d show sel -> told_apart d opaque ->
  exists l, select d show opaque (opaque from) from sel = Some l /\ (forall p, In p l <-> element_in d p /\ inside p from /\ selects d (Some from) sel p) /\ NoDup l /\ StronglySorted (fun p q => List.length p <= List.length q) l.
Proof. intros U A N. exact (select_ok d show opaque (opaque from) from sel U A (or_intror (conj N eq_refl))). Qed.
Print Assumptions C100_select_partial.
(** [rect:nth-child(2)] in a document with elements told apart. *)
Example C100_sample : usual_doc sample /\ all_plain sample show_class second /\ told_apart sample code /\ select sample show_class code (code []) [] second = Some [[1; 0]].
Proof. exact (conj sample_usual (conj second_plain (conj (code_apart sample) second_result))). Qed.
(** If they lie in the same place while they are looked at, the third is taken for the second. *)
Theorem C100_count_refuted : exists d sel from, usual_doc d /\ all_plain d show_class sel /\ exists opaque l p, select d show_class opaque (opaque from) from sel = Some l /\ In p l /\ ~ selects d (Some from) sel p.
Proof. exact count_refuted. Qed.
Print Assumptions C100_count_refuted.
(** If the scope lay somewhere else when it was named, nothing is in it. *)
Theorem C100_scope_refuted : exists d sel from, usual_doc d /\ all_plain d show_class sel /\ exists opaque scope_at p, told_apart d opaque /\ element_in d p /\ inside p from /\ selects d (Some from) sel p /\ select d show_class opaque scope_at from sel = Some [].
Proof. exact scope_refuted. Qed.
Print Assumptions C100_scope_refuted.
