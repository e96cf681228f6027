(** removeAttributesBySelector removes the attributes that were asked for, and nothing else (C101). *)
From Coq Require Import String List NArith ZArith Bool.
From Verif Require Import Chars NameModel ElemModel MatcherModel MatcherSpec MatcherProofs6 BareModel BareSpec BareProofs2.
Import ListNotations.

(** Each item removes, from the elements that its selector picks in the document as the items before left it, the attributes with the names it lists. *)
Theorem C101_removed_partial show opaque scope_at items d : usual_doc d -> usual_prefixes d ->
  Forall (fun i => all_plain d show (fst i) /\ local_only (snd i) (fst i) /\ (none_counting (fst i) \/ (told_apart d opaque /\ scope_at = opaque []))) items ->
  exists d', run show opaque scope_at items d = (d', false) /\ stages items d d'.
Proof. exact (run_ok show opaque scope_at items d). Qed.
Print Assumptions C101_removed_partial.
(** The job fails exactly if some selector cannot be read. *)
Theorem C101_fails show opaque scope_at items d : snd (run show opaque scope_at items d) = true <-> List.Exists (fun i => readable_list (fst i) = false) items.
Proof. exact (run_fails show opaque scope_at items d). Qed.
Print Assumptions C101_fails.
(** [#a, svg > rect] without [class] and [id], in a document that meets the hypotheses. *)
Example C101_sample opaque : usual_doc sample /\ usual_prefixes sample /\ item_fine sample show_class opaque 0%N (bare_selector, bare_names) /\
  run show_class opaque 0%N [(bare_selector, bare_names)] sample = ([el "svg" [] [el "g" [] []; el "rect" [] []; el "rect" [] []]], false).
Proof. exact (conj sample_usual (conj sample_prefixes (conj (bare_fine opaque) (bare_result opaque)))). Qed.
(** Elements are matched after the elements before them have lost their attributes: one that was not selected changes. *)
Theorem C101_order_refuted : exists d sel names p e a, usual_prefixes d /\ element_at d p e a /\ ~ selects d (Some []) sel p /\
  forall opaque scope_at, exists d', run show_class opaque scope_at [(sel, names)] d = (d', false) /\ ~ element_at d' p e a.
Proof. exact lazy_refuted. Qed.
Print Assumptions C101_order_refuted.
(** An attribute with another prefix for its namespace is not found under its name, but under a name that is not in the document. *)
Theorem C101_alias_refuted : qualified aliased_attr = lit "xl:href" /\ selects aliased_doc (Some []) (one [SAny]) [0] /\ forall opaque scope_at,
  run show_class opaque scope_at [(one [SAny], [lit "xl:href"])] aliased_doc = (aliased_doc, false) /\
  exists d', run show_class opaque scope_at [(one [SAny], [lit "xlink:href"])] aliased_doc = (d', false) /\ d' <> aliased_doc.
Proof. exact alias_refuted. Qed.
Print Assumptions C101_alias_refuted.
(** If the job fails, the document may have changed. *)
Theorem C101_half_refuted : exists items d, forall opaque scope_at, snd (run show_class opaque scope_at items d) = true /\ fst (run show_class opaque scope_at items d) <> d.
Proof. exact half_refuted. Qed.
Print Assumptions C101_half_refuted.
