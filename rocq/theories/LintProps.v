(** Property theorems C46, C47 (lint rules on ids and namespaces). *)
From Coq Require Import String List NArith Bool Arith.
From Verif Require Import Chars NameModel NsModel NsSpec LintModel LintSpec LintProofs LintProofs2.
From Verif Require IdsModel.
Import ListNotations.

(* ------------------------------------------------------------------ C46 *)

(** Without scripts, an id is reported exactly when some element has it and nothing outside of
    selectors refers to it as written. *)
Theorem C46_exact_partial sheets elements id :
  In id (lint_ids false sheets elements) <->
  (exists l a, In l elements /\ In a l /\ carries_id a id) /\ ~ exactly_refers sheets elements id.
Proof. exact (lint_ids_exact sheets elements id). Qed.
Print Assumptions C46_exact_partial.

(** No unreferenced id is missed. *)
Theorem C46_none_missed_partial sheets elements id :
  (exists l a, In l elements /\ In a l /\ carries_id a id) -> ~ refers sheets elements id ->
  In id (lint_ids false sheets elements).
Proof. exact (lint_ids_complete sheets elements id). Qed.
Print Assumptions C46_none_missed_partial.

(** Without selectors of ids and percent-encoded references, the reported ids are exactly the
    unreferenced ones. *)
Theorem C46_plain_partial sheets elements id : forallb plain_css sheets = true ->
  forallb (forallb (fun a => forallb plain_piece (IdsModel.apieces a))) elements = true ->
  In id (lint_ids false sheets elements) <->
  (exists l a, In l elements /\ In a l /\ carries_id a id) /\ ~ refers sheets elements id.
Proof. exact (lint_ids_plain sheets elements id). Qed.
Print Assumptions C46_plain_partial.

(** Nothing is reported twice, and with scripts nothing is reported. *)
Theorem C46_once sheets elements has_script :
  NoDup (lint_ids has_script sheets elements) /\ lint_ids true sheets elements = [].
Proof. exact (conj (lint_ids_once has_script sheets elements) eq_refl). Qed.
Print Assumptions C46_once.

Definition id_attr (t : string) : IdsModel.attr := IdsModel.Attr 0 [IdsModel.IdRef (lit t)].
(** [<style>#a{fill:red}</style><rect id="a"/>]: the id is reported. *)
Theorem C46_selector_refuted : exists sheets elements id,
  sheets = [CssId (lit "a")] /\ elements = [[]; [id_attr "a"]] /\ id = lit "a" /\
  refers sheets elements id /\ In id (lint_ids false sheets elements).
Proof.
  do 3 eexists. split; [reflexivity|]. split; [reflexivity|]. split; [reflexivity|]. split.
  - left. eexists. split; [left; reflexivity|reflexivity].
  - vm_compute. left. reflexivity.
Qed.
Print Assumptions C46_selector_refuted.

(** [<use href="#a%20b"/><g id="a b"/>]: the id is reported. *)
Theorem C46_encoded_refuted : exists elements id,
  elements = [[IdsModel.Attr 1 [IdsModel.Url (lit "#a%20b")]]; [id_attr "a b"]] /\ id = lit "a b" /\
  refers [] elements id /\ In id (lint_ids false [] elements).
Proof.
  do 2 eexists. split; [reflexivity|]. split; [reflexivity|]. split.
  - right. exists [IdsModel.Attr 1 [IdsModel.Url (lit "#a%20b")]]. eexists. split; [left; reflexivity|]. split; [left; reflexivity|].
    split; [intros t E; discriminate E|]. eexists. split; [left; reflexivity|]. cbn. right. vm_compute. reflexivity.
  - vm_compute. left. reflexivity.
Qed.
Print Assumptions C46_encoded_refuted.

Example C46_example :
  let sheets := [CssUrl (lit "#d")] in
  let elements := [[id_attr "a"; IdsModel.Attr 1 [IdsModel.Url (lit "#b")]]; [id_attr "b"]; [id_attr "c"]; [id_attr "d"]; [id_attr "c"]] in
  forallb plain_css sheets = true /\ forallb (forallb (fun a => forallb plain_piece (IdsModel.apieces a))) elements = true /\
  lint_ids false sheets elements = [lit "a"; lit "c"].
Proof. vm_compute. repeat split. Qed.

(* ------------------------------------------------------------------ C47 *)

(** A declaration is reported exactly when it is on the element at that place, and no name in that
    element's subtree has its prefix and namespace in memory. *)
Theorem C47_exact_partial t path d : In (path, d) (lint_document_xmlns t) <->
  exists name attrs kids, at_path t path = Some (PElem name attrs kids) /\ In d (declared attrs) /\
    ~ In d (names_in (PElem name attrs kids)).
Proof. exact (lint_exact t path d). Qed.
Print Assumptions C47_exact_partial.

(** When names agree with the declarations around them, deleting a reported declaration changes the
    meaning of no name. *)
Theorem C47_delete_partial t path d : consistent [] t -> own_distinct t -> In (path, d) (lint_document_xmlns t) ->
  mean_parsed [] (delete_decl t path d) = mean_parsed [] t.
Proof. exact (lint_delete t path d). Qed.
Print Assumptions C47_delete_partial.

(** Documents that declare everything once agree in this way after parsing. *)
Theorem C47_consistent_partial s : declared_once s -> all_bound [] s -> named_from_outside s -> consistent [] (parse_root s).
Proof. exact (parse_consistent s). Qed.
Print Assumptions C47_consistent_partial.

(** In such a document, a reported declaration is in the source, and no name in its scope is written
    with its prefix. *)
Theorem C47_source_partial s path p u : declared_once s -> all_bound [] s -> named_from_outside s ->
  In (path, (p, u)) (lint_document_xmlns (parse_root s)) ->
  exists e, src_at s path = Some e /\ In (p, u) (own_decls e) /\ ~ In p (prefixes_in e).
Proof. exact (lint_source s path p u). Qed.
Print Assumptions C47_source_partial.

Definition el (own : list decl) (pre : option string) (name : string) (attrs : list (option text * text * text)) (kids : list src) : src :=
  SElem own (match pre with Some p => Some (lit p) | None => None end) (lit name) attrs kids.
Definition pre (n u : string) : decl := (Some (lit n), lit u).

(** [<r xmlns:a="u" xmlns:b="u"><a:x/><b:y/></r>]: parsing gives both names the prefix [b], and [a]
    is reported though the source uses it. *)
Theorem C47_same_namespace_refuted : exists s, all_bound [] s /\
  s = el [pre "a" "u"; pre "b" "u"] None "r" [] [el [] (Some "a"%string) "x" [] []; el [] (Some "b"%string) "y" [] []] /\
  In (Some (lit "a")) (prefixes_in s) /\
  lint_document_xmlns (parse_root s) = [([], pre "a" "u")].
Proof.
  eexists. split; [|split; [reflexivity|split; [|vm_compute; reflexivity]]].
  - cbn. repeat split; try discriminate; constructor.
  - cbn. right. left. reflexivity.
Qed.
Print Assumptions C47_same_namespace_refuted.

(** Unused declarations that are not reported: the SVG namespace as default, which the [xmlns]
    attribute itself uses, and one that is repeated inside. *)
Example C47_missed :
  lint_document_xmlns (PElem (mkName (PUnknown (Some (lit "s")) (NSUnknown (lit "u"))) (lit "x"))
    [ADefault (lit "http://www.w3.org/2000/svg"); APrefix (lit "s") (lit "u")] []) = [] /\
  lint_document_xmlns (PElem (mkName (PUnknown None (NSUnknown (lit "v"))) (lit "r")) [APrefix (lit "a") (lit "u")]
    [PElem (mkName (PUnknown (Some (lit "a")) (NSUnknown (lit "u"))) (lit "x")) [APrefix (lit "a") (lit "u")] []]) = [].
Proof. vm_compute. split; reflexivity. Qed.

Definition C47_doc : src :=
  el [(None, lit "v"); pre "a" "u"; pre "b" "w"] None "r" []
    [el [pre "c" "z"] (Some "a"%string) "x" [] [SOther (lit "t")]; el [pre "d" "y"] None "g" [(Some (lit "d"), lit "k", lit "1")] []].
Example C47_example :
  declared_once C47_doc /\ all_bound [] C47_doc /\ named_from_outside C47_doc /\
  lint_document_xmlns (parse_root C47_doc) = [([0], pre "c" "z"); ([], pre "b" "w")] /\
  own_distinct (parse_root C47_doc) /\ consistent [] (parse_root C47_doc).
Proof.
  assert (D : declared_once C47_doc).
  { split; [|split].
    - repeat constructor; cbn; intros H; repeat (destruct H as [H|H]; try discriminate H); exact H.
    - repeat constructor; cbn; intros H; repeat (destruct H as [H|H]; try discriminate H); exact H.
    - cbn. intros H; repeat (destruct H as [H|H]; try discriminate H); exact H. }
  assert (B : all_bound [] C47_doc).
  { split; [discriminate|]. split; [constructor|]. split; [|split; [|exact Logic.I]].
    - split; [discriminate|]. split; [constructor|]. split; exact Logic.I.
    - split; [discriminate|]. split; [|exact Logic.I]. constructor; [discriminate|constructor]. }
  assert (N : named_from_outside C47_doc).
  { split; [left; reflexivity|]. split; [|split; [|exact Logic.I]].
    - split; [|split; exact Logic.I]. right. cbn. intros [H|[]]; discriminate H.
    - split; [left; reflexivity|exact Logic.I]. }
  split; [exact D|]. split; [exact B|]. split; [exact N|]. split; [vm_compute; reflexivity|].
  split; [|exact (parse_consistent _ D B N)].
  cbn. repeat split; repeat constructor; cbn; intros H; repeat (destruct H as [H|H]; try discriminate H); exact H.
Qed.
