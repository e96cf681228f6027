(** C48: the information about a selection. *)
From Coq Require Import String List NArith Bool Arith.
From Verif Require Import Chars InfoModel InfoProofs.
Import ListNotations.

(** Permitted elements, expected attributes, attribute values and the element name are exactly what
    the selected elements have in common. *)
Theorem C48_common_partial categories elements groups attributes all_categories all_groups e l i :
  Forall (fun e => NoDup (map fst (el_attrs e))) (e :: l) ->
  new_info categories elements groups attributes all_categories all_groups (map Some (e :: l)) = Some i ->
  (forall x, In x (permitted_elements i) <-> Forall (fun e => In x (elements (el_name e))) (e :: l)) /\
  (forall x, In x (expected_attributes i) <-> Forall (fun e => In x (attributes (el_name e))) (e :: l)) /\
  (forall x, In x (values i) <-> Forall (fun e => In x (el_attrs e)) (e :: l)) /\
  (forall n, element_id i = Some n <-> Forall (fun e => el_name e = n) (e :: l)).
Proof. exact (info_common categories elements groups attributes all_categories all_groups e l i). Qed.
Print Assumptions C48_common_partial.

(** There is no information exactly if a selected node is not an element. *)
Theorem C48_elements categories elements groups attributes all_categories all_groups nodes :
  new_info categories elements groups attributes all_categories all_groups nodes = None <-> In None nodes.
Proof. exact (info_none categories elements groups attributes all_categories all_groups nodes). Qed.
Print Assumptions C48_elements.

(** The permitted categories of every selection are all categories. *)
Theorem C48_categories_always_all categories elements groups attributes all_categories all_groups e l i :
  (forall n, N.lor all_categories (categories n) = all_categories) ->
  new_info categories elements groups attributes all_categories all_groups (map Some (e :: l)) = Some i ->
  permitted_categories i = all_categories.
Proof. exact (info_categories categories elements groups attributes all_categories all_groups e l i). Qed.
Print Assumptions C48_categories_always_all.

Definition info_of : list (option element) -> option info :=
  new_info categories_of elements_of (fun _ => 0%N) attributes_of every_category 0%N.
Definition path (attrs : list (text * text)) : element := mkElement (lit "path") attrs true [].
Definition text_element (t : text) : element := mkElement (lit "text") [] true t.

(** A single selected [path] is said to permit containers, which a [path] does not. *)
Theorem C48_categories_refuted : exists i,
  info_of [Some (path [])] = Some i /\
  N.testbit (permitted_categories i) 2 = true /\ N.testbit (categories_of (lit "path")) 2 = false.
Proof. eexists. split; [reflexivity|]. split; vm_compute; reflexivity. Qed.
Print Assumptions C48_categories_refuted.

(** The text that is reported: not reported though common, and reported though not common. *)
Theorem C48_text_refuted : exists i1 i2,
  info_of [Some (text_element (lit "a")); Some (text_element (lit "a"))] = Some i1 /\ content i1 = None /\
  info_of [Some (text_element []); Some (text_element (lit "a"))] = Some i2 /\ content i2 = Some (lit "a").
Proof. do 2 eexists. split; [reflexivity|]. split; [reflexivity|]. split; reflexivity. Qed.
Print Assumptions C48_text_refuted.

Example C48_example :
  let a := path [(lit "d", lit "M0 0"); (lit "fill", lit "red")] in
  let b := mkElement (lit "g") [(lit "fill", lit "red"); (lit "d", lit "M1 1")] true [] in
  Forall (fun e => NoDup (map fst (el_attrs e))) [a; b] /\
  exists i, info_of [Some a; Some b] = Some i /\ values i = [(lit "fill", lit "red")] /\
    permitted_elements i = map lit ["clipPath"; "marker"; "mask"; "script"; "style"]%string /\
    expected_attributes i = [lit "externalResourcesRequired"] /\ element_id i = None.
Proof.
  split.
  - repeat constructor; cbn; intros H; repeat (destruct H as [H|H]; try discriminate H); exact H.
  - eexists. split; [reflexivity|]. repeat split; vm_compute; reflexivity.
Qed.
