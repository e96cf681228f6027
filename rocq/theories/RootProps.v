(** addAttributesToSVGElement, addClassesToSVGElement and removeXMLNS do what they are asked to do (C102). *)
From Coq Require Import String List NArith Bool Permutation.
From Verif Require Import Chars NameModel ElemModel PruneSpec BareSpec RootModel RootSpec RootProofs2.
Import ListNotations.

(** The attributes that are not there yet are added at the end, in order; the others keep their value.  Names with a colon are left out. *)
Theorem C102_attributes_partial e pairs attrs : is_svg e -> Forall (fun a => read_for e (fst a)) attrs -> svg_default attrs -> Forall (fun p => no_colon (fst p) /\ fst p <> lit "xmlns") pairs -> NoDup (map fst pairs) ->
  exists new, add_attributes pairs true e attrs = Some (attrs ++ new) /\ map (fun a => (qualified (fst a), snd a)) new = filter (missing attrs) pairs.
Proof. exact (attributes_ok e pairs attrs). Qed.
Print Assumptions C102_attributes_partial.
(** [data-x] is added, [width] is not. *)
Example C102_ex_attributes : is_svg svg_elem /\ Forall (fun a => read_for svg_elem (fst a)) root_attrs /\ svg_default root_attrs /\ Forall (fun p => no_colon (fst p) /\ fst p <> lit "xmlns") pairs /\ NoDup (map fst pairs) /\
  add_attributes pairs true svg_elem root_attrs = Some (root_attrs ++ [own "data-x" "1"]).
Proof. exact attributes_sample. Qed.
(** An svg that has classes gets exactly the new ones beside its own, each once, whatever the order of the set. *)
Theorem C102_classes_partial shuffle names name e l1 k ws l2 : (forall l, Permutation (shuffle l) l) -> is_svg e -> Forall (fun a => read_for e (fst a) /\ qualified (fst a) <> lit "class") l1 -> kind_prefix k = SVG -> kind_local k = lit "class" ->
  Forall (fun w => word w /\ unquoted w) ws -> exists cs, add_classes shuffle (Some names) name true e (l1 ++ (ABase (BKnown k), spaced ws) :: l2) = Some (l1 ++ (ABase (BKnown k), spaced cs) :: l2) /\
  NoDup cs /\ forall c, In c cs <-> In c ws \/ In c names.
Proof. exact (class_ok shuffle names name e l1 k ws l2). Qed.
Print Assumptions C102_classes_partial.
Example C102_ex_classes : exists l1 k ws, root_attrs = l1 ++ (ABase (BKnown k), spaced ws) :: [] /\ Forall (fun a => read_for svg_elem (fst a) /\ qualified (fst a) <> lit "class") l1 /\ kind_prefix k = SVG /\ kind_local k = lit "class" /\
  Forall (fun w => word w /\ unquoted w) ws /\ add_classes (fun l => l) (Some [lit "c"; lit "a"]) None true svg_elem root_attrs = Some (l1 ++ [(ABase (BKnown k), lit "b c a")]).
Proof. exact classes_sample. Qed.
(** Other elements, and an svg inside the document, are left alone. *)
Theorem C102_elsewhere pairs names name shuffle root e attrs : root = false \/ elem_is e (lit "Svg") = false -> add_attributes pairs root e attrs = Some attrs /\ add_classes shuffle names name root e attrs = Some attrs.
Proof. exact (elsewhere pairs names name shuffle root e attrs). Qed.
Print Assumptions C102_elsewhere.
(** removeXMLNS takes away the declaration of the default namespace of an svg, and nothing else. *)
Theorem C102_xmlns e l1 a l2 : is_svg e -> known_as "XMLNS" (fst a) -> Forall (fun b => ~ known_as "XMLNS" (fst b)) (l1 ++ l2) -> remove_xmlns e (l1 ++ a :: l2) = l1 ++ l2.
Proof. exact (xmlns_all e l1 a l2). Qed.
Print Assumptions C102_xmlns.
Theorem C102_xmlns_none e attrs : elem_is e (lit "Svg") = false \/ Forall (fun b => ~ known_as "XMLNS" (fst b)) attrs -> remove_xmlns e attrs = attrs.
Proof. exact (xmlns_none e attrs). Qed.
Print Assumptions C102_xmlns_none.
Example C102_ex_xmlns : remove_xmlns svg_elem root_attrs = [own "width" "10"; own "class" "a b"].
Proof. vm_compute. reflexivity. Qed.
(** A name with two colons is a panic. *)
Theorem C102_colons_refuted : exists pairs e attrs, is_svg e /\ add_attributes pairs true e attrs = None.
Proof. exact colons_refuted. Qed.
Print Assumptions C102_colons_refuted.
(** An attribute whose prefix is not declared is not added if there is one with the same local name. *)
Theorem C102_added_refuted : exists name value e attrs attrs', is_svg e /\ Forall (fun a => read_for e (fst a)) attrs /\ add_attributes [(name, value)] true e attrs = Some attrs' /\ Forall (fun a => qualified (fst a) <> name) attrs'.
Proof. exact added_refuted. Qed.
Print Assumptions C102_added_refuted.
(** An svg without classes gets none. *)
Theorem C102_no_class_refuted : exists names attrs c, In c names /\ forall shuffle, exists attrs', add_classes shuffle (Some names) None true svg_elem attrs = Some attrs' /\ ~ class_of attrs' c.
Proof. exact no_class_refuted. Qed.
Print Assumptions C102_no_class_refuted.
(** The option className replaces the classes. *)
Theorem C102_replaced_refuted : exists name attrs c, class_of attrs c /\ forall shuffle, exists attrs', add_classes shuffle None (Some name) true svg_elem attrs = Some attrs' /\ ~ class_of attrs' c.
Proof. exact replaced_refuted. Qed.
Print Assumptions C102_replaced_refuted.
(** A class written with a prefix for SVG is a panic. *)
Theorem C102_class_panic_refuted : exists names attrs, forall shuffle, add_classes shuffle (Some names) None true svg_elem attrs = None.
Proof. exact class_panic_refuted. Qed.
Print Assumptions C102_class_panic_refuted.
