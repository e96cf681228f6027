From Coq Require Import String List NArith Bool.
From Verif Require Import Chars NameModel AttrTable ElemModel KnownModel KnownSpec KnownProofs.
Import ListNotations.

(** C66: an attribute SVG 2 defines for an element is not removed as unknown: the option makes no difference to it.
    Missing, and refuted below: [mask-type], [text-overflow], [white-space], and the element [discard]. *)
Theorem C66_attributes_partial : forall o in_foreign has_id inherited element local v,
  svg2_attribute element local -> element <> lit "discard" -> known_kept local ->
  let e := elem_new (PKnown SVG) element in
  attribute_kept o in_foreign e has_id inherited (parse_attr_id e (PKnown SVG) local) v =
  attribute_kept (mkOptions (unknown_content o) false (default_attrs o) (useless_overrides o) (keep_data o) (keep_aria o) (keep_role o))
    in_foreign e has_id inherited (parse_attr_id e (PKnown SVG) local) v.
Proof. exact attributes_named. Qed.
Print Assumptions C66_attributes_partial.
(** C66: a child SVG 2 allows in an element is not removed.  Missing, and refuted below: [discard], and [tspan] and [textPath] in [a]. *)
Theorem C66_children_partial : forall o in_foreign parent child,
  svg2_child parent child -> child <> lit "discard" -> ~ (parent = lit "a" /\ (child = lit "tspan" \/ child = lit "textPath")) ->
  element_kept o in_foreign (elem_new (PKnown SVG) child) (Within (elem_new (PKnown SVG) parent)) = true.
Proof. exact children_named. Qed.
Print Assumptions C66_children_partial.
Theorem C66_root : forall o in_foreign, element_kept o in_foreign (elem_new (PKnown SVG) (lit "svg")) InDocument = true.
Proof. exact root_kept. Qed.
Print Assumptions C66_root.
(** C66: with the option set, an attribute without a prefix that is in no table is removed, whatever its value, unless it is a data or aria attribute. *)
Theorem C66_unknown_removed : forall o has_id inherited element local v, unknown_attrs o = true ->
  (forall k, In k attr_table -> kind_prefix k = SVG -> kind_local k <> local) ->
  (forall rest, local <> (lit "data-" ++ rest)%list) -> (forall rest, local <> (lit "aria-" ++ rest)%list) ->
  elem_new (PKnown SVG) element <> EUnknown (PKnown SVG) element ->
  let e := elem_new (PKnown SVG) element in attribute_kept o false e has_id inherited (parse_attr_id e (PKnown SVG) local) v = false.
Proof. exact unknown_dropped. Qed.
Print Assumptions C66_unknown_removed.

(** C66: attributes of other namespaces are left, and so is the declaration of the default namespace, whatever the options. *)
Theorem C66_namespaces : forall o in_foreign has_id inherited e uri name local v,
  uri <> [] -> uri <> lit "http://www.w3.org/2000/svg" -> uri <> lit "http://www.w3.org/1999/xhtml" -> uri <> lit "http://www.w3.org/1998/Math/MathML" ->
  attribute_kept o in_foreign e has_id inherited (parse_attr_id e (prefix_new uri name) local) v = true.
Proof. exact namespaces_kept. Qed.
Print Assumptions C66_namespaces.
Theorem C66_declaration : forall o in_foreign has_id inherited e k v, In k attr_table -> kind_id k = lit "XMLNS" ->
  attribute_kept o in_foreign e has_id inherited (ABase (BKnown k)) v = true.
Proof. exact declaration_kept. Qed.
Print Assumptions C66_declaration.
(** C66: the options [keep_data_attrs] and [keep_aria_attrs] do what they say. *)
Theorem C66_data : forall o in_foreign has_id inherited e rest v, keep_data o = true ->
  attribute_kept o in_foreign e has_id inherited (parse_attr_id e (PKnown SVG) (lit "data-" ++ rest)%list) v = true.
Proof. exact data_kept. Qed.
Print Assumptions C66_data.
Theorem C66_aria : forall o in_foreign has_id inherited e rest v,
  attribute_kept o in_foreign e has_id inherited (parse_attr_id e (PKnown SVG) (lit "aria-" ++ rest)%list) v =
  if in_foreign then true else match prefix_value (elem_prefix e) with Some _ => true | None => keep_aria o end.
Proof. exact aria_kept. Qed.
Print Assumptions C66_aria.
(** C67: elements with an [id] lose no attribute for its value: the options that look at values make no difference. *)
Theorem C67_id : forall o in_foreign inherited e a v,
  attribute_kept o in_foreign e true inherited a v =
  attribute_kept (mkOptions (unknown_content o) (unknown_attrs o) false false (keep_data o) (keep_aria o) (keep_role o)) in_foreign e true inherited a v.
Proof. exact id_kept. Qed.
Print Assumptions C67_id.

Definition nothing (_ : attr_id) : option (avalue * mode) := None.
Definition kept (element local : string) (v : string) : bool :=
  let e := elem_new (PKnown SVG) (lit element) in attribute_kept default_options false e false nothing (parse_attr_id e (PKnown SVG) (lit local)) (Typed (lit v)).
(** [<mask mask-type="alpha">] becomes a luminance mask. *)
Theorem C66_attributes_refuted : exists element local v, svg2_attribute (lit element) (lit local) /\ ~ initial (lit element) (lit local) (lit v) /\ kept element local v = false.
Proof.
  exists "mask"%string, "mask-type"%string, "alpha"%string. split; [|split; [|vm_compute; reflexivity]].
  - exists "mask"%string. eexists. exists "mask-type"%string. split; [unfold own_attributes; repeat first [left; reflexivity | right]|]. split; [reflexivity|]. split; [|reflexivity]. apply in_or_app. left. unfold common_attributes. repeat first [left; reflexivity | right].
  - intros (a & els & vs & e & v & Hin & Ha & _ & Hv & Hvv).
    assert (C : forallb (fun r => match r with (a, els, vs) => negb (text_eqb (lit a) (lit "mask-type")) || negb (existsb (fun v => text_eqb (lit v) (lit "alpha")) vs) end) initial_rows = true)
      by (vm_compute; reflexivity).
    apply (proj1 (forallb_forall _ _)) with (x := (a, els, vs)) in C; [|exact Hin]. cbv beta iota in C. rewrite Ha, text_eqb_refl in C. cbn [negb orb] in C.
    apply negb_true_iff in C. assert (T : existsb (fun v => text_eqb (lit v) (lit "alpha")) vs = true) by (apply existsb_exists; exists v; rewrite Hvv, text_eqb_refl; auto). congruence.
Qed.
Print Assumptions C66_attributes_refuted.
(** The text of a link in [<text><a><tspan>link</tspan></a></text>] is lost, and so is [discard]. *)
Theorem C66_children_refuted : exists parent child, svg2_child (lit parent) (lit child) /\
  element_kept default_options false (elem_new (PKnown SVG) (lit child)) (Within (elem_new (PKnown SVG) (lit parent))) = false.
Proof.
  exists "a"%string, "tspan"%string. split; [|vm_compute; reflexivity]. exists "a"%string. eexists. exists "tspan"%string. split; [|split; [reflexivity|split; [|reflexivity]]].
  - unfold svg2_children. repeat first [left; reflexivity | right].
  - repeat first [left; reflexivity | right].
Qed.
Print Assumptions C66_children_refuted.
Theorem C66_discard_refuted : exists parent, svg2_child (lit parent) (lit "discard") /\
  element_kept default_options false (elem_new (PKnown SVG) (lit "discard")) (Within (elem_new (PKnown SVG) (lit parent))) = false.
Proof.
  exists "svg"%string. split; [|vm_compute; reflexivity]. exists "svg"%string. eexists. exists "discard"%string. split; [left; reflexivity|]. split; [reflexivity|]. split; [repeat first [left; reflexivity | right]|reflexivity].
Qed.
Print Assumptions C66_discard_refuted.
Example C66_witness : svg2_attribute (lit "rect") (lit "rx") /\ known_kept (lit "rx") /\ kept "rect" "rx" "3" = true /\ kept "rect" "fill" "red" = true /\
  kept "rect" "points" "1 2" = false /\ kept "rect" "data-x" "1" = true /\ kept "rect" "stroke-width" "1" = false.
Proof.
  split; [|split].
  - exists "rect"%string. eexists. exists "rx"%string. split; [unfold own_attributes; repeat first [left; reflexivity | right]|]. split; [reflexivity|]. split; [|reflexivity].
    apply in_or_app. right. repeat first [left; reflexivity | right].
  - unfold known_kept. vm_compute. intuition discriminate.
  - repeat split; vm_compute; reflexivity.
Qed.

(** C67: an attribute of an element, defined by SVG 2, that is removed where nothing is inherited, has a value and it is the one SVG 2 gives when the attribute is not there.
    Missing: [divisor] (refuted below), and attributes whose default in the table is not the one of SVG 2 but is hardly ever written (such as [transform-origin="5000% 5000%"])
    or found on elements that do nothing without an [id]. *)
Theorem C67_defaults_partial : forall o in_foreign has_id inherited element local v,
  svg2_attribute element local -> element <> lit "discard" -> known_kept local -> has_default element local -> (forall a, inherited a = None) ->
  let e := elem_new (PKnown SVG) element in
  attribute_kept o in_foreign e has_id inherited (parse_attr_id e (PKnown SVG) local) v = false ->
  exists t, v = Typed t /\ initial element local t.
Proof. exact defaults_named. Qed.
Print Assumptions C67_defaults_partial.
(** [divisor="1"] is removed from [feConvolveMatrix], and then the sum of the kernel divides. *)
Theorem C67_defaults_refuted : exists element local v, svg2_attribute (lit element) (lit local) /\ kept element local v = false /\ ~ initial (lit element) (lit local) (lit v).
Proof.
  exists "feConvolveMatrix"%string, "divisor"%string, "1"%string. split; [|split; [vm_compute; reflexivity|]].
  - exists "feConvolveMatrix"%string. eexists. exists "divisor"%string. split; [unfold own_attributes; repeat first [left; reflexivity | right]|]. split; [reflexivity|]. split; [|reflexivity].
    apply in_or_app. right. repeat first [left; reflexivity | right].
  - intros (a & els & vs & e & v & Hin & Ha & _).
    assert (C : forallb (fun r => negb (text_eqb (lit (fst (fst r))) (lit "divisor"))) initial_rows = true) by (vm_compute; reflexivity).
    apply (proj1 (forallb_forall _ _)) with (x := (a, els, vs)) in C; [|exact Hin]. cbn [fst] in C. rewrite Ha, text_eqb_refl in C. discriminate.
Qed.
Print Assumptions C67_defaults_refuted.
Example C67_witness : svg2_attribute (lit "feOffset") (lit "dx") /\ known_kept (lit "dx") /\ has_default (lit "feOffset") (lit "dx") /\
  kept "feOffset" "dx" "0" = false /\ kept "feOffset" "dx" "1" = true.
Proof.
  split; [|split; [|split]].
  - exists "feOffset"%string. eexists. exists "dx"%string. split; [unfold own_attributes; repeat first [left; reflexivity | right]|]. split; [reflexivity|]. split; [|reflexivity].
    apply in_or_app. right. repeat first [left; reflexivity | right].
  - unfold known_kept. vm_compute. intuition discriminate.
  - split; [vm_compute; intuition discriminate|discriminate].
  - split; vm_compute; reflexivity.
Qed.

Example C66_kept_witness : (exists k, In k attr_table /\ kind_id k = lit "XMLNS" /\ kind_local k = lit "xmlns") /\
  (let e := elem_new (PKnown SVG) (lit "rect") in
   attribute_kept default_options false e false nothing (parse_attr_id e (prefix_new (lit "http://www.inkscape.org/namespaces/inkscape") (Some (lit "inkscape"))) (lit "label")) (Unparsed (lit "a")) = true /\
   attribute_kept default_options false e true nothing (parse_attr_id e (PKnown SVG) (lit "stroke-width")) (Typed (lit "1")) = true).
Proof.
  split; [|split; vm_compute; reflexivity].
  assert (E : exists k, find (fun k => text_eqb (kind_id k) (lit "XMLNS") && text_eqb (kind_local k) (lit "xmlns")) attr_table = Some k) by (eexists; vm_compute; reflexivity).
  destruct E as [k E]. apply find_some in E as [E1 E2]. apply andb_true_iff in E2 as [E2 E3]. exists k. split; [exact E1|]. split; apply text_eqb_spec; assumption.
Qed.
