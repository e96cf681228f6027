(** Model of removeUselessStrokeAndFill (crates/oxvg_optimiser/src/jobs/remove_useless_stroke_and_fill.rs), on the computed styles of CascadeModel.

    Simplifications: an element has the presentation attributes and the style attribute that computed styles read; its other attributes are an [id] or do not
    matter here. What a value is read as is an argument: [zero] tells whether it is the paint [none], or the number 0 (an [Inheritable::Defined] each).
    Attributes of other prefixes that are named like presentation attributes are left out, as are shorthands ([marker]). *)
From Coq Require Import String List NArith Bool Arith.
From Verif Require Import Chars CascadeModel.
Import ListNotations.

(** Presentation attributes by number (crates/oxvg_collections/src/attribute.rs); the names begin in the way remove_useless_stroke_and_fill.rs:201 and 248 look at.
    Any other number stands for an attribute that is named otherwise. *)
Definition names : list text :=
  map lit ["stroke"; "stroke-width"; "stroke-opacity"; "stroke-linecap"; "stroke-linejoin"; "stroke-miterlimit"; "stroke-dasharray"; "stroke-dashoffset";
           "fill"; "fill-opacity"; "fill-rule"; "marker-start"; "marker-mid"; "marker-end"]%string.
(** remove_useless_stroke_and_fill.rs:201: [local_name] of an attribute. *)
Definition name (p : prop) : text := nth p names (lit "color").
(** [AttrId::Stroke] (remove_useless_stroke_and_fill.rs:164). *)
Definition p_stroke : prop := 0.
(** [AttrId::StrokeWidth] (remove_useless_stroke_and_fill.rs:147). *)
Definition p_stroke_width : prop := 1.
(** [AttrId::StrokeOpacity] (remove_useless_stroke_and_fill.rs:173). *)
Definition p_stroke_opacity : prop := 2.
(** [AttrId::Fill] (remove_useless_stroke_and_fill.rs:228). *)
Definition p_fill : prop := 8.
(** [AttrId::FillOpacity] (remove_useless_stroke_and_fill.rs:237). *)
Definition p_fill_opacity : prop := 9.
(** [AttrId::MarkerEnd] (remove_useless_stroke_and_fill.rs:159). *)
Definition p_marker_end : prop := 13.

(** [RemoveUselessStrokeAndFill] (remove_useless_stroke_and_fill.rs:39-49). *)
Record options : Type := mkOptions { o_stroke : bool; o_fill : bool; o_remove_none : bool }.
(** remove_useless_stroke_and_fill.rs:263-283 [Default]. *)
Definition default_options : options := mkOptions true true false.

(** The value [none] that is written (remove_useless_stroke_and_fill.rs:208, 251). *)
Definition v_none : value := 0.
(** [set_attribute!] (crates/oxvg_ast/src/attribute.rs:61-67; [set_named_item], attribute.rs:222-233): in the place of one of this name, or at the end. *)
Fixpoint set_attr (p : prop) (v : value) (l : list (prop * value)) : list (prop * value) :=
  match l with
  | [] => [(p, v)]
  | (q, w) :: l => if Nat.eqb q p then (p, v) :: l else (q, w) :: set_attr p v l
  end.
(** [attributes().retain] by name (remove_useless_stroke_and_fill.rs:199-201, 246-248). *)
Definition without (prefix : text) (e : elem) : elem :=
  mkElem (e_id e) (filter (fun a => negb (starts_with prefix (name (fst a)))) (e_attrs e)) (e_style e).
(** [set_attribute!] on an element (remove_useless_stroke_and_fill.rs:208, 251). *)
Definition with_none (p : prop) (e : elem) : elem := mkElem (e_id e) (set_attr p v_none (e_attrs e)) (e_style e).

Section Read.
  (** [AttributeInfo::Inheritable] (crates/oxvg_collections/src/attribute.rs; style.rs:348-356). *)
  Variable inheritable : prop -> bool.
  (** Whether a value is read as [none] or as 0 (remove_useless_stroke_and_fill.rs:152-156, 168, 179, 187-191, 230, 240). *)
  Variable zero : prop -> value -> bool.

  (** A static zero (remove_useless_stroke_and_fill.rs:148-157, 174-192, 229-240). *)
  Definition static_zero (s : styles) (p : prop) : bool :=
    match get inheritable s p with Some (v, Static) => zero p v | _ => false end.
  (** remove_useless_stroke_and_fill.rs:138-217 [remove_stroke]: the element, and whether it was removed. *)
  Definition remove_stroke (o : options) (s : styles) (e : elem) : elem * bool :=
    if negb (o_stroke o) then (e, false)
    else if negb (static_zero s p_stroke_width) && match get inheritable s p_marker_end with Some _ => true | None => false end then (e, false)
    else
      let eq_none := match get inheritable s p_stroke with Some (v, _) => zero p_stroke v | None => false end in
      let is_none := match get inheritable s p_stroke with None => true | Some (_, Static) => eq_none | Some (_, Dynamic) => false end in
      let '(e, eq_none) :=
        if is_none || static_zero s p_stroke_opacity || static_zero s p_stroke_width
        then match get_inherited inheritable s p_stroke with
             | Some (v, Static) => if zero p_stroke v then (without (lit "stroke") e, eq_none) else (with_none p_stroke (without (lit "stroke") e), true)
             | _ => (without (lit "stroke") e, eq_none)
             end
        else (e, eq_none) in
      (e, eq_none && o_remove_none o).
  (** remove_useless_stroke_and_fill.rs:219-260 [remove_fill]. *)
  Definition remove_fill (o : options) (s : styles) (e : elem) : elem * bool :=
    if negb (o_fill o) then (e, false)
    else
      let eq_none := static_zero s p_fill in
      let '(e, eq_none) :=
        if eq_none || static_zero s p_fill_opacity
        then if negb eq_none then (with_none p_fill (without (lit "fill-") e), true) else (without (lit "fill-") e, eq_none)
        else (e, eq_none) in
      (e, eq_none && o_remove_none o).
  (** Computed styles when there are no stylesheets (remove_useless_stroke_and_fill.rs:115-117; the list is empty, 83-91). *)
  Definition styles_of (chain : list elem) : option styles := with_all (fun _ _ => None) [] chain.
  (** remove_useless_stroke_and_fill.rs:115-120; without stylesheets there is no error. *)
  Definition edit (o : options) (ancestors : list elem) (e : elem) : elem * bool :=
    match styles_of (e :: ancestors) with
    | None => (e, false)
    | Some s =>
        let '(e1, gone1) := remove_stroke o s e in
        let '(e2, gone2) := remove_fill o s e1 in
        (e2, gone1 || gone2)
    end.

  (** An element: whether it is a shape (remove_useless_stroke_and_fill.rs:107-111) and has an [id] (102). *)
  Inductive doc : Type := Doc (shape id : bool) (e : elem) (kids : list doc).
  (** remove_useless_stroke_and_fill.rs:94-134 on each element in turn, parents before children.  [id_rc_byte] is set from an element with an id to its end,
      and elements are left alone as long as it is.  A removed element is left out. *)
  Fixpoint visit (o : options) (ancestors : list elem) (d : doc) {struct d} : list doc :=
    match d with
    | Doc shape id e kids =>
        if id then [d]
        else
          let '(e', gone) := if shape then edit o ancestors e else (e, false) in
          if gone then []
          else [Doc shape id e' ((fix go (l : list doc) : list doc := match l with [] => [] | k :: l => visit o (e' :: ancestors) k ++ go l end) kids)]
    end.
  (** remove_useless_stroke_and_fill.rs:56-92: documents with a script or a stylesheet are left alone. *)
  Definition run (o : options) (script : bool) (sheets : list rule) (d : doc) : list doc :=
    if script || match sheets with [] => false | _ => true end then [d] else visit o [] d.
End Read.
