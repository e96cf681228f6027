(** Model of element names and of the recognition of attribute names: crates/oxvg_collections/src/element.rs and the
    part of attribute.rs about groups. *)
From Coq Require Import String List NArith Bool.
From Verif Require Import Chars NameModel AttrTable ElemTable.
Import ListNotations.

(** element.rs 29-99: one of the known variants of [ElementId] with what the table says of it. *)
Record ekind : Type := mkElem {
  e_id : text; e_local : text; e_cats : N; e_permitted : N; e_children : list text; e_groups : N; e_attrs : list text; e_info : N }.
(** element.rs 377-2153. *)
Definition elem_table : list ekind :=
  map (fun r => match r with (i, n, c, p, ch, g, a, f) => mkElem (lit i) (lit n) c p (map lit ch) g (map lit a) f end) elem_rows.

(** element.rs 100-114 [ElementId]; an alias of an alias is not representable (see the debug assertion, 351). *)
Inductive elem_id : Type := EKnown (k : ekind) | EAliased (p : prefix) (k : ekind) | EUnknown (p : prefix) (local : text).

(** name.rs 213-218 [Prefix::is_aliased]. *)
Definition is_aliased (p : prefix) : bool := match p with PAliased _ _ => true | _ => false end.
(** element.rs 157-167 [ElementId::new]. *)
Definition elem_new (p : prefix) (local : text) : elem_id :=
  match (match prefix_unaliased p with PKnown SVG => find (fun k => text_eqb (e_local k) local) elem_table | _ => None end) with
  | None => EUnknown p local
  | Some k => if is_aliased p then EAliased p k else EKnown k
  end.
(** element.rs 170-176 [ElementId::prefix]. *)
Definition elem_prefix (e : elem_id) : prefix :=
  match e with EUnknown p _ => p | EAliased p _ => p | EKnown _ => PKnown SVG end.
(** element.rs 185-191 [ElementId::local_name]. *)
Definition elem_local (e : elem_id) : text :=
  match e with EKnown k => e_local k | EAliased _ k => e_local k | EUnknown _ n => n end.
(** element.rs 194-200 [ElementId::categories]. *)
Definition elem_cats (e : elem_id) : N := match e with EKnown k | EAliased _ k => e_cats k | EUnknown _ _ => 0%N end.
(** element.rs 270-275 [ElementId::info]: the last arm also takes aliased elements. *)
Definition elem_info (e : elem_id) : N := match e with EKnown k => e_info k | _ => 0%N end.
(** element.rs 248-254 [ElementId::expected_attributes]. *)
Definition elem_attrs (e : elem_id) : list text := match e with EKnown k | EAliased _ k => e_attrs k | EUnknown _ _ => [] end.
(** attribute/group.rs 13-48: the bits named in this model. *)
Definition g_core : N := 256.
(** attribute/group.rs 43. *)
Definition g_presentation : N := 16384.
(** attribute/group.rs 47. *)
Definition g_xlink : N := 65536.
(** attribute/group.rs 52-58 [AttributeGroup::event]. *)
Definition g_event : N := N.lor (N.lor (N.lor (N.lor 4 512) 1024) 4096) 8192.
(** element.rs 257-267 [ElementId::expected_attribute_groups]. *)
Definition elem_groups (e : elem_id) : N :=
  N.lor (match e with EKnown k => N.lor (e_groups k) g_presentation | EAliased _ k => N.lor (N.lor (e_groups k) g_presentation) g_core
         | EUnknown _ _ => g_xlink end) g_core.
(** The [bitflags] crate, [intersects] and [contains] (used at element.rs:231, 243). *)
Definition intersects (a b : N) : bool := negb (N.eqb (N.land a b) 0).
(** The [bitflags] crate, [contains] (used at element.rs:223, 228, 238). *)
Definition contains (a b : N) : bool := N.eqb (N.land a b) b.

(** element.rs 291-302 [ElementId::eq] against a known element: what [is_element!] asks
    (crates/oxvg_ast/src/element.rs:29-39). *)
Definition elem_is (e : elem_id) (id : text) : bool :=
  match e with EKnown k | EAliased _ k => text_eqb (e_id k) id | EUnknown _ _ => false end.

(** attribute.rs 562-2607: the groups of a known attribute. *)
Definition kind_groups (k : kind) : N :=
  match find (fun r => text_eqb (kind_id (fst r)) (kind_id k)) (combine attr_table attr_groups) with
  | Some (_, (g, _)) => g
  | None => 0%N
  end.
(** attribute.rs 367-373 [AttrId::attribute_group]. *)
Definition id_groups (a : attr_id) : N := match id_unaliased a with BKnown k => kind_groups k | BUnknown _ => 0%N end.

(** element.rs 326-342 and attribute.rs 2836-2854: what becomes of a match. *)
Definition recognised (p : prefix) (k : kind) : attr_id := if is_aliased p then AAliased p (BKnown k) else ABase (BKnown k).
(** element.rs 326-327 and attribute.rs 2836-2837: the test. *)
Definition matches (p : prefix) (local : text) (k : kind) : bool :=
  prefix_eqb (PKnown (kind_prefix k)) p && text_eqb (kind_local k) local.
(** The kind of an identifier of the table (the path [AttrId::...], element.rs 377-2153). *)
Definition kind_of (id : text) : option kind := find (fun k => text_eqb (kind_id k) id) attr_table.
(** attribute.rs 2797-2825 [AttributeGroup::attributes]; the memo is not modelled. *)
Definition group_attributes (g : N) : list kind := filter (fun k => intersects g (kind_groups k)) attr_table.
(** attribute.rs 2830-2856 [AttributeGroup::parse_attr_id]. *)
Definition group_parse_attr_id (g : N) (p : prefix) (local : text) : attr_id :=
  match find (matches p local) (group_attributes g) with
  | Some k => recognised p k
  | None => ABase (BUnknown (mkName p local))
  end.
(** element.rs 321-343 [ElementId::parse_attr_id]. *)
Definition parse_attr_id (e : elem_id) (p : prefix) (local : text) : attr_id :=
  match find (matches p local) (flat_map (fun i => match kind_of i with Some k => [k] | None => [] end) (elem_attrs e)) with
  | Some k => recognised p k
  | None => group_parse_attr_id (elem_groups e) p local
  end.
