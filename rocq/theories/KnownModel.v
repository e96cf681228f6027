(** Model of the job that removes unknown elements and attributes and attributes of no effect: crates/oxvg_optimiser/src/jobs/remove_unknowns_and_defaults.rs,
    with [is_permitted_child], [is_permitted_attribute] and [default] of crates/oxvg_collections. *)
From Coq Require Import String List NArith Bool.
From Verif Require Import Chars NameModel AttrTable ElemTable ElemModel KnownTable.
Import ListNotations.

(** ** Decisions *)
(** element.rs 203-209 (crates/oxvg_collections/src) [permitted_categories]. *)
Definition permitted_categories (e : elem_id) : N := match e with EKnown k | EAliased _ k => e_permitted k | EUnknown _ _ => 524287%N end.
(** element.rs 212-218 [permitted_elements]. *)
Definition permitted_elements (e : elem_id) : list text := match e with EKnown k | EAliased _ k => e_children k | EUnknown _ _ => [] end.
(** element/category.rs 12-51 [ElementCategory::all]: nineteen flags. *)
Definition all_categories : N := 524287.
(** element.rs 221-233 [is_permitted_child]; the names of [permitted_elements] are known ones ([ElementId::eq], 291-302). *)
Definition is_permitted_child (e child : elem_id) : bool :=
  contains (permitted_categories e) all_categories || contains (elem_cats child) all_categories
  || intersects (permitted_categories e) (elem_cats child) || existsb (elem_is child) (permitted_elements e).
(** attribute/group.rs 13-48 [AttributeGroup::all]: seventeen flags. *)
Definition all_groups : N := 131071.
(** element.rs 236-245 [is_permitted_attribute]; the ids of [expected_attributes] are known ones ([AttrId::eq], attribute.rs 509-519). *)
Definition is_permitted_attribute (e : elem_id) (a : attr_id) : bool :=
  contains (elem_groups e) all_groups || intersects (elem_groups e) (id_groups a)
  || match id_unaliased a with BKnown k => existsb (text_eqb (kind_id k)) (elem_attrs e) | BUnknown _ => false end.

(** The value of an attribute: the text a value of the type of the attribute is written as, or text that is not one of its type ([Attr::Unparsed]) (crates/oxvg_collections/src/attribute.rs:305-335). *)
Inductive avalue : Type := Typed (t : text) | Unparsed (t : text).
(** [==] on values; simplification: values are compared by the text they are written as (crates/oxvg_collections/src/attribute.rs:533-543). *)
Definition avalue_eqb (a b : avalue) : bool :=
  match a, b with Typed a, Typed b => text_eqb a b | Unparsed a, Unparsed b => text_eqb a b | _, _ => false end.
(** attribute.rs 562-2607: the defaults as texts. *)
Definition default_table : list (text * text) := Eval vm_compute in map (fun r => (lit (fst r), lit (snd r))) default_rows.
(** attribute.rs (crates/oxvg_collections/src) [AttrId::default], from the table (crates/oxvg_collections/src/attribute.rs:384-389). *)
Definition id_default (a : attr_id) : option avalue :=
  match id_unaliased a with
  | BKnown k => option_map (fun r => Typed (snd r)) (find (fun r => text_eqb (fst r) (kind_id k)) default_table)
  | BUnknown _ => None
  end.
(** remove_unknowns_and_defaults.rs:207, from the table. *)
Definition inheritable_type (a : attr_id) : bool :=
  match id_unaliased a with BKnown k => existsb (fun s => text_eqb (lit s) (kind_id k)) inheritable_types | BUnknown _ => false end.
(** attribute.rs 375-381 [AttrId::info]: the last arm also takes aliased attributes and unknown ones. *)
Definition id_info (a : attr_id) : N :=
  match a with
  | ABase (BKnown k) =>
      match find (fun r => text_eqb (kind_id (fst r)) (kind_id k)) (combine attr_table attr_groups) with Some (_, (_, f)) => f | None => 0%N end
  | _ => 0%N
  end.
(** attribute/group.rs 102-118: [PresentationNonInheritableGroupAttrs]. *)
Definition non_inheritable_group : N := 8.

(** remove_unknowns_and_defaults.rs:50-79. *)
Record options : Type := mkOptions {
  unknown_content : bool; unknown_attrs : bool; default_attrs : bool; useless_overrides : bool; keep_data : bool; keep_aria : bool; keep_role : bool }.
(** remove_unknowns_and_defaults.rs:81-94, 272-295. *)
Definition default_options : options := mkOptions true true true true true true false.
(** [Mode] (crates/oxvg_ast/src/style.rs:90-97). *)
Inductive mode : Type := Static | Dynamic.
(** name.rs 8-12 [is_prefix!] for the three, and the [Unknown] prefix: remove_unknowns_and_defaults.rs:208. *)
Definition ignored_prefix (p : prefix) : bool :=
  match prefix_unaliased p with PKnown XML | PKnown XLink | PKnown XMLNS => true | _ => false end
  || match p with PUnknown _ _ => true | _ => false end.
(** [is_attribute!] for a known id (crates/oxvg_ast/src/attribute.rs:38-45). *)
Definition is_kind (a : attr_id) (id : string) : bool := match id_unaliased a with BKnown k => text_eqb (kind_id k) (lit id) | BUnknown _ => false end.

(** remove_unknowns_and_defaults.rs:203-268: whether an attribute stays. [inherited] is what the parent hands down for an attribute. *)
Definition keep (o : options) (e : elem_id) (has_id : bool) (inherited : attr_id -> option (avalue * mode)) (a : attr_id) (v : avalue) : bool :=
  let name := ABase (id_unaliased a) in
  if ignored_prefix (id_prefix a) then true
  else if keep_data o && starts_with (lit "data-") (id_local name) then true
  else if starts_with (lit "aria-") (id_local name) then keep_aria o
  else if is_kind name "Role" then keep_role o
  else if unknown_attrs o && negb (is_kind name "XMLNS") && negb (is_permitted_attribute e name) then false
  else
    let inherited_value :=
      match prefix_value (id_prefix name) with None => if inheritable_type name then inherited name else None | Some _ => None end in
    if default_attrs o && negb has_id && match inherited_value with None => true | Some _ => false end
       && match id_default name with Some d => avalue_eqb d v | None => false end then false
    else if useless_overrides o && negb has_id && ElemModel.contains (id_groups name) g_presentation && negb (ElemModel.contains (id_info name) non_inheritable_group)
       && match inherited_value with Some (w, Static) => avalue_eqb w v | _ => false end then false
    else true.

(** What an element is in: nothing, the document, or an element (remove_unknowns_and_defaults.rs:181-189). *)
Inductive place : Type := Nowhere | InDocument | Within (parent : elem_id).
(** remove_unknowns_and_defaults.rs:170-193 [remove_unknown_content]: whether the element stays; once removed it has no parent. *)
Definition keep_element (o : options) (e : elem_id) (p : place) : bool :=
  if unknown_content o then
    match e with
    | EUnknown _ _ => false
    | _ => match p with
           | Within parent => is_permitted_child parent (match e with EAliased _ k => EKnown k | e => e end)
           | _ => true
           end
    end
  else true.
(** remove_unknowns_and_defaults.rs:150-163: elements in foreign objects and those with a prefix are left alone. *)
Definition element_kept (o : options) (in_foreign : bool) (e : elem_id) (p : place) : bool :=
  if in_foreign then true
  else match prefix_value (elem_prefix e) with Some _ => true | None => keep_element o e p end.
(** remove_unknowns_and_defaults.rs:145-163: the same for the attributes. *)
Definition attribute_kept (o : options) (in_foreign : bool) (e : elem_id) (has_id : bool) (inherited : attr_id -> option (avalue * mode)) (a : attr_id) (v : avalue) : bool :=
  if in_foreign then true
  else match prefix_value (elem_prefix e) with Some _ => true | None => keep o e has_id inherited a v end.
