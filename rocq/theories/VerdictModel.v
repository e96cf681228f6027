(** Model of the lint rules that look at one element: crates/oxvg_lint/src/rules.
    Values are as in KnownModel.v, with whether some of the text of a path was left over; ranges and help are left out (C106 has the printing). *)
From Coq Require Import String List NArith Bool.
From Verif Require Import Chars NameModel AttrTable ElemTable ElemModel KnownModel ExcerptModel.
Import ListNotations.

(** An attribute (crates/oxvg_collections/src/attribute.rs:439-460): its name, value, and whether a path or points were not read to the end (no_invalid_attributes.rs:36-38). *)
Record attr : Type := mkAttr { a_id : attr_id; a_value : avalue; a_rest : bool }.
(** attribute.rs 434-443 (crates/oxvg_collections/src) [Attr::name]: without an alias. *)
Definition a_name (a : attr) : attr_id := ABase (id_unaliased (a_id a)).
(** crates/oxvg_lint/src/error.rs:120-132 [NoXLinkProblem]. *)
Inductive xlink_problem : Type := ShowReplace | ShowNew | Title | Href | Unsupported (a : attr_id).
(** crates/oxvg_lint/src/error.rs:35-64, 93-98 [Problem]. *)
Inductive problem : Type :=
| UnknownAttribute (a : attr_id) (e : elem_id)
| UnknownElement (parent e : elem_id)
| DeprecatedElement (e : elem_id)
| DeprecatedAttribute (a : attr_id)
| DefaultAttribute (a : attr_id)
| NoXLink (p : xlink_problem)
| InvalidAttribute (a : attr_id).

(** name.rs 8-12 (crates/oxvg_collections/src) [is_prefix!]. *)
Definition has_prefix (p : prefix) (k : known) : bool := match prefix_unaliased p with PKnown x => known_eqb x k | _ => false end.
(** no_unknown_elements.rs:10-40. *)
Definition no_unknown_elements (parent : option elem_id) (e : elem_id) : list problem :=
  match parent with
  | None => []
  | Some parent => if negb (has_prefix (elem_prefix e) SVG) then [] else if is_permitted_child parent e then [] else [UnknownElement parent e]
  end.
(** no_unknown_attributes.rs:28-33; the ids of [expected_attributes] are known ones. *)
Definition expected (e : elem_id) (a : attr_id) : bool :=
  match id_unaliased a with BKnown k => existsb (text_eqb (kind_id k)) (elem_attrs e) | BUnknown _ => false end
  || intersects (elem_groups e) (id_groups a) || prefix_eqb (id_prefix a) (PKnown XMLNS).
(** no_unknown_attributes.rs:11-49. *)
Definition no_unknown_attributes (e : elem_id) (attrs : list attr) : list problem :=
  match e with
  | EUnknown _ _ => []
  | _ => flat_map (fun a => if expected e (a_id a) then [] else [UnknownAttribute (a_name a) e]) attrs
  end.
(** crates/oxvg_collections/src/element/category.rs:98 [Legacy]. *)
Definition legacy : N := 2.
(** crates/oxvg_collections/src/attribute/group.rs:107-112 [DeprecatedSafe] and [DeprecatedUnsafe]. *)
Definition deprecated : N := 3.
(** no_deprecated.rs:8-48. *)
Definition no_deprecated (e : elem_id) (attrs : list attr) : list problem :=
  (if intersects (elem_info e) legacy then [DeprecatedElement e] else []) ++
  flat_map (fun a => if intersects (id_info (a_name a)) deprecated then [DeprecatedAttribute (a_name a)] else []) attrs.
(** no_default_attributes.rs:7-29. *)
Definition no_default_attributes (attrs : list attr) : list problem :=
  flat_map (fun a => match id_default (a_name a) with Some d => if avalue_eqb (a_value a) d && negb (a_rest a) then [DefaultAttribute (a_name a)] else [] | None => [] end) attrs.
(** no_xlink.rs:20-35. *)
Definition xlink_problem_of (a : attr) : option xlink_problem :=
  if is_kind (a_id a) "XLinkShow" && avalue_eqb (a_value a) (Typed (lit "replace")) then Some ShowReplace
  else if is_kind (a_id a) "XLinkShow" && avalue_eqb (a_value a) (Typed (lit "new")) then Some ShowNew
  else if is_kind (a_id a) "XLinkTitle" && match a_value a with Typed _ => true | _ => false end then Some Title
  else if is_kind (a_id a) "XLinkHref" && match a_value a with Typed _ => true | _ => false end then Some Href
  else if has_prefix (id_prefix (a_name a)) XLink then Some (Unsupported (a_name a)) else None.
(** no_xlink.rs:11-45. *)
Definition no_xlink (attrs : list attr) : list problem := flat_map (fun a => match xlink_problem_of a with Some p => [NoXLink p] | None => [] end) attrs.
(** no_invalid_attributes.rs:11-51; an aliased attribute is none of those looked for. *)
Definition no_invalid_attributes (attrs : list attr) : list problem :=
  flat_map (fun a => match a_id a with
                     | ABase (BKnown _) => match a_value a with Unparsed _ => [InvalidAttribute (a_id a)] | Typed _ => if a_rest a then [InvalidAttribute (a_id a)] else [] end
                     | _ => []
                     end) attrs.

(** rules/mod.rs:55-80 [Rules], without the rules of C46 and C47. *)
Record rules : Type := mkRules { r_elements : severity; r_attributes : severity; r_deprecated : severity; r_default : severity; r_xlink : severity; r_invalid : severity }.
(** rules/mod.rs:143-146 and the like: a rule that is off is skipped, the others hand their severity on. *)
Definition run (s : severity) (l : list problem) : list (problem * severity) := match s with Off => [] | _ => map (fun p => (p, s)) l end.
(** rules/mod.rs:136-167 [element]: what is reported for an element. *)
Definition report (r : rules) (parent : option elem_id) (e : elem_id) (attrs : list attr) : list (problem * severity) :=
  run (r_elements r) (no_unknown_elements parent e) ++ run (r_attributes r) (no_unknown_attributes e attrs) ++ run (r_deprecated r) (no_deprecated e attrs) ++
  run (r_default r) (no_default_attributes attrs) ++ run (r_xlink r) (no_xlink attrs) ++ run (r_invalid r) (no_invalid_attributes attrs).
(** parse.rs:33-44 [Rules::off] and 47-58 [Rules::recommended] (crates/oxvg_lint/src). *)
Definition rules_off : rules := mkRules Off Off Off Off Off Off.
(** parse.rs:47-58 [Rules::recommended]. *)
Definition rules_recommended : rules := mkRules Err Err Err Warn Warn Err.
