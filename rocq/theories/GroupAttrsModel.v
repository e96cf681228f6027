(** removeNonInheritableGroupAttrs: attributes of groups
    (crates/oxvg_optimiser/src/jobs/remove_non_inheritable_group_attrs.rs). *)
From Coq Require Import String List NArith Bool.
From Verif Require Import Chars NameModel AttrTable ElemTable ElemModel KnownModel.
Import ListNotations.

(** The attributes of an element with their text (attribute.rs 120-122, crates/oxvg_ast/src). *)
Definition attributes : Type := list (attr_id * text).
(** remove_non_inheritable_group_attrs.rs:60-72: whether an attribute of a group stays. *)
Definition keep (a : attr_id) : bool :=
  if is_kind a "VectorEffect" then false
  else negb (ElemModel.contains (id_groups a) g_presentation) || ElemModel.contains (id_info a) non_inheritable_group || inheritable_type a.
(** remove_non_inheritable_group_attrs.rs:51-75; the job visits every element, unless it is switched off (39-49). *)
Definition element (on : bool) (e : elem_id) (l : attributes) : attributes :=
  if on && elem_is e (lit "G") then filter (fun a => keep (fst a)) l else l.
