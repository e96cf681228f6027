(** What it means that a name is kept and that an attribute is expected on an element. *)
From Coq Require Import String List NArith Bool.
From Verif Require Import Chars NameModel AttrTable ElemModel.
Import ListNotations.

(** How a qualified name is written: the prefix, if any, and the local name. *)
Definition written (p : prefix) (local : text) : option text * text := (prefix_value p, local).
(** An attribute of the table has this expanded name: namespace and local name. *)
Definition named (uri local : text) (k : kind) : Prop := known_uri (kind_prefix k) = uri /\ kind_local k = local.
(** The element lists the attribute, or a group the attribute is in. *)
Definition expected (e : elem_id) (k : kind) : Prop :=
  In (kind_id k) (elem_attrs e) \/ exists b, N.testbit (elem_groups e) b = true /\ N.testbit (kind_groups k) b = true.
