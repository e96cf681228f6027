(** removeEmptyAttrs: attributes without a value
    (crates/oxvg_optimiser/src/jobs/remove_empty_attrs.rs and [is_empty] of crates/oxvg_collections/src/content_type.rs). *)
From Coq Require Import String List NArith Bool.
From Verif Require Import Chars NameModel AttrTable ElemTable ElemModel.
Import ListNotations.

(** The value of an attribute as far as [is_empty] looks at it (content_type.rs:194-240): text and names (196-201, 208, 212, 228, 235), declarations with
    and without [!important] (202-204), lists of parts (205-206, 216, 219-220, 222, 225, 231-233), values that may be [inherit] (238), and everything else. *)
Inductive content : Type :=
| Textual (t : text)
| Declarations (plain important : nat)
| Parts (n : nat)
| Keyword (n : nat)
| Inherited
| Defined (c : content).
(** content_type.rs:194-240 [ContentType::is_empty]. *)
Fixpoint is_empty (c : content) : bool :=
  match c with
  | Textual t => match t with [] => true | _ => false end
  | Declarations p i => Nat.eqb p 0 && Nat.eqb i 0
  | Parts n => Nat.eqb n 0
  | Defined c => is_empty c
  | Keyword _ | Inherited => false
  end.
(** The attributes of an element (attribute.rs 120-122, crates/oxvg_ast/src). *)
Definition attributes : Type := list (attr_id * content).
(** attribute/group.rs 28-29 (crates/oxvg_collections/src): [ConditionalProcessing]. *)
Definition g_conditional : N := 128.
(** remove_empty_attrs.rs:52-60: whether an attribute stays. *)
Definition keep (a : attr_id * content) : bool := if ElemModel.contains (id_groups (fst a)) g_conditional then true else negb (is_empty (snd a)).
(** remove_empty_attrs.rs:35-62; the job visits every element. *)
Definition element (on : bool) (l : attributes) : attributes := if on then filter keep l else l.
