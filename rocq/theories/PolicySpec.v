(** What a walk with edits should do: every node gets its callbacks once, in the order of the document as it was, and the
    edits are done. *)
From Coq Require Import List Arith Bool.
From Verif Require Import WalkSpec PolicyModel.
Import ListNotations.

Section Spec.
  Context {D : Type}.
  Variable is_elem : D -> bool.
  Variable plan : nat -> edit.
  (** The callbacks: elements before and after what is below them. *)
  Fixpoint calls (t : wtree D) : list call :=
    match t with W n d kids =>
      if is_elem d then CElement n :: flat_map calls kids ++ [CExit n] else [CNode n]
    end.
  (** The document with the edits done: removed nodes go with what is below them, an unwrapped element is replaced by its
      children; a node that is not an element is removed whatever the edit. *)
  Fixpoint edited (t : wtree D) : list (wtree D) :=
    match t with W n d kids =>
      if is_elem d then
        match plan n with
        | Leave => [W n d (flat_map edited kids)]
        | Unwrap => flat_map edited kids
        | _ => []
        end
      else match plan n with Leave => [t] | _ => [] end
    end.
End Spec.
