(** A visitor that edits the document while it is walked: every node has an edit, done through the node's own
    operations from the callbacks of crates/oxvg_ast/src/visitor.rs. *)
From Coq Require Import List Arith Bool.
From Verif Require Import DomModel WalkModel.
Import ListNotations.

(** What is done to a node: nothing; [remove] (crates/oxvg_ast/src/node.rs:593-620) from [element] (visitor.rs:162-168) or, for nodes that
    are not elements, from their callback; [remove] from [exit_element] (visitor.rs:174-180); [flatten]
    (crates/oxvg_ast/src/element.rs:613-655) from [exit_element]. *)
Inductive edit : Type := Leave | RemoveFirst | RemoveLast | Unwrap.
(** The visitor's log: a callback and the node it got (visitor.rs:312-380). *)
Inductive call : Type := CElement (n : nat) | CExit (n : nat) | CNode (n : nat).

Section Policy.
  Variable D : Type.
  Variable plan : nat -> edit.
  (** [element] (visitor.rs:162-168). *)
  Definition plan_enter (fuel : nat) (s : wstate D (list call)) (n : nat) : option (wstate D (list call) * bool) :=
    let s := put_aux s (w_aux s ++ [CElement n]) in
    match plan n with RemoveFirst => Some (put_heap s (remove (w_heap s) n), false) | _ => Some (s, false) end.
  (** [exit_element] (visitor.rs:174-180). *)
  Definition plan_exit (fuel : nat) (s : wstate D (list call)) (n : nat) : option (wstate D (list call)) :=
    let s := put_aux s (w_aux s ++ [CExit n]) in
    match plan n with
    | RemoveLast => Some (put_heap s (remove (w_heap s) n))
    | Unwrap => match flatten fuel (w_heap s) n with Some h => Some (put_heap s h) | None => None end
    | _ => Some s
    end.
  (** The callbacks for text, comments and so on (visitor.rs:186-224). *)
  Definition plan_leaf (fuel : nat) (s : wstate D (list call)) (n : nat) : option (wstate D (list call)) :=
    let s := put_aux s (w_aux s ++ [CNode n]) in
    match plan n with Leave => Some s | _ => Some (put_heap s (remove (w_heap s) n)) end.
End Policy.
