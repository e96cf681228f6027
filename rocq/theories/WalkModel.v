(** Model of the visitor driver together with callbacks that edit the document while it is walked
    (crates/oxvg_ast/src/visitor.rs:294-378 over the links of DomModel). *)
From Coq Require Import List Arith Bool.
From Verif Require Import DomModel.
Import ListNotations.

Section Walk.
  (** What a node carries besides its links ([node_data], crates/oxvg_ast/src/node.rs:77-112), and the state
      a visitor keeps in its own cells. *)
  Variables D X : Type.
  (** [node_type() == Type::Element] (visitor.rs:317-323, 363). *)
  Variable is_elem : D -> bool.

  (** A document: the links, what the nodes carry, and the visitor's own state (node.rs:166-184). *)
  Record wstate : Type := mkState { w_heap : heap; w_info : nat -> D; w_aux : X }.

  (** Writing through a node reference: its links, what it carries (node.rs:166-184). *)
  Definition put_heap (s : wstate) (h : heap) : wstate := mkState h (w_info s) (w_aux s).
  (** Writing what a node carries (node.rs:166-184). *)
  Definition put_info (s : wstate) (n : nat) (d : D) : wstate :=
    mkState (w_heap s) (fun m => if m =? n then d else w_info s m) (w_aux s).
  (** Writing the state of the visitor (visitor.rs:130-224: interior mutability of [&self]). *)
  Definition put_aux (s : wstate) (x : X) : wstate := mkState (w_heap s) (w_info s) x.

  (** The callbacks of a visitor (visitor.rs:138-224): [element] with whether it asks to skip the children
      (visitor.rs:120-126), [exit_element], and the callbacks of all other nodes taken together.  [None]
      is an error, a panic, or a walk inside the callback that did not end within the fuel. *)
  Variable enter : nat -> wstate -> nat -> option (wstate * bool).
  Variable exit : nat -> wstate -> nat -> option wstate.
  Variable leaf : nat -> wstate -> nat -> option wstate.

  (** [visit] (visitor.rs:312-349) and [visit_children] (visitor.rs:355-377).  The iterator over the
      children lives across the callbacks.  Simplification: the flag [within_foreign_object] is left out
      (see VisitModel), the fuel bounds the walk. *)
  Fixpoint visit (fuel : nat) (s : wstate) (n : nat) {struct fuel} : option wstate :=
    match fuel with
    | O => None
    | S fuel =>
        if is_elem (w_info s n) then
          match enter fuel s n with
          | None => None
          | Some (s, skip) =>
              match (if skip then Some s else walk fuel s (child_nodes_iter (w_heap s) n)) with
              | None => None
              | Some s => exit fuel s n
              end
          end
        else leaf fuel s n
    end
  with walk (fuel : nat) (s : wstate) (it : iter) {struct fuel} : option wstate :=
    match fuel with
    | O => None
    | S fuel =>
        match iter_next (w_heap s) it with
        | (_, None) => Some s
        | (it, Some c) =>
            match visit fuel s c with
            | None => None
            | Some s => walk fuel s it
            end
        end
    end.

  (** The walk from the document node (visitor.rs:318-322; [document] and [exit_document] of the modelled jobs do
      nothing). *)
  Definition visit_document (fuel : nat) (s : wstate) (root : nat) : option wstate :=
    walk fuel s (child_nodes_iter (w_heap s) root).

  (** The nodes below a node as the serialiser meets them: [serialize_node] (serialize.rs:87-140) recurses over the child
      iterator (serialize.rs:122-137).  Returns the ids in the order they are written, with the depth. *)
  Fixpoint read (fuel : nat) (s : wstate) (depth n : nat) {struct fuel} : option (list (nat * nat)) :=
    match fuel with
    | O => None
    | S fuel => option_map (cons (depth, n)) (read_all fuel s (S depth) (child_nodes_iter (w_heap s) n))
    end
  with read_all (fuel : nat) (s : wstate) (depth : nat) (it : iter) {struct fuel} : option (list (nat * nat)) :=
    match fuel with
    | O => None
    | S fuel =>
        match iter_next (w_heap s) it with
        | (_, None) => Some []
        | (it, Some c) =>
            match read fuel s depth c, read_all fuel s depth it with
            | Some a, Some b => Some (a ++ b)
            | _, _ => None
            end
        end
    end.
End Walk.
Arguments read {D X}.
Arguments read_all {D X}.
Arguments mkState {D X}.
Arguments w_heap {D X}.
Arguments w_info {D X}.
Arguments w_aux {D X}.
Arguments put_heap {D X}.
Arguments put_info {D X}.
Arguments put_aux {D X}.
