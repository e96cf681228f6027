(** Specification of allocation ids: ids and nodes are in bijection, and document order. *)
From Coq Require Import List Arith Permutation.
From Verif Require Import DomModel DomSpec ArenaModel.
Import ListNotations.

(** Ids identify nodes: the id table lists every node of the arena exactly once, and the node
    at position [i] reports id [i]. *)
Record IdsOk (a : arena) : Prop := {
  ok_perm : Permutation (indices a) (nodes a);
  ok_nodup : NoDup (nodes a);
  ok_ids : forall i p, nth_error (indices a) i = Some p -> ids a p = i
}.

(** Arena storage is numbered consecutively (pointers of the model). *)
Definition storage_ok (a : arena) : Prop := nodes a = seq 0 (length (nodes a)).

(** [preorder k n l]: [l] is the subtree of [n] in document order. *)
Inductive preorder (k : kidmap) : nat -> list nat -> Prop :=
| PO n ls : Forall2 (preorder k) (k n) ls -> preorder k n (n :: concat ls).

(** Operations on the arena.  [OReorder] carries the tree links at that moment. *)
Inductive arena_op : Type :=
| OAlloc
| OReorder (h : heap) (root : nat).

(** A history: reorders are of trees whose links are consistent and whose nodes live in the
    arena. *)
Inductive history (fuel : nat) : arena -> list arena_op -> arena -> Prop :=
| H_nil a : history fuel a [] a
| H_alloc a ops a' : history fuel (fst (alloc_node a)) ops a' -> history fuel a (OAlloc :: ops) a'
| H_reorder a h k root l a1 n ops a' :
    Repr h k -> preorder k root l -> incl l (nodes a) ->
    reorder fuel h a root = Some (a1, n) ->
    history fuel a1 ops a' -> history fuel a (OReorder h root :: ops) a'.
