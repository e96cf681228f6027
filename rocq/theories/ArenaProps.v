(** Property theorems C07 (allocation ids). *)
From Coq Require Import List Arith Bool Permutation Lia.
From Verif Require Import DomModel DomSpec DomProofs4 ArenaModel ArenaSpec ArenaProofs.
Import ListNotations.

(** At every point of every history of allocations and reorders through one allocator, ids and
    nodes are in bijection. *)
Theorem C07_ids_identify_nodes fuel ops a :
  history fuel empty_arena ops a ->
  (forall p, In p (nodes a) -> get a (ids a p) = Found p) /\
  (forall i, i < length (nodes a) -> exists p, get a i = Found p /\ ids a p = i /\ In p (nodes a)) /\
  (forall i, length (nodes a) <= i -> get a i = Missing) /\
  (forall p q, In p (nodes a) -> In q (nodes a) -> ids a p = ids a q -> p = q).
Proof.
  exact (fun H => get_ok a (proj2 (history_ok fuel empty_arena ops a H eq_refl empty_ok))).
Qed.
Print Assumptions C07_ids_identify_nodes.

(** Allocating returns a new node with the next id and changes no other node's id. *)
Theorem C07_alloc a : storage_ok a -> IdsOk a ->
  storage_ok (fst (alloc_node a)) /\ IdsOk (fst (alloc_node a)) /\
  get (fst (alloc_node a)) (length (indices a)) = Found (snd (alloc_node a)) /\
  (forall p, In p (nodes a) -> ids (fst (alloc_node a)) p = ids a p) /\
  ~ In (snd (alloc_node a)) (nodes a).
Proof. exact (alloc_ok a). Qed.
Print Assumptions C07_alloc.

(** Reordering lists the tree first, in document order, then every other node in its old
    relative order; the returned length is the size of the tree. *)
Theorem C07_reorder_document_order h k a root l :
  Repr h k -> IdsOk a -> preorder k root l -> incl l (nodes a) ->
  exists F, forall fuel, F <= fuel -> exists a',
    reorder fuel h a root = Some (a', length l) /\
    nodes a' = nodes a /\
    indices a' = l ++ filter (fun p => negb (memb p l)) (indices a) /\
    IdsOk a'.
Proof. exact (reorder_spec h k a root l). Qed.
Print Assumptions C07_reorder_document_order.

(** Creating a new allocator over the same storage rebuilds the same table. *)
Theorem C07_new_allocator a : IdsOk a -> new_allocator (nodes a) (ids a) = Some a.
Proof. exact (new_allocator_ok a). Qed.
Print Assumptions C07_new_allocator.

(** Two clones of an allocator hand out the same id twice. *)
Theorem C07_cloned_allocator_refuted : exists ns f table,
  let '(ns1, f1, _, p1) := alloc_via ns f table in
  let '(_, f2, _, p2) := alloc_via ns1 f1 table in
  p1 <> p2 /\ f2 p1 = f2 p2.
Proof. exact (ex_intro _ [] (ex_intro _ (fun _ => 0) (ex_intro _ [] (conj (n_Sn 0) eq_refl)))). Qed.
Print Assumptions C07_cloned_allocator_refuted.

(** A non-trivial instance: six nodes, the tree of [demo] (root 0; nodes 4 and 5 below 1), node 6
    outside. *)
Example C07_demo_preorder : preorder demo_kids 0 [0; 1; 4; 5; 2; 3].
Proof.
  apply (PO demo_kids 0 [[1; 4; 5]; [2]; [3]]).
  constructor; [apply (PO demo_kids 1 [[4]; [5]])|].
  - constructor; [apply (PO demo_kids 4 [])|constructor; [apply (PO demo_kids 5 [])|constructor]];
      constructor.
  - constructor; [apply (PO demo_kids 2 [])|constructor; [apply (PO demo_kids 3 [])|constructor]];
      constructor.
Qed.
Example C07_demo_reorder :
  option_map (fun r => (indices (fst r), snd r))
    (reorder 20 demo (Nat.iter 7 (fun a => fst (alloc_node a)) empty_arena) 0)
  = Some ([0; 1; 4; 5; 2; 3; 6], 6).
Proof. vm_compute. reflexivity. Qed.
