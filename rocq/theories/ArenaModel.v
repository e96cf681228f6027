(** Model of the node arena and its id table (crates/oxvg_ast/src/arena.rs).
    A node pointer is a [nat] (its position in the arena's storage); the tree links of the nodes
    are a [DomModel.heap] keyed by pointer. *)
From Coq Require Import List Arith Bool.
From Verif Require Import DomModel.
Import ListNotations.

(** arena.rs 11, 24-31 [Arena] and [Allocator]: storage order, the [id] cell of every node
    (node.rs 183), and the id table.  The string arena is not modelled.  One allocator at a time
    (arena.rs 52-54 asks for that; [Clone] is not modelled). *)
Record arena : Type := mkArena {
  nodes : list nat;
  ids : nat -> nat;
  indices : list nat
}.

(** [Cell::set] on a node's [id] (arena.rs:75-82, 120-144). *)
Definition set_id (f : nat -> nat) (p v : nat) : nat -> nat :=
  fun q => if q =? p then v else f q.

(** An empty arena with its allocator: arena.rs 34-36, 51-73. *)
Definition empty_arena : arena := mkArena [] (fun _ => 0) [].

(** arena.rs 75-82 [Allocator::alloc]; returns the new pointer. *)
Definition alloc_node (a : arena) : arena * nat :=
  let id := length (indices a) in
  let p := length (nodes a) in
  (mkArena (nodes a ++ [p]) (set_id (ids a) p id) (indices a ++ [p]), p).

(** Result of [Allocator::get]: a node, nothing, or the assertion failure at arena.rs 104. *)
Inductive got : Type := Found (p : nat) | Missing | Panic.

(** arena.rs 99-107 [Allocator::get]. *)
Definition get (a : arena) (id : nat) : got :=
  match nth_error (indices a) id with
  | None => Missing
  | Some p => if ids a p =? id then Found p else Panic
  end.

(** [vec\[i\] = v] (std); [None] is the out-of-bounds panic (arena.rs:60-66, 120-144). *)
Fixpoint set_nth (l : list nat) (i v : nat) : option (list nat) :=
  match l, i with
  | [], _ => None
  | _ :: r, 0 => Some (v :: r)
  | x :: r, S i => option_map (cons x) (set_nth r i v)
  end.

(** arena.rs 60-66: the loop of [Allocator::new]. *)
Fixpoint new_loop (f : nat -> nat) (len : nat) (ns : list nat) (table : list nat)
  : option (list nat) :=
  match ns with
  | [] => Some table
  | p :: ns =>
      let table := match table with [] => repeat p len | _ => table end in
      match set_nth table (f p) p with
      | None => None
      | Some table => new_loop f len ns table
      end
  end.

(** arena.rs 51-73 [Allocator::new] over existing storage. *)
Definition new_allocator (ns : list nat) (f : nat -> nat) : option arena :=
  match new_loop f (length ns) ns [] with
  | Some table => Some (mkArena ns f table)
  | None => None
  end.

(** arena.rs 144-160 [Allocator::reorder_internal]; the [while] over siblings is the second
    function.  Fuel bounds the recursion; exhaustion is [None]. *)
Fixpoint reorder_internal (fuel : nat) (h : heap) (f : nat -> nat) (node id : nat)
  : option ((nat -> nat) * nat) :=
  match fuel with
  | O => None
  | S fuel =>
      let f := set_id f node id in
      match first (h node) with
      | None => Some (f, id)
      | Some c =>
          match reorder_internal fuel h f c (S id) with
          | None => None
          | Some (f, id) => reorder_siblings fuel h f c id
          end
      end
  end
with reorder_siblings (fuel : nat) (h : heap) (f : nat -> nat) (c id : nat)
  : option ((nat -> nat) * nat) :=
  match fuel with
  | O => None
  | S fuel =>
      match next (h c) with
      | None => Some (f, id)
      | Some s =>
          match reorder_internal fuel h f s (S id) with
          | None => None
          | Some (f, id) => reorder_siblings fuel h f s id
          end
      end
  end.

(** arena.rs 123-125: all ids moved out of range. *)
Fixpoint reset_ids (f : nat -> nat) (table : list nat) (len : nat) : nat -> nat :=
  match table with
  | [] => f
  | p :: table => reset_ids (set_id f p len) table len
  end.

(** arena.rs 129-134: ids for the nodes outside of the tree. *)
Fixpoint renumber_rest (f : nat -> nat) (table : list nat) (len index : nat) : nat -> nat :=
  match table with
  | [] => f
  | p :: table =>
      if f p =? len then renumber_rest (set_id f p index) table len (S index)
      else renumber_rest f table len index
  end.

(** arena.rs 120-142 [Allocator::reorder]; returns the new state and the tree length. *)
Definition reorder (fuel : nat) (h : heap) (a : arena) (root : nat) : option (arena * nat) :=
  let len := length (nodes a) in
  let f := reset_ids (ids a) (indices a) len in
  match reorder_internal fuel h f root 0 with
  | None => None
  | Some (f, last_id) =>
      let tree_len := last_id + 1 in
      let f := renumber_rest f (indices a) len tree_len in
      let table := sort_by (fun x y => Nat.compare (f x) (f y)) (indices a) in
      Some (mkArena (nodes a) f table, tree_len)
  end.

(** [impl Iterator for Iter] and [Allocator::iter] (arena.rs 109-115, 162-193): the table in
    order. *)
Definition iter_nodes (a : arena) : list nat := indices a.

(** [#\[derive(Clone)\] Allocator] (arena.rs 23): a clone shares the storage but copies the id
    table; [alloc_via] is [alloc] (75-82) through one of several tables over one storage. *)
Definition alloc_via (ns : list nat) (f : nat -> nat) (table : list nat)
  : list nat * (nat -> nat) * list nat * nat :=
  let id := length table in
  let p := length ns in
  (ns ++ [p], set_id f p id, table ++ [p], p).
