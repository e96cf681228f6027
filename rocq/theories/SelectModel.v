(** Model of the selection of an actor (crates/oxvg_actions/src/effects.rs, state.rs and
    actions/state.rs).  A node is a [nat], its position in the arena's storage, as in ArenaModel.
    The ids attribute is a list of numbers; the text it is printed to and read from (list_of.rs) is
    the subject of C43.  Errors (a document without root element, queries that do not parse) leave
    the selection alone and are not modelled. *)
From Coq Require Import List Arith Bool.
Import ListNotations.

(** [Actor] with [State] (actions.rs, state.rs:33-39): the id table of the allocator (arena.rs:24-31;
    a node's id is its position, C07), the ids attribute of the cached selection element, whether
    that element is a child of the state element, and whether the state element is in the document. *)
Record actor : Type := mkActor {
  table : list nat;
  cached : option (option (list nat));
  attached : bool;
  embedded : bool
}.

(** [Allocator::alloc] of [n] nodes (arena.rs:75-82). *)
Definition fresh (t : list nat) (n : nat) : list nat := seq (length t) n.
(** [Allocator::alloc] of [n] nodes (crates/oxvg_ast/src/arena.rs:75-82). *)
Definition alloc (n : nat) (a : actor) : actor :=
  mkActor (table a ++ fresh (table a) n) (cached a) (attached a) (embedded a).
(** [Allocator::get] (arena.rs:99-107). *)
Definition get (t : list nat) (id : nat) : option nat := nth_error t id.
(** [Node::id] (node.rs:183). *)
Fixpoint id_of (t : list nat) (p : nat) : nat :=
  match t with [] => 0 | q :: t => if q =? p then 0 else S (id_of t p) end.
(** [Allocator::reorder] (arena.rs:120-144): the tree first, in document order, then the rest in its
    old order (proved of the code's steps as C07). *)
Definition mem (p : nat) (l : list nat) : bool := existsb (Nat.eqb p) l.
(** [Allocator::reorder] (crates/oxvg_ast/src/arena.rs:120-144). *)
Definition reorder (tree t : list nat) : list nat := tree ++ filter (fun p => negb (mem p tree)) t.

(** [filter_map] (std) (effects.rs:89, info.rs:146). *)
Fixpoint filter_map {A B} (f : A -> option B) (l : list A) : list B :=
  match l with [] => [] | a :: l => match f a with Some b => b :: filter_map f l | None => filter_map f l end end.

(** [State::get_selections] (state.rs:158-173). *)
Definition get_selections (a : actor) : actor :=
  match cached a with
  | Some _ => a
  | None => let a := alloc 1 a in mkActor (table a) (Some None) true (embedded a)
  end.
(** [Actor::get_selections_list] (actions.rs:211-222), after [get_selections]. *)
Definition ids_list (a : actor) : option (list nat) := match cached a with Some o => o | None => None end.

(** [effect_selection] (effects.rs:58-75); [State::embed] (state.rs:105-135) puts the state element into the
    document because the selection element is cached. *)
Definition effect_selection (ids : list nat) (a : actor) : actor :=
  let a := get_selections a in
  match ids with
  | [] => mkActor (table a) (Some None) false (embedded a)
  | _ => mkActor (table a) (Some (Some ids)) (attached a) true
  end.

(** [effect_tree] (effects.rs:79-94); [tree] lists the document in document order. *)
Definition effect_tree (tree : list nat) (a : actor) : actor :=
  let a := get_selections a in
  let re a := mkActor (reorder tree (table a)) (cached a) (attached a) (embedded a) in
  match ids_list a with
  | None => re a
  | Some ids =>
    let nodes := filter_map (get (table a)) ids in
    let a := re a in
    effect_selection (map (id_of (table a)) nodes) a
  end.

(** A query: ids typed by the user, or the nodes a selector matches (actions/state.rs:91-108). *)
Inductive query : Type := ByIds (ids : list nat) | ByNodes (nodes : list nat).
(** [select_internal] (actions/state.rs:91-108). *)
Definition select_internal (q : query) (a : actor) : list nat :=
  match q with ByIds ids => ids | ByNodes nodes => map (id_of (table a)) nodes end.

(** What an action does.  [Other]: attributes, classes, styles and transforms, which look at the
    selection (manipulate.rs:28-30, transform.rs:116-118).  [Change]: inserting elements and the path
    operations, which create some nodes, leave the document as [tree] and may choose new nodes to
    select (structure/creation.rs:41-62, manipulate/path.rs:22-83). *)
Inductive act : Type :=
| Select (q : query) | SelectMore (q : query) | Deselect | Forget
| Other
| Change (created : nat) (tree : list nat) (chosen : option (list nat)).

(** An action, with the number of nodes its record in the history takes (state.rs:153-156, 175-190,
    396-464).  In order: actions/state.rs:48-53, 67-75, 86-89, 23-35. *)
Definition step (a : actor) (na : nat * act) : actor :=
  let a := alloc (fst na) a in
  match snd na with
  | Select q => effect_selection (select_internal q a) a
  | SelectMore q =>
    let a := get_selections a in
    let old := match ids_list a with Some l => l | None => [] end in
    effect_selection (old ++ select_internal q a) a
  | Deselect => effect_selection [] a
  | Forget =>
    let a := effect_selection [] a in mkActor (table a) (cached a) (attached a) false
  | Other => get_selections a
  | Change created tree chosen =>
    let a := alloc created (get_selections a) in
    effect_tree tree
      match chosen with
      | Some nodes => effect_selection (map (id_of (table a)) nodes) a
      | None => a
      end
  end.

(** A new actor on a document without state (actions.rs:150-159, state.rs:77-103): the document's [n]
    nodes and the state element. *)
Definition new_actor (n : nat) : actor := mkActor (seq 0 (S n)) None false false.

(** The selection reported by [DerivedState::from_state] (state.rs:198-210). *)
Definition derived (a : actor) : list nat := match ids_list a with Some l => l | None => [] end.
(** The ids in the document: those of an [oxvg:selection] in an [oxvg:state] in the document (state.rs:105-133, 158-173). *)
Definition in_document (a : actor) : option (list nat) :=
  if embedded a && attached a then ids_list a else None.
