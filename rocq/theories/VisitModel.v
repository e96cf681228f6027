(** Model of the visitor driver (crates/oxvg_ast/src/visitor.rs). *)
From Coq Require Import List Bool.
Import ListNotations.

(** node.rs 50-75 [node::Type]; for elements whether [is_element!(element, ForeignObject)]. *)
Inductive kind : Type :=
| KDocument | KElement (foreign_object : bool)
| KStyle | KText | KComment | KDoctype | KPI | KFragment.

(** A document as the visitor walks it (node.rs [child_nodes_iter], visitor.rs 361).  Simplification: the tree is not changed by the
    callbacks during the walk. *)
Inductive tree : Type := Tree (id : nat) (k : kind) (children : list tree).

(** visitor.rs 105-118 [ContextFlags], the two flags the driver touches. *)
Record flags : Type := mkFlags { within_fo : bool; skip_children : bool }.

(** The callbacks of the trait (visitor.rs 138-224) as observable events; element events carry
    the [within_foreign_object] flag the callback sees. *)
Inductive event : Type :=
| EvDocument (id : nat) | EvExitDocument (id : nat)
| EvElement (id : nat) (within : bool) | EvExitElement (id : nat) (within : bool)
| EvStyle (id : nat) | EvText (id : nat) | EvComment (id : nat) | EvDoctype (id : nat)
| EvPI (id : nat).

(** What a callback does: whether it calls [visit_skip] (visitor.rs 120-126) and whether it
    returns [Err]. *)
Record outcome : Type := mkOutcome { asks_skip : bool; fails : bool }.

(** State of a run (visitor.rs 312-378): events so far (in order), flags, and whether it is still [Ok]. *)
Definition run : Type := (list event * flags * bool)%type.

(** Calling one callback and propagating its error ([?]).  Only [element] and [exit_element] get
    the context mutably (visitor.rs 162-180; the other callbacks take [&Context] or no context). *)
Definition call (cb : event -> outcome) (e : event) (fl : flags) : run :=
  let o := cb e in
  let fl := match e with
            | EvElement _ _ | EvExitElement _ _ =>
                if asks_skip o then mkFlags (within_fo fl) true else fl
            | _ => fl
            end in
  ([e], fl, negb (fails o)).

(** Sequencing with [?] (Rust's error propagation, used throughout visitor.rs 294-378). *)
Definition andthen (r : run) (next : flags -> run) : run :=
  let '(es, fl, ok) := r in
  if ok then let '(es', fl', ok') := next fl in (es ++ es', fl', ok') else (es, fl, false).

(** [try_for_each] (std, used at visitor.rs 362). *)
Definition try_for_each {A} (f : A -> flags -> run) : list A -> flags -> run :=
  fix go l fl :=
  match l with
  | [] => ([], fl, true)
  | x :: l => andthen (f x fl) (go l)
  end.

(** visitor.rs 312-349 [visit] together with the dispatch of [visit_children] (355-378): the
    [Document]/[Element] arms are [visit], the others a single callback. *)
Fixpoint visit_node (cb : event -> outcome) (t : tree) (fl : flags) : run :=
  match t with
  | Tree id KDocument cs =>
      andthen (call cb (EvDocument id) fl) (fun fl =>
      andthen (try_for_each (visit_node cb) cs fl) (fun fl =>
      call cb (EvExitDocument id) fl))
  | Tree id (KElement fo) cs =>
      let is_root_fo := negb (within_fo fl) && fo in
      let fl := if is_root_fo then mkFlags true (skip_children fl) else fl in
      andthen (call cb (EvElement id (within_fo fl)) fl) (fun fl =>
      andthen (if skip_children fl then ([], mkFlags (within_fo fl) false, true)
               else try_for_each (visit_node cb) cs fl) (fun fl =>
      andthen (call cb (EvExitElement id (within_fo fl)) fl) (fun fl =>
      ([], (if is_root_fo then mkFlags false (skip_children fl) else fl), true))))
  | Tree id KStyle _ => call cb (EvStyle id) fl
  | Tree id KText _ => call cb (EvText id) fl
  | Tree id KComment _ => call cb (EvComment id) fl
  | Tree id KDoctype _ => call cb (EvDoctype id) fl
  | Tree id KPI _ => call cb (EvPI id) fl
  | Tree _ KFragment _ => ([], fl, true)
  end.

(** visitor.rs 294-306 [start_with_context]: [prepare] either fails, asks to skip the document,
    or lets the visit start.  The root is an element or document ([Element::from_parent]). *)
Inductive prepare_outcome : Type := PErr | PSkip | PVisit.
(** visitor.rs:294-306 [start_with_context]. *)
Definition start (p : prepare_outcome) (cb : event -> outcome) (root : tree) (fl : flags) : run :=
  match p with
  | PErr => ([], fl, false)
  | PSkip => ([], fl, true)
  | PVisit => visit_node cb root fl
  end.
