(** Property theorems C08 (visitor). *)
From Coq Require Import List Bool.
From Verif Require Import VisitModel VisitSpec VisitProofs.
Import ListNotations.

(** For every tree and every set of callbacks that ask to skip only on entering an element, the
    callbacks run in document order, skipping exactly the descendants of the elements that asked,
    with [within_foreign_object] set exactly at and below a foreignObject, up to and including
    the first failing callback; the run is [Ok] iff none failed. *)
Theorem C08_visit_order cb root w :
  no_exit_skip cb ->
  fst (fst (start PVisit cb root (mkFlags w false))) =
    until_failure (fun e => fails (cb e)) (trace (fun e => asks_skip (cb e)) w root) /\
  snd (start PVisit cb root (mkFlags w false)) =
    negb (existsb (fun e => fails (cb e)) (trace (fun e => asks_skip (cb e)) w root)).
Proof. exact (start_trace cb root w). Qed.
Print Assumptions C08_visit_order.

(** The flags are back to their initial value after a successful visit. *)
Theorem C08_flags_restored cb root w : no_exit_skip cb ->
  existsb (fun e => fails (cb e)) (trace (fun e => asks_skip (cb e)) w root) = false ->
  snd (fst (visit_node cb root (mkFlags w false))) = mkFlags w false.
Proof. exact (fun H => proj2 (proj2 (visit_trace cb H root w))). Qed.
Print Assumptions C08_flags_restored.

(** No callback is run twice for the same node, and every event is about a node of the tree. *)
Theorem C08_each_once skips w root : NoDup (tree_ids root) -> NoDup (trace skips w root).
Proof. exact (trace_nodup skips root w). Qed.
Print Assumptions C08_each_once.

(** Without skips every element is entered, in document order. *)
Theorem C08_every_element w root : entered (trace (fun _ => false) w root) = element_ids root.
Proof. exact (trace_elements root w). Qed.
Print Assumptions C08_every_element.

(** A preparation that fails or asks to skip runs no callback. *)
Theorem C08_prepare cb root fl :
  start PSkip cb root fl = ([], fl, true) /\ start PErr cb root fl = ([], fl, false).
Proof. exact (conj eq_refl eq_refl). Qed.
Print Assumptions C08_prepare.

(** Asking to skip while leaving an element suppresses the children of the next element. *)
Definition c08_doc : tree :=
  Tree 0 (KElement false)
    [Tree 1 (KElement false) []; Tree 2 (KElement false) [Tree 3 KText []; Tree 4 (KElement true) [Tree 5 KComment []]]].
Definition c08_leave_skip (e : event) : outcome :=
  match e with EvExitElement 1 _ => mkOutcome true false | _ => mkOutcome false false end.
Theorem C08_exit_skip_leaks_refuted :
  exists cb root, ~ In (EvText 3) (fst (fst (start PVisit cb root (mkFlags false false)))) /\
  (forall id w, asks_skip (cb (EvElement id w)) = false) /\
  In (EvText 3) (trace (fun e => match e with EvElement _ _ => asks_skip (cb e) | _ => false end) false root).
Proof.
  exists c08_leave_skip, c08_doc. split; [|split].
  - vm_compute. intuition discriminate.
  - reflexivity.
  - vm_compute. tauto.
Qed.
Print Assumptions C08_exit_skip_leaks_refuted.

(** A concrete run: element 2 asks to skip nothing, 4 is a foreignObject whose comment fails. *)
Definition c08_cb (e : event) : outcome :=
  match e with EvComment _ => mkOutcome false true | EvElement 1 _ => mkOutcome true false
             | _ => mkOutcome false false end.
Example C08_example : no_exit_skip c08_cb /\
  start PVisit c08_cb c08_doc (mkFlags false false) =
  ([EvElement 0 false; EvElement 1 false; EvExitElement 1 false; EvElement 2 false; EvText 3;
    EvElement 4 true; EvComment 5], mkFlags true false, false) /\
  NoDup (tree_ids c08_doc).
Proof.
  split; [intros ? ?; reflexivity|]. split; [vm_compute; reflexivity|].
  vm_compute. repeat (constructor; [simpl; intuition discriminate|]). constructor.
Qed.
