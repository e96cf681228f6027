(** C41: the selection. *)
From Coq Require Import List Arith Bool.
From Verif Require Import SelectModel SelectSpec SelectProofs.
Import ListNotations.

(** The reported selection names the selected nodes by their current ids, after any actions and any
    changes of the tree, as long as ids typed by the user exist. *)
Theorem C41_derived_partial n a sel : reached n a sel -> NoDup (table a) /\ names (table a) (derived a) sel.
Proof. exact (fun R => conj (proj1 (proj1 (reached_ok n a sel R))) (proj2 (reached_ok n a sel R))). Qed.
Print Assumptions C41_derived_partial.

(** The document names them too, until something empties the selection. *)
Theorem C41_document_partial n a sel : reached_selecting n a sel -> sel <> [] ->
  exists ids, in_document a = Some ids /\ names (table a) ids sel.
Proof. exact (reached_shown n a sel). Qed.
Print Assumptions C41_document_partial.

(** After deselecting, a new selection is never written to the document again. *)
Theorem C41_deselect_refuted : exists a sel,
  reached 3 a sel /\ sel = [1] /\ derived a = [1] /\ in_document a = None /\ embedded a = true.
Proof.
  exists (fold_left step [(3, Select (ByNodes [2])); (1, Deselect); (3, Select (ByNodes [1]))] (new_actor 3)), [1].
  split; [|repeat split; vm_compute; reflexivity].
  change (fold_left step _ _) with (step (step (step (new_actor 3) (3, Select (ByNodes [2]))) (1, Deselect)) (3, Select (ByNodes [1]))).
  assert (R1 : reached 3 (step (new_actor 3) (3, Select (ByNodes [2]))) [2]).
  { apply (reached_step 3 (new_actor 3) [] (3, Select (ByNodes [2]))); [constructor|].
    constructor; [|constructor]. vm_compute. auto. }
  assert (R2 := reached_step 3 _ _ (1, Deselect) R1 Logic.I).
  apply (reached_step 3 _ _ (3, Select (ByNodes [1])) R2).
  constructor; [|constructor]. vm_compute. auto.
Qed.
Print Assumptions C41_deselect_refuted.

(** An id that does not exist is kept, and names whichever node gets it later: here, a node of the
    history. *)
Theorem C41_unknown_id_refuted : exists a,
  a = fold_left step [(4, Select (ByIds [12])); (4, Other)] (new_actor 3) /\
  asked (table (new_actor 3)) (ByIds [12]) = [] /\
  derived a = [12] /\ get (table a) 12 = Some 12.
Proof. eexists. split; [reflexivity|]. repeat split; vm_compute; reflexivity. Qed.
Print Assumptions C41_unknown_id_refuted.

(** A change that inserts a new node in front of the selected one. *)
Example C41_example : exists a sel,
  reached_selecting 3 a sel /\ sel = [2] /\ in_document a = Some [3] /\ derived a = [3] /\
  get (table a) 3 = Some 2.
Proof.
  exists (fold_left step [(3, Select (ByIds [2])); (1, Change 1 [0; 1; 9; 2; 3; 8] None)] (new_actor 3)), [2].
  split; [|repeat split; vm_compute; reflexivity].
  change (fold_left step _ _) with (step (step (new_actor 3) (3, Select (ByIds [2]))) (1, Change 1 [0; 1; 9; 2; 3; 8] None)).
  assert (R1 : reached_selecting 3 (step (new_actor 3) (3, Select (ByIds [2]))) [2]).
  { apply (selecting_step 3 (new_actor 3) [] (3, Select (ByIds [2]))); [constructor| |discriminate].
    constructor; [|constructor]. vm_compute. auto. }
  apply (selecting_step 3 _ _ (1, Change 1 [0; 1; 9; 2; 3; 8] None) R1); [|exact Logic.I].
  split; [|split; [|exact Logic.I]].
  - repeat constructor; cbn; intros H; repeat (destruct H as [H|H]; try discriminate H); exact H.
  - intros x Hx. vm_compute in Hx |- *. tauto.
Qed.
