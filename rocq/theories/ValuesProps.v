(** C78: rounding numbers in attributes changes them by half a unit in the last place at most. *)
From Coq Require Import List ZArith QArith Qcanon Bool Arith Lia.
From Verif Require Import SegmentModel SegmentSpec ValuesModel ValuesSpec ValuesProofs.
Import ListNotations.
Local Close Scope Q_scope.
Local Open Scope nat_scope.

(** Every value keeps its kind, and each of its numbers changes by half a unit in the last place at most, in the unit that is written, whatever the size of relative units. *)
Theorem C78_close : forall follow o v w, job follow o v = Some w -> forall s, close s (float_precision o) v w.
Proof. exact job_close. Qed.
(** Doing it again changes nothing. *)
Theorem C78_twice : forall follow o v w, job follow o v = Some w -> job follow o w = Some w.
Proof. exact job_twice. Qed.
(** cleanupNumericValues rounds all numbers that are not in lists, and leaves no absolute unit but pixels when it is to convert them. *)
Theorem C78_numeric : forall o v w,
  job false o v = Some w -> (forall l, inner v = Points l -> v = Points l) -> tidy_single (float_precision o) (convert_to_px o) (inner w).
Proof. exact job_numeric. Qed.
(** What is missing: values that may be [inherit]. *)
Theorem C78_listed_partial : forall o v w,
  job true o v = Some w -> (forall x, v <> Defined x) -> (forall l, v = ListOf l -> Forall (fun x => forall m, x <> Points m) l) -> tidy_list (float_precision o) (convert_to_px o) (inner w).
Proof. exact job_listed. Qed.
(** A precision above five is an error, and nothing else is. *)
Theorem C78_error : forall follow o v, job follow o v = None <-> 5 < float_precision o.
Proof. exact job_error. Qed.
(** Units stay the same unless they are to be converted. *)
Theorem C78_units : forall follow o v w, job follow o v = Some w -> convert_to_px o = false -> units w = units v.
Proof. exact job_units. Qed.
(** What is written is read as the same unit. *)
Theorem C78_written : forall u, unit_read (written u) = u.
Proof. exact written_read. Qed.
Print Assumptions C78_written.
Print Assumptions C78_units.
Print Assumptions C78_close.
Print Assumptions C78_twice.
Print Assumptions C78_numeric.
Print Assumptions C78_listed_partial.
Print Assumptions C78_error.

(** [cleanupListOfValues] does not round [stroke-dasharray], which may be [inherit]. *)
Theorem C78_dashes_refuted : exists o v w, job true o v = Some w /\ ~ tidy_list (float_precision o) (convert_to_px o) (inner w).
Proof.
  exists (mkOptions 1 true true), (Defined (Dashes [DLength Px (Q2Qc (5 # 4))])), (Defined (Dashes [DLength Px (Q2Qc (5 # 4))])).
  split; [reflexivity|]. intros H. cbn in H. apply Forall_inv in H. destruct H as [[k E] _]. apply (f_equal this) in E. change (this (Q2Qc (5 # 4))) with (5 # 4)%Q in E.
  cbn [this Q2Qc] in E. assert (X : (5 # 4 == k # pow10 1)%Q) by (rewrite E; apply Qred_correct). unfold Qeq in X. cbn in X. lia.
Qed.
(** A view box of a positive size gets the size zero, and then nothing is drawn. *)
Theorem C78_view_box_refuted : exists v w, job false (mkOptions 3 true true) v = Some w /\
  match v, w with ViewBox _ _ a b, ViewBox _ _ c d => (0 < a)%Qc /\ (0 < b)%Qc /\ c = 0%Qc /\ d = 0%Qc | _, _ => False end.
Proof.
  exists (ViewBox 0 0 (Q2Qc (1 # 2500)) (Q2Qc (1 # 2500))). eexists. split; [reflexivity|].
  refine (conj _ (conj _ (conj _ _))); try (apply Qc_is_canon; vm_compute; reflexivity); reflexivity.
Qed.
(** The option to keep [px] has no effect. *)
Theorem C78_default_px_refuted : exists v u n, job false (mkOptions 3 false true) v = Some (Len u n) /\ v = Len Px n /\ written u = None.
Proof. exists (Len Px (Q2Qc 20)), Px, (Q2Qc 20). split; [|split; reflexivity]. unfold job, round. cbn. do 2 f_equal. apply Qc_is_canon. vm_compute. reflexivity. Qed.

(** [width="2.54001cm"]. *)
Example C78_cm : job false (mkOptions 3 true true) (Defined (Len Cm (Q2Qc (254001 # 100000)))) = Some (Defined (Len Px (Q2Qc 96))).
Proof. unfold job, round. cbn. do 3 f_equal. apply Qc_is_canon. vm_compute. reflexivity. Qed.
Example C78_cm_kept : job false (mkOptions 3 true false) (Defined (Len Cm (Q2Qc (254001 # 100000)))) = Some (Defined (Len Cm (Q2Qc (254 # 100)))).
Proof. unfold job, round. cbn. do 3 f_equal. apply Qc_is_canon. vm_compute. reflexivity. Qed.
(** [x="1.2345 2mm 33.33333%"]. *)
Example C78_list : job true (mkOptions 2 true false) (ListOf [Num (Q2Qc (12345 # 10000)); Len Mm (Q2Qc 2); Percent (Q2Qc (3333333 # 10000000))]) =
  Some (ListOf [Num (Q2Qc (123 # 100)); Len Mm (Q2Qc 2); Percent (Q2Qc (3333 # 10000))]).
Proof.
  unfold job, round. cbn.
  match goal with |- Some (ListOf [Num ?a; Len Mm ?b; Percent ?c]) = Some (ListOf [Num ?x; Len Mm ?y; Percent ?z]) =>
    replace a with x by (apply Qc_is_canon; vm_compute; reflexivity); replace b with y by (apply Qc_is_canon; vm_compute; reflexivity);
    replace c with z by (apply Qc_is_canon; vm_compute; reflexivity) end.
  reflexivity.
Qed.
Example C78_too_precise : job true (mkOptions 6 true false) (Num 1) = None.
Proof. reflexivity. Qed.
(** A change of a whole unit is too much. *)
Example C78_far : ~ within 1 (Q2Qc 1) (Q2Qc (11 # 10)).
Proof. intros [H _]. apply H. vm_compute. reflexivity. Qed.
