From Coq Require Import String List NArith Bool Lia.
From Verif Require Import Chars NameModel ElemModel TextModel TextSpec TextProofs CleanModel CleanSpec.
Import ListNotations.

Lemma xwhite_white c : xwhite c -> white c.
Proof. intros [->|[->|[->| ->]]]; reflexivity. Qed.
Lemma plain_iff v c : plain_white v -> In c v -> white c <-> xwhite c.
Proof. intros P H. split; [apply (proj1 (Forall_forall _ _) P c H)|apply xwhite_white]. Qed.
Lemma plain_app a b : plain_white (a ++ b) <-> plain_white a /\ plain_white b.
Proof. unfold plain_white. apply Forall_app. Qed.
Lemma plain_all v : plain_white v -> Forall white v <-> Forall xwhite v.
Proof. intros P. rewrite !Forall_forall. split; intros H c Hc; apply (plain_iff v c P Hc), H, Hc. Qed.
Lemma plain_solid v : plain_white v -> solid v <-> xsolid v.
Proof. intros P. unfold solid, xsolid. rewrite !Forall_forall. split; intros [H0 H]; (split; [exact H0|]); intros c Hc X; apply (H c Hc), (plain_iff v c P Hc), X. Qed.
Lemma tokens_words v ws : plain_white v -> tokens v ws <-> words_of v ws.
Proof.
  intros P. split; intros H; revert P; induction H as [s H|a w Ha Hw|a w c s ws Ha Hw Hc H IH]; intros P.
  - constructor. apply plain_all; assumption.
  - apply plain_app in P. destruct P. constructor; [apply plain_all|apply plain_solid]; assumption.
  - apply plain_app in P. destruct P as [P1 P]. apply plain_app in P. destruct P as [P2 P3]. constructor; [apply plain_all; assumption|apply plain_solid; assumption|apply xwhite_white, Hc|apply IH, P3].
  - constructor. apply plain_all; assumption.
  - apply plain_app in P. destruct P. constructor; [apply plain_all|apply plain_solid]; assumption.
  - apply plain_app in P. destruct P as [P1 P]. apply plain_app in P. destruct P as [P2 P3]. constructor; [apply plain_all; assumption|apply plain_solid; assumption| |apply IH, P3].
    apply (plain_iff (c :: s) c P3); [left; reflexivity|exact Hc].
Qed.

(** Cleaning adds no character but the space. *)
Lemma in_trim_start c s : In c (trim_start s) -> In c s.
Proof. induction s as [|x s IH]; [exact (fun H => H)|]. cbn. destruct (is_whitespace x); [intros H; right; apply IH, H|exact (fun H => H)]. Qed.
Lemma in_trim c s : In c (trim_str s) -> In c s.
Proof. unfold trim_str. rewrite <- in_rev. intros H. apply in_trim_start in H. rewrite <- in_rev in H. apply in_trim_start in H. exact H. Qed.
Lemma in_words_from s : forall cur w c, In w (words_from cur s) -> In c w -> In c cur \/ In c s.
Proof.
  induction s as [|x s IH]; intros cur w c; cbn.
  - destruct cur as [|y cur]; [intros []|]. intros [<-|[]] H. left. apply in_rev. exact H.
  - destruct (is_whitespace x).
    + destruct cur as [|y cur].
      * intros H K. destruct (IH _ _ _ H K) as [[]|X]. auto.
      * intros [<-|H] K; [left; apply in_rev; exact K|]. destruct (IH _ _ _ H K) as [[]|X]. auto.
    + intros H K. destruct (IH _ _ _ H K) as [[->|X]|X]; auto.
Qed.
Lemma in_join c ws : In c (join_space ws) -> c = 32%N \/ exists w, In w ws /\ In c w.
Proof.
  induction ws as [|w ws IH]; [intros []|]. destruct ws as [|x ws]; [intros H; right; exists w; split; [left; reflexivity|exact H]|].
  change (join_space (w :: x :: ws)) with (w ++ 32%N :: join_space (x :: ws)). intros H. apply in_app_or in H. destruct H as [H|[<-|H]].
  - right. exists w. split; [left; reflexivity|exact H].
  - auto.
  - destruct (IH H) as [E|(y & Hy & Hc)]; [auto|]. right. exists y. split; [right; exact Hy|exact Hc].
Qed.
Lemma in_clean o c s : In c (clean_value o s) -> c = 32%N \/ In c s.
Proof.
  unfold clean_value. set (s1 := if newlines o then replace_newlines s else s). set (s2 := if trim o then trim_str s1 else s1).
  assert (A : forall d, In d s1 -> d = 32%N \/ In d s).
  { intros d. unfold s1. destruct (newlines o); [|auto]. unfold replace_newlines. rewrite in_map_iff. intros (x & <- & Hx). destruct (N.eqb x 10); auto. }
  assert (B : forall d, In d s2 -> In d s1). { intros d. unfold s2. destruct (trim o); [apply in_trim|auto]. }
  destruct (spaces o).
  - intros H. apply in_join in H. destruct H as [H|(w & Hw & Hc)]; [auto|]. destruct (in_words_from _ _ _ _ Hw Hc) as [[]|X]. apply A, B, X.
  - intros H. apply A, B, H.
Qed.
Lemma clean_plain o s : plain_white s -> plain_white (clean_value o s).
Proof.
  intros P. apply Forall_forall. intros c H W. apply in_clean in H. destruct H as [->|H]; [left; reflexivity|]. apply (plain_iff s c P H), W.
Qed.
Lemma clean_tokens o s : same_tokens s (clean_value o s).
Proof. intros P ws. rewrite (tokens_words s ws P), (tokens_words _ ws (clean_plain o s P)). apply clean_words. Qed.

Lemma clean_agrees (R : text -> text -> Prop) o : (forall v, R v (clean_value o v)) -> forall n, agree R n (clean o n).
Proof.
  intros H. fix IH 1. intros [e attrs kids|t]; [|constructor]. cbn [clean]. constructor.
  - induction attrs as [|a attrs IHa]; constructor; [|exact IHa]. unfold clean_attr. destruct (c_text a) eqn:E; cbn; repeat split; try congruence; auto.
  - induction kids as [|k kids IHk]; constructor; [apply IH|exact IHk].
Qed.
Lemma clean_agrees_tokens o n : agree same_tokens n (clean o n).
Proof. apply clean_agrees. intros v. apply clean_tokens. Qed.
Lemma clean_agrees_words o n : agree (fun v w => forall ws, words_of v ws <-> words_of w ws) n (clean o n).
Proof. apply clean_agrees. intros v ws. apply clean_words. Qed.
Lemma clean_twice o n : clean o (clean o n) = clean o n.
Proof.
  revert n. fix IH 1. intros [e attrs kids|t]; [|reflexivity]. cbn [clean]. f_equal.
  - rewrite map_map. apply map_ext. intros a. unfold clean_attr. destruct (c_text a) eqn:E; cbn; [|rewrite E; reflexivity]. rewrite clean_idempotent. reflexivity.
  - induction kids as [|k kids IHk]; [reflexivity|]. cbn. rewrite IH, IHk. reflexivity.
Qed.
