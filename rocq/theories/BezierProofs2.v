From Coq Require Import List NArith ZArith QArith Qcanon Bool Arith Lia Lqa.
From Verif Require Import SegmentModel SimplifyModel SimplifyProofs BezierModel BezierSpec BezierProofs.
Import ListNotations.
Local Close Scope Q_scope.
Local Open Scope Qc_scope.

Lemma this_frac : forall k n, (this (frac k n) == Z.of_nat k # n)%Q.
Proof. intros. unfold frac. cbn [this Q2Qc]. apply Qred_correct. Qed.
Lemma frac_plus : forall k n, frac k n + frac 1 n = frac (S k) n.
Proof.
  intros. apply Qc_is_canon. rewrite this_plus, !this_frac. unfold Qeq, Qplus. cbn [Qnum Qden]. rewrite Nat2Z.inj_succ, Pos2Z.inj_mul. change (Z.of_nat 1) with 1%Z. unfold Z.succ. nia.
Qed.
Lemma frac_half : forall n, frac 1 n * Q2Qc (1 # 2) = frac 1 (n * 2).
Proof. intros. apply Qc_is_canon. rewrite this_mult, !this_frac. change (this (Q2Qc (1 # 2))) with (1 # 2)%Q. unfold Qeq, Qmult. cbn [Qnum Qden]. rewrite !Pos2Z.inj_mul. ring. Qed.
Lemma frac_over : forall k n, ltb 1 (frac k n) = (Pos.to_nat n <? k)%nat.
Proof.
  intros. destruct (Nat.ltb_spec (Pos.to_nat n) k) as [L|L]; [apply ltb_true|apply ltb_false]; rewrite this_frac; change (this 1) with 1%Q; unfold Qlt, Qle; cbn [Qnum Qden]; lia.
Qed.
Lemma frac_one : forall n, frac (Pos.to_nat n) n = 1.
Proof. intros. apply Qc_is_canon. rewrite this_frac. change (this 1) with 1%Q. unfold Qeq. cbn [Qnum Qden]. lia. Qed.
Lemma frac_zero : forall n, frac 0 n = 0.
Proof. intros. apply Qc_is_canon. rewrite this_frac. change (this 0) with 0%Q. unfold Qeq. cbn [Qnum Qden]. reflexivity. Qed.
Lemma frac_is_one : forall k n, Qc_eq_bool (frac k n) 1 = (k =? Pos.to_nat n)%nat.
Proof.
  intros. destruct (Nat.eqb_spec k (Pos.to_nat n)) as [->|N].
  - rewrite frac_one. unfold Qc_eq_bool. destruct (Qc_eq_dec 1 1); [reflexivity|congruence].
  - unfold Qc_eq_bool. destruct (Qc_eq_dec (frac k n) 1) as [E|E]; [|reflexivity]. exfalso. apply N. apply (f_equal this) in E.
    pose proof (this_frac k n) as F. rewrite E in F. change (this 1) with 1%Q in F. unfold Qeq in F. cbn [Qnum Qden] in F. lia.
Qed.
Lemma iter_r : forall i (n : positive), Nat.iter i (fun m => m * 2)%positive (n * 2)%positive = Nat.iter (S i) (fun m => m * 2)%positive n.
Proof. induction i as [|i IH]; intros n; [reflexivity|]. exact (f_equal (fun m => m * 2)%positive (IH n)). Qed.
Lemma halve_step : forall fuel start c tol n, exists i, (i <= fuel)%nat /\ halve fuel start c tol (frac 1 n) = frac 1 (Nat.iter i (fun m => m * 2)%positive n).
Proof.
  induction fuel as [|f IH]; intros start c tol n; [exists 0%nat; split; [lia|reflexivity]|]. cbn [halve].
  destruct (ltb _ tol); [exists 0%nat; split; [lia|reflexivity]|]. rewrite frac_half. destruct (IH start c tol (n * 2)%positive) as (i & I & E).
  exists (S i). split; [lia|]. rewrite E. f_equal. apply iter_r.
Qed.
Lemma new_step : forall start c tol, exists n, In n [1; 2; 4; 8; 16; 32; 64; 128]%positive /\ new_iter start c tol = Iter 0 (frac 1 n).
Proof.
  intros. destruct (halve_step 7 start c tol 1) as (i & I & E). exists (Nat.iter i (fun m => m * 2)%positive 1%positive). unfold new_iter.
  assert (O : frac 1 1 = 1) by (apply Qc_is_canon; vm_compute; reflexivity). rewrite O in E. split; [|f_equal; exact E].
  do 8 (destruct i as [|i]; [cbn; intuition|]). lia.
Qed.
Lemma next_frac : forall start c k n, (k <= Pos.to_nat n)%nat -> next start c (Iter (frac k n) (frac 1 n)) = Some (bezier start c (frac k n), Iter (frac (S k) n) (frac 1 n)).
Proof.
  intros start c k n L. unfold next. rewrite frac_plus, !frac_over, frac_is_one.
  destruct (Nat.ltb_spec (Pos.to_nat n) k) as [A|A]; [lia|]. f_equal. f_equal.
  destruct (Nat.eqb_spec k (Pos.to_nat n)) as [->|N]; cbn [orb].
  - rewrite frac_one. symmetry. exact (proj2 (bezier_ends start c)).
  - destruct (Nat.ltb_spec (Pos.to_nat n) (S k)); [lia|]. apply point_at_bezier.
Qed.
Lemma next_done : forall start c n, next start c (Iter (frac (S (Pos.to_nat n)) n) (frac 1 n)) = None.
Proof. intros. unfold next. rewrite frac_over. destruct (Nat.ltb_spec (Pos.to_nat n) (S (Pos.to_nat n))); [reflexivity|lia]. Qed.
Lemma collect_frac : forall start c n m k fuel, (m + k = S (Pos.to_nat n))%nat -> (m <= fuel)%nat ->
  collect fuel start c (Iter (frac k n) (frac 1 n)) = Some (map (fun i => bezier start c (frac i n)) (seq k m)).
Proof.
  intros start c n m. induction m as [|m IH]; intros k fuel E L.
  - cbn [Nat.add] in E. subst k. destruct fuel; cbn [collect]; rewrite next_done; reflexivity.
  - destruct fuel as [|f]; [lia|]. cbn [collect]. rewrite next_frac by lia. rewrite IH by lia. reflexivity.
Qed.
Lemma coords_points : forall tol start c, exists n, In n [1; 2; 4; 8; 16; 32; 64; 128]%positive /\
  coords tol start c = Some (map (fun i => bezier start c (frac i n)) (seq 0 (S (Pos.to_nat n)))) /\ coords_count tol start c = Pos.to_nat n.
Proof.
  intros tol start c. destruct (new_step start c tol) as (n & I & E). exists n. split; [exact I|]. unfold coords, coords_count. rewrite E. split.
  - rewrite <- (frac_zero n). apply collect_frac; [lia|]. assert (Pos.to_nat n <= 128)%nat; [|lia].
    repeat (destruct I as [<-|I]; [apply Nat.leb_le; vm_compute; reflexivity|]). destruct I.
  - clear E. repeat (destruct I as [<-|I]; [vm_compute; reflexivity|]). destruct I.
Qed.
(** A curve that ends where it starts. *)
Lemma loop_points : forall tol c, 0 < tol -> coords tol (curve_end c) c = Some [curve_end c; curve_end c].
Proof.
  intros tol c T. unfold coords, new_iter. cbn [halve].
  assert (Z : distance_squared (curve_end c) (point_at (curve_end c) c 1) = 0).
  { rewrite point_at_bezier, (proj2 (bezier_ends _ c)), distance_dist2. unfold dist2. cbn [Qcpower]. ring. }
  rewrite Z, (proj2 (ltb_true 0 tol) T). assert (O : frac 1 1 = 1) by (apply Qc_is_canon; vm_compute; reflexivity). rewrite <- O at 1. rewrite <- (frac_zero 1) at 1.
  rewrite (collect_frac (curve_end c) c 1 2 0 130); [|reflexivity|lia]. cbn [seq map]. rewrite frac_zero, O. destruct (bezier_ends (curve_end c) c) as [-> ->]. reflexivity.
Qed.
Lemma windows_joined : forall l a, joined a (windows (a :: l)) (last (a :: l) a) /\ List.length (windows (a :: l)) = List.length l.
Proof.
  induction l as [|b l IH]; intros a; [split; [constructor|reflexivity]|].
  cbn [windows]. destruct (IH b) as [J L]. split; [|cbn [List.length]; f_equal; exact L].
  constructor. replace (last (a :: b :: l) a) with (last (b :: l) b); [exact J|]. cbn [last]. clear. revert a b. induction l as [|x l IH]; intros a b; [reflexivity|]. cbn [last]. destruct l; [reflexivity|]. apply (IH a b).
Qed.
Lemma coords_lines : forall tol start c l, coords tol start c = Some l -> joined start (windows l) (curve_end c) /\ List.length (windows l) = coords_count tol start c.
Proof.
  intros tol start c l H. destruct (coords_points tol start c) as (n & I & E & C). rewrite E in H. injection H as <-. rewrite C.
  pose (f := fun i => bezier start c (frac i n)).
  assert (Z : f 0%nat = start) by (unfold f; rewrite frac_zero; exact (proj1 (bezier_ends start c))).
  assert (Z' : bezier start c (frac 0 n) = start) by exact Z. rewrite Z'.
  destruct (windows_joined (map f (seq 1 (Pos.to_nat n))) start) as [J L]. rewrite map_length, seq_length in L. split; [|exact L].
  replace (curve_end c) with (last (start :: map f (seq 1 (Pos.to_nat n))) start); [exact J|].
  destruct (Pos.to_nat n) as [|m] eqn:M; [lia|]. rewrite seq_S, map_app. cbn [map]. rewrite app_comm_cons, last_last. unfold f. replace (1 + m)%nat with (Pos.to_nat n) by lia. rewrite frac_one. exact (proj2 (bezier_ends start c)).
Qed.
Lemma curve_points : forall start c, (forall t, point_at start c t = bezier start c t) /\ point_at start c 0 = start /\ point_at start c 1 = curve_end c.
Proof. intros. split; [intros; apply point_at_bezier|]. rewrite !point_at_bezier. apply bezier_ends. Qed.
Lemma reverse_twice : forall start c, (forall s, bezier (curve_end c) (reverse start c) s = bezier start c (1 - s)) /\ reverse (curve_end c) (reverse start c) = c.
Proof. intros start c. split; [apply reversed|]. destruct c. reflexivity. Qed.
Lemma quad_same : forall q start e, (forall t, bezier start (new_quad_curve q start e) t = quadratic start q e t) /\
  (forall tol, 0 < tol -> quad_control start (new_quad_curve q start e) tol = Some q).
Proof. intros. split; [apply quad_points|apply quad_found]. Qed.
Lemma coords_one_more : forall tol start c l, coords tol start c = Some l -> List.length l = S (coords_count tol start c).
Proof. intros tol start c l H. destruct (coords_points tol start c) as (n & I & E & C). rewrite E in H. injection H as <-. rewrite C. cbn [List.length]. now rewrite map_length, seq_length. Qed.
Lemma clamp_at_inv : forall debug start c c' (o1 o2 : option Qc),
  match o1 with None => Some None | Some t1 => match o2 with None => Some None | Some t2 => match clamp_t debug start c t1 t2 with Some x => Some (Some x) | None => None end end end = Some (Some c') ->
  exists t1 t2, o1 = Some t1 /\ o2 = Some t2 /\ clamp_t debug start c t1 t2 = Some c'.
Proof.
  intros debug start c c' [t1|] [t2|] H; try discriminate. destruct (clamp_t debug start c t1 t2) as [x|] eqn:C; [|discriminate]. injection H as <-.
  exists t1, t2. auto.
Qed.
Local Strategy 1000 [t_at].
Lemma cut : forall rounded debug start c a b tol c', clamp_at rounded debug start c a b tol = Some (Some c') ->
  exists t1 t2 t2', unit_ t1 /\ unit_ t2 /\ dist2 (bezier start c t1) a <= tol /\ dist2 (bezier start c t2) b <= tol /\
    part_of start c t1 t2' (bezier start c t1) c' /\ (t2' = t2 \/ (t2' = 1 /\ 1 - t1 < Q2Qc (1 # 10000000000))).
Proof.
  intros rounded debug start c a b tol c' H. destruct (clamp_at_inv debug start c c' _ _ H) as (t1 & t2 & A & B & C).
  destruct (place _ _ _ _ _ _ A) as [A1 A2]. destruct (place _ _ _ _ _ _ B) as [B1 B2]. destruct (clamped _ _ _ _ _ _ C) as (t2' & P1 & P2).
  exists t1, t2, t2'. exact (conj A1 (conj B1 (conj A2 (conj B2 (conj P1 P2))))).
Qed.
