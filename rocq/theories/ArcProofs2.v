From Coq Require Import Reals ZArith Bool Lra Lia Psatz.
From Verif Require Import EllipseModel ArcModel ArcSpec ArcProofs.
Open Scope R_scope.

(** ** Parts *)
Lemma parts : forall a t, reparametrised a (fst (subdivide_t a t)) (fun s => t * s) /\ reparametrised a (snd (subdivide_t a t)) (fun s => t + (1 - t) * s).
Proof.
  intros a t. split; unfold reparametrised, subdivide_t, with_angles; cbn [fst snd center radii x_rotation start_angle sweep_angle]; intros s p.
  - replace (start_angle a + t * sweep_angle a * s) with (start_angle a + sweep_angle a * (t * s)) by ring. reflexivity.
  - replace (start_angle a + t * sweep_angle a + sweep_angle a * (1 - t) * s) with (start_angle a + sweep_angle a * (t + (1 - t) * s)) by ring. reflexivity.
Qed.
Lemma clamped : forall a t1 t2, reparametrised a (clamp_t a t1 t2) (fun s => t1 + (t2 - t1) * s).
Proof.
  intros a t1 t2 s p. unfold clamp_t, with_angles; cbn [center radii x_rotation start_angle sweep_angle].
  replace (start_angle a + t1 * sweep_angle a + (t2 - t1) * sweep_angle a * s) with (start_angle a + sweep_angle a * (t1 + (t2 - t1) * s)) by ring. reflexivity.
Qed.
Lemma reversed : forall a, reparametrised a (reverse a) (fun s => 1 - s).
Proof.
  intros a s p. unfold reverse; cbn [center radii x_rotation start_angle sweep_angle].
  replace (start_angle a + sweep_angle a + - sweep_angle a * s) with (start_angle a + sweep_angle a * (1 - s)) by ring. reflexivity.
Qed.
Lemma parts_kept : forall a t t1 t2, kept (fst (subdivide_t a t)) /\ kept (snd (subdivide_t a t)) /\ kept (clamp_t a t1 t2) /\ kept (reverse a).
Proof. intros a t t1 t2. repeat split; cbn in H; discriminate. Qed.
Lemma ends : forall a, kept a -> on (center a) (radii a) (x_rotation a) (start_angle a) (start_point a) /\ on (center a) (radii a) (x_rotation a) (start_angle a + sweep_angle a) (end_point a).
Proof.
  intros a K. split; [apply on_at; reflexivity|]. unfold end_point. destruct (memo a) as [p|] eqn:M; [exact (K p M)|]. apply on_at. reflexivity.
Qed.

(** ** Places *)
Lemma unrotate : forall rx ry x y phi c s, x = cos phi * (rx * c) - sin phi * (ry * s) -> y = sin phi * (rx * c) + cos phi * (ry * s) ->
  px (rotate_radian (P x y) (- phi)) = rx * c /\ py (rotate_radian (P x y) (- phi)) = ry * s.
Proof.
  intros rx ry x y phi c s -> ->. unfold rotate_radian. cbn [px py]. rewrite cos_neg, sin_neg. pose proof (sin2_cos2 phi) as Q. unfold Rsqr in Q. split.
  - transitivity ((sin phi * sin phi + cos phi * cos phi) * (rx * c)); [ring|rewrite Q; ring].
  - transitivity ((sin phi * sin phi + cos phi * cos phi) * (ry * s)); [ring|rewrite Q; ring].
Qed.
Lemma dist_self : forall p, distance_squared p p = 0.
Proof. intros p. unfold distance_squared. ring. Qed.
Lemma clamp_id : forall t, unit_ t -> clamp_unit t = t.
Proof. intros t [A B]. unfold clamp_unit. rewrite (proj2 (less_false _ _) A), (proj2 (less_false _ _) B). reflexivity. Qed.
Lemma clamp_range : forall t, unit_ (clamp_unit t).
Proof. intros t. unfold clamp_unit, unit_. destruct (less t 0) eqn:A; [lra|]. apply less_false in A. destruct (less 1 t) eqn:B; [lra|]. apply less_false in B. lra. Qed.

Lemma place_sound : forall a p tol t, t_at a p tol = Some t ->
  unit_ t /\ exists q, on (center a) (radii a) (x_rotation a) (start_angle a + sweep_angle a * t) q /\ (px p - px q) * (px p - px q) + (py p - py q) * (py p - py q) <= tol * (1 + Rmax (px (radii a)) (py (radii a)) ^ 2).
Proof.
  intros a p tol t. unfold t_at, ellipse_tolerance. destruct (angle_at_point _ _ _) as [angle|]; [|discriminate]. destruct (same (sweep_angle a) 0) eqn:Z.
  - destruct (Rle_dec _ _) as [L|]; [|discriminate]. intros E. injection E as <-. split; [unfold unit_; lra|]. exists (start_point a). split; [|exact L]. apply on_at. unfold start_point, point_at_angle. f_equal. ring.
  - destruct (Rle_dec _ _) as [L|]; [|discriminate]. intros E. injection E as <-. split; [apply clamp_range|]. eexists. split; [|exact L]. apply on_at. unfold point_at_angle. f_equal. ring.
Qed.

Lemma place_complete : forall a p tol t, 0 < px (radii a) -> 0 < py (radii a) -> Rabs (sweep_angle a) <= 2 * PI -> 0 <= tol -> unit_ t ->
  on (center a) (radii a) (x_rotation a) (start_angle a + sweep_angle a * t) p ->
  exists t', t_at a p tol = Some t' /\ unit_ t' /\ on (center a) (radii a) (x_rotation a) (start_angle a + sweep_angle a * t') p /\ (0 < Rabs (sweep_angle a) < 2 * PI -> t' = t).
Proof.
  intros a p tol t RX RY SW TOL U ON. pose proof PI_RGT_0 as PP. pose proof (proj1 (on_at _ _ _ _ _) ON) as AT. set (theta := start_angle a + sweep_angle a * t) in *.
  unfold t_at. assert (TP : 0 <= ellipse_tolerance a tol). { unfold ellipse_tolerance. apply Rmult_le_pos; [assumption|]. pose proof (pow2_ge_0 (Rmax (px (radii a)) (py (radii a)))). lra. }
  set (et := ellipse_tolerance a tol) in *. clearbody et.
  assert (AN : exists angle, angle_at_point a p et = Some angle /\ cos angle = cos theta /\ sin angle = sin theta).
  { unfold angle_at_point. destruct ON as [OX OY]. destruct (unrotate (px (radii a)) (py (radii a)) (px p - px (center a)) (py p - py (center a)) (x_rotation a) (cos theta) (sin theta)) as [X Y]; [lra|lra|].
    rewrite X, Y. replace (py (radii a) * sin theta / py (radii a)) with (sin theta) by (field; lra). replace (px (radii a) * cos theta / px (radii a)) with (cos theta) by (field; lra).
    destruct (polar (cos theta) (sin theta)) as (C & S & _); [pose proof (sin2_cos2 theta) as Q; unfold Rsqr in Q; lra|].
    exists (atan2 (sin theta) (cos theta)). unfold point_at_angle. rewrite (turned _ _ _ _ theta C S), <- AT, dist_self. destruct (Rle_dec 0 et); [auto|contradiction]. }
  destruct AN as (angle & -> & C & S). destruct (same (sweep_angle a) 0) eqn:Z.
  - apply same_true in Z. assert (SP : start_point a = p). { rewrite AT. unfold start_point, point_at_angle, theta. rewrite Z. f_equal. ring. }
    rewrite SP, dist_self. destruct (Rle_dec 0 et); [|contradiction]. exists 0. split; [reflexivity|]. split; [unfold unit_; lra|]. split.
    + apply on_at. rewrite <- SP. unfold start_point, point_at_angle. f_equal. ring.
    + rewrite Z, Rabs_R0. lra.
  - apply same_false in Z. destruct (same_turn angle theta C S) as (k0 & K0). set (target := start_angle a + 1 / 2 * sweep_angle a). set (k := round ((target - angle) / (2 * PI))).
    set (adjusted := angle + IZR k * (2 * PI)). assert (NEAR : Rabs (target - adjusted) <= PI).
    { pose proof (round_near ((target - angle) / (2 * PI))) as RN. fold k in RN. replace (target - adjusted) with ((2 * PI) * ((target - angle) / (2 * PI) - IZR k)) by (unfold adjusted; field; lra).
      rewrite Rabs_mult, (Rabs_right (2 * PI)) by lra. nra. }
    assert (AD : adjusted = theta + IZR (k0 + k) * (2 * PI)) by (rewrite plus_IZR; unfold adjusted; lra).
    assert (TH : Rabs (theta - target) <= Rabs (sweep_angle a) / 2).
    { replace (theta - target) with (sweep_angle a * (t - 1 / 2)) by (unfold theta, target; ring). rewrite Rabs_mult. destruct U as [U1 U2]. assert (Rabs (t - 1 / 2) <= 1 / 2) by (apply Rabs_le; lra). pose proof (Rabs_pos (sweep_angle a)). nra. }
    assert (PT : forall q, q = (adjusted - start_angle a) / sweep_angle a -> point_at_angle a (start_angle a + q * sweep_angle a) = p).
    { intros q ->. replace (start_angle a + (adjusted - start_angle a) / sweep_angle a * sweep_angle a) with adjusted by (field; exact Z). rewrite AT. unfold point_at_angle. apply turned; rewrite AD; [apply turn_cos|apply turn_sin]. }
    assert (ST : Rabs (sweep_angle a) < 2 * PI -> (adjusted - start_angle a) / sweep_angle a = t).
    { intros L. assert (M : (k0 + k = 0)%Z).
      { assert (B : Rabs (IZR (k0 + k) * (2 * PI)) < 2 * PI). { replace (IZR (k0 + k) * (2 * PI)) with (- (target - adjusted) - (theta - target)) by lra. eapply Rle_lt_trans; [apply Rabs_triang|]. rewrite !Rabs_Ropp. lra. }
        rewrite Rabs_mult, (Rabs_right (2 * PI)) in B by lra. assert (B1 : Rabs (IZR (k0 + k)) < 1) by nra. apply Rabs_def2 in B1. destruct B1 as [B1 B2].
        assert (-1 < k0 + k)%Z by (apply lt_IZR; lra). assert (k0 + k < 1)%Z by (apply lt_IZR; lra). lia. }
      rewrite AD, M. unfold theta. field. exact Z. }
    assert (UN : unit_ ((adjusted - start_angle a) / sweep_angle a)).
    { destruct SW as [L|E]; [rewrite (ST L); exact U|]. set (q := (adjusted - start_angle a) / sweep_angle a). assert (Q : adjusted - target = sweep_angle a * (q - 1 / 2)) by (unfold q, target; field; exact Z).
      assert (Rabs (q - 1 / 2) <= 1 / 2). { rewrite Rabs_minus_sym, Q, Rabs_mult, E in NEAR. nra. } pose proof (Rle_abs (q - 1 / 2)) as Q1. pose proof (Rle_abs (- (q - 1 / 2))) as Q2. rewrite Rabs_Ropp in Q2. unfold unit_. lra. }
    rewrite (clamp_id _ UN). rewrite (PT _ eq_refl), dist_self. destruct (Rle_dec 0 et); [|contradiction].
    exists ((adjusted - start_angle a) / sweep_angle a). split; [reflexivity|]. split; [exact UN|]. split.
    + apply on_at. rewrite <- (PT _ eq_refl) at 1. unfold point_at_angle. f_equal. ring.
    + intros [_ L]. exact (ST L).
Qed.
