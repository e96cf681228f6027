From Coq Require Import Reals ZArith Bool List Lra Lia.
From Verif Require Import EllipseModel ArcModel ArcSpec ArcProofs ArcProofs2 ArcProofs3 WeldModel WeldSpec WeldProofs.
Import ListNotations.
Open Scope R_scope.

(** ** Straight arcs *)
Lemma cross_ellipse c r phi s t u :
  cross (ellipse_at c r phi s) (ellipse_at c r phi t) (ellipse_at c r phi u) = px r * py r * (sin (t - s) + sin (u - t) + sin (s - u)).
Proof.
  unfold cross, ellipse_at, rotate_radian. cbn [px py]. rewrite !sin_minus. assert (Q := sin2_cos2 phi). unfold Rsqr in Q.
  match goal with |- ?X = ?Y => transitivity ((sin phi * sin phi + cos phi * cos phi) * Y) end; [ring|rewrite Q; ring].
Qed.
Lemma height_form w t : sin w + sin (w * t - w) - sin (w * t) = 2 * sin (w / 2) * (cos (w / 2) - cos (w * (t - 1 / 2))).
Proof.
  replace (w * t - w) with (w * (t - 1 / 2) - w / 2) by field. replace (w * t) with (w * (t - 1 / 2) + w / 2) by field. rewrite sin_minus, sin_plus. replace w with (2 * (w / 2)) at 1 by field. rewrite sin_2a. ring.
Qed.
Lemma abs_cos x : cos (Rabs x) = cos x.
Proof. unfold Rabs. destruct (Rcase_abs x); [apply cos_neg|reflexivity]. Qed.
Lemma height_most w t : Rabs w <= 2 * PI -> unit_ t -> Rabs (cos (w / 2) - cos (w * (t - 1 / 2))) <= Rabs (cos (w / 2) - cos (w * (1 / 2 - 1 / 2))).
Proof.
  intros W [T0 T1]. assert (G := PI_RGT_0). replace (w * (1 / 2 - 1 / 2)) with 0 by field. rewrite cos_0.
  assert (C1 := proj2 (COS_bound (w / 2))). assert (C2 := proj2 (COS_bound (w * (t - 1 / 2)))).
  assert (LE : cos (w / 2) <= cos (w * (t - 1 / 2))).
  { rewrite <- (abs_cos (w / 2)), <- (abs_cos (w * (t - 1 / 2))). assert (H1 : Rabs (w / 2) = Rabs w / 2) by (unfold Rdiv; rewrite Rabs_mult, (Rabs_right (/ 2)) by lra; reflexivity).
    assert (H2 : Rabs (w * (t - 1 / 2)) <= Rabs w / 2). { rewrite Rabs_mult. assert (Rabs (t - 1 / 2) <= 1 / 2) by (apply Rabs_le; lra). assert (0 <= Rabs w) by apply Rabs_pos. unfold Rdiv. nra. }
    assert (P1 := Rabs_pos (w * (t - 1 / 2))). apply cos_decr_1; lra. }
  rewrite !Rabs_left1 by lra. lra.
Qed.
Lemma cross_at a t : kept a -> forall p, on (center a) (radii a) (x_rotation a) (start_angle a + sweep_angle a * t) p ->
  cross (start_point a) (end_point a) p = px (radii a) * py (radii a) * (2 * sin (sweep_angle a / 2)) * (cos (sweep_angle a / 2) - cos (sweep_angle a * (t - 1 / 2))).
Proof.
  intros K p H. apply on_at in H. subst p. rewrite (end_is a K). unfold start_point, point_at_angle. rewrite cross_ellipse.
  replace (start_angle a + sweep_angle a - start_angle a) with (sweep_angle a) by ring. replace (start_angle a + sweep_angle a * t - (start_angle a + sweep_angle a)) with (sweep_angle a * t - sweep_angle a) by ring.
  replace (start_angle a - (start_angle a + sweep_angle a * t)) with (- (sweep_angle a * t)) by ring. rewrite sin_neg. rewrite !Rmult_assoc. f_equal. f_equal. rewrite <- Rmult_assoc, <- height_form. ring.
Qed.
Lemma straight a pos : kept a -> Rabs (sweep_angle a) <= 2 * PI -> pos <= px (radii a) -> pos <= py (radii a) -> is_straight a pos = true ->
  forall p, on_arc a p -> Rabs (cross (start_point a) (end_point a) p) < pos * Rmax (distance (start_point a) (end_point a)) 1.
Proof.
  intros K W X Y S p (t & T & H). unfold is_straight in S. rewrite (proj2 (less_false (px (radii a)) pos) X), (proj2 (less_false (py (radii a)) pos) Y) in S. cbn [orb] in S. apply less_true in S.
  set (M := Rmax (distance (start_point a) (end_point a)) 1) in *. assert (M1 : 1 <= M) by apply Rmax_r.
  apply Rle_lt_trans with (Rabs (cross (start_point a) (end_point a) (mid_point a))).
  - rewrite (cross_at a t K p H). rewrite (cross_at a (1 / 2) K (mid_point a)) by (apply on_at; reflexivity). rewrite !(Rabs_mult (px (radii a) * py (radii a) * (2 * sin (sweep_angle a / 2)))). apply Rmult_le_compat_l; [apply Rabs_pos|]. apply height_most; assumption.
  - apply Rmult_lt_reg_r with (/ M); [apply Rinv_0_lt_compat; lra|]. replace (pos * M * / M) with pos by (field; lra). exact S.
Qed.
Lemma straight_line a pos : kept a -> Rabs (sweep_angle a) <= 2 * PI -> pos <= px (radii a) -> pos <= py (radii a) -> is_straight a pos = true -> 1 <= distance_squared (start_point a) (end_point a) ->
  forall p, on_arc a p -> near_line pos (start_point a) (end_point a) p.
Proof.
  intros K W X Y S D p H. assert (C := straight a pos K W X Y S p H). unfold near_line. assert (D1 : 1 <= distance (start_point a) (end_point a)) by (unfold distance; rewrite <- sqrt_1; apply sqrt_le_1_alt; exact D).
  rewrite Rmax_left in C by exact D1. unfold cross, distance, distance_squared in C. lra.
Qed.

Definition thin : arc := Arc (P 0 0) (P (1 / 2000) 100) 0 PI 0 None.
Lemma thin_lost : exists a pos p, proper a /\ 0 < pos /\ is_straight a pos = true /\ on_arc a p /\ forall q, between (start_point a) (end_point a) q -> apart 99 p q.
Proof.
  exists thin, (1 / 1000), (P 0 100). assert (G := PI_RGT_0). split; [|split; [lra|split; [|split]]].
  - unfold proper, kept, thin. cbn. rewrite Rabs_right by lra. split; [lra|]. split; [lra|]. split; [lra|]. intros p E. discriminate.
  - unfold is_straight, thin. cbn [radii px]. rewrite (proj2 (less_true _ _)) by lra. reflexivity.
  - exists (1 / 2). split; [unfold unit_; lra|]. unfold on, thin. cbn. replace (0 + PI * (1 / 2)) with (PI / 2) by field. rewrite cos_PI2, sin_PI2, cos_0, sin_0. split; ring.
  - intros q (u & U & Hx & Hy). unfold start_point, end_point, thin, point_at_angle, ellipse_at, rotate_radian in *. cbn in Hx, Hy. replace (0 + PI) with PI in Hy by ring. rewrite cos_PI, sin_PI, cos_0, sin_0 in Hy. unfold apart. cbn [px py]. rewrite Hy. nra.
Qed.
Definition delta : R := 1 / 100000000.
Definition loop : arc := Arc (P 0 0) (P 100 100) 0 (2 * PI - delta) 0 None.
Lemma pi_3 : 3 < PI. Proof. assert (H := PI2_3_2). lra. Qed.
Lemma loop_proper : proper loop.
Proof. assert (G := pi_3). unfold proper, kept, loop, delta. cbn. rewrite Rabs_right by lra. split; [lra|]. split; [lra|]. split; [lra|]. intros p E. discriminate. Qed.
Lemma loop_lost : exists a pos p, proper a /\ 0 < pos /\ px (radii a) = py (radii a) /\ pos <= px (radii a) /\ is_straight a pos = true /\ on_arc a p /\ forall q, between (start_point a) (end_point a) q -> apart 99 p q.
Proof.
  exists loop, (1 / 1000), (P (-100) 0). assert (G := pi_3). split; [exact loop_proper|]. split; [lra|]. split; [reflexivity|]. split; [cbn; lra|]. split; [|split].
  - unfold is_straight. rewrite !orb_true_iff. right. apply less_true. rewrite (cross_at loop (1 / 2)); [|apply loop_proper|apply on_at; reflexivity].
    set (M := Rmax _ 1). assert (M1 : 1 <= M) by apply Rmax_r. cbn [radii sweep_angle loop px py]. replace ((2 * PI - delta) * (1 / 2 - 1 / 2)) with 0 by field. rewrite cos_0.
    replace ((2 * PI - delta) / 2) with (PI - delta / 2) by field. rewrite sin_PI_x. assert (S0 : 0 < sin (delta / 2)) by (apply sin_gt_0; unfold delta; lra). assert (S1 : sin (delta / 2) < delta / 2) by (apply sin_lt_x; unfold delta; lra).
    set (k := cos (PI - delta / 2)). assert (KB : -1 <= k <= 1) by apply COS_bound. set (x := sin (delta / 2)) in *. assert (S2 : x <= 1 / 200000000) by (unfold delta in S1; lra).
    assert (CR : Rabs (100 * 100 * (2 * x) * (k - 1)) <= 1 / 2000) by (rewrite Rabs_left1; nra).
    apply Rmult_lt_reg_r with M; [lra|]. unfold Rdiv at 1. rewrite Rmult_assoc, Rinv_l, Rmult_1_r by lra. lra.
  - exists (PI / (2 * PI - delta)). assert (0 < 2 * PI - delta) by (unfold delta; lra). split.
    + unfold unit_. split; [apply Rmult_le_pos; [lra|left; apply Rinv_0_lt_compat; assumption]|]. apply Rmult_le_reg_r with (2 * PI - delta); [assumption|]. replace (PI / (2 * PI - delta) * (2 * PI - delta)) with PI by (field; lra). unfold delta. lra.
    + unfold on, loop. cbn [center radii x_rotation start_angle sweep_angle px py]. replace (0 + (2 * PI - delta) * (PI / (2 * PI - delta))) with PI by (field; lra). rewrite cos_PI, sin_PI, cos_0, sin_0. split; ring.
  - intros q (u & U & Hx & _). unfold start_point, end_point, loop, point_at_angle, ellipse_at, rotate_radian in *. cbn [px py center radii x_rotation start_angle sweep_angle memo] in Hx. rewrite cos_0, sin_0 in Hx.
    replace (0 + (2 * PI - delta)) with (- delta + 2 * PI) in Hx by ring. assert (CP : cos (- delta + 2 * PI) = cos delta) by (rewrite cos_plus, cos_2PI, sin_2PI, cos_neg; ring). rewrite CP in Hx.
    assert (C0 : 0 < cos delta) by (apply cos_gt_0; unfold delta; lra). assert (C1 := proj2 (COS_bound delta)). unfold unit_ in U. assert (PX : 0 <= px q) by nra. unfold apart. cbn [px py]. nra.
Qed.

(** ** Arcs that go back, and more than a turn *)
Definition there : arc := Arc (P 0 0) (P 100 100) 0 (PI / 2) 0 None.
Definition back_ : arc := Arc (P 0 0) (P 100 100) (PI / 2) (- (PI / 2)) 0 None.
Lemma proper_at s w : 0 < Rabs w < 2 * PI -> proper (Arc (P 0 0) (P 100 100) s w 0 None).
Proof. intros H. unfold proper, kept. cbn. split; [lra|]. split; [lra|]. split; [exact H|]. intros p E. discriminate. Qed.
Lemma circle_mean s w : 1 / 1000000000 <= mean_radius (Arc (P 0 0) (P 100 100) s w 0 None).
Proof. unfold mean_radius. cbn. lra. Qed.
Lemma quarter_right s t q : 0 <= s <= PI / 2 -> q = ellipse_at (P 0 0) (P 100 100) 0 s -> t = q -> 0 <= px t.
Proof. intros H -> ->. unfold ellipse_at, rotate_radian. cbn [px py]. rewrite cos_0, sin_0. assert (0 <= cos s) by (apply cos_ge_0; assert (G := PI_RGT_0); lra). lra. Qed.
Lemma goes_back : exists a b pos ang p, proper a /\ proper b /\ goes_on a b /\ 0 < pos /\ 0 < ang /\ forall len, exists l c, join len pos ang (start_point a) a b = Some l /\ In c l /\ on_arc c p /\
  forall q, on_arc a q \/ on_arc b q -> apart 99 p q.
Proof.
  assert (G := pi_3). exists there, back_, (1 / 1000), (1 / 1000), (P (-100) 0).
  assert (PA : proper there) by (apply proper_at; rewrite Rabs_right; lra). assert (PB : proper back_) by (apply proper_at; rewrite Rabs_left; lra).
  assert (GO : goes_on there back_) by (unfold goes_on, there, back_; cbn; split; [reflexivity|]; split; [reflexivity|]; split; [reflexivity|]; exists 0%Z; ring).
  split; [exact PA|]. split; [exact PB|]. split; [exact GO|]. split; [lra|]. split; [lra|]. intros len.
  destruct (merged len there back_ (1 / 1000) GO (proj2 (proj2 (proj2 PB)))) as (Q1 & Q2 & Q3 & Q4 & (k & Q5) & Q6); [lra|left; reflexivity|apply PA|apply circle_mean|].
  assert (J : is_connected there back_ (1 / 1000) (1 / 1000) = true) by (apply connected; try assumption; try apply PA; try apply PB; try lra; cbn; lra).
  set (m := merge len (1 / 1000) (start_point there) there back_) in *.
  assert (E : end_point m = start_point there). { unfold end_point at 1. rewrite Q6. rewrite (after there back_ GO (proj2 (proj2 (proj2 PB)))). unfold start_point, point_at_angle. f_equal. cbn. field. }
  assert (SW : sweep_angle m = 0) by (rewrite Q4; cbn; field).
  eexists. exists (set_end_point_memo (with_angles m (start_angle m) (1 * PI)) (end_point (with_angles m (start_angle m) (1 * PI)))). split; [|split; [|split]].
  - unfold join. rewrite J. fold m. rewrite E, (proj2 (same_point_true _ _) eq_refl), orb_true_r. unfold signum. rewrite SW, (proj2 (less_false 0 0)) by lra. reflexivity.
  - left. reflexivity.
  - exists 1. split; [unfold unit_; lra|]. cbn [center radii x_rotation start_angle sweep_angle set_end_point_memo with_angles]. rewrite Q1, Q2, Q3, Q5. apply on_at. cbn [there center radii x_rotation start_angle]. replace (0 + IZR k * (2 * PI) + 1 * PI * 1) with (PI + IZR k * (2 * PI)) by ring. rewrite ellipse_turn. unfold ellipse_at, rotate_radian. cbn [px py]. rewrite cos_PI, sin_PI, cos_0, sin_0. f_equal; ring.
  - intros q H. assert (X : 0 <= px q).
    { destruct H as [(t & T & H)|(t & T & H)]; apply on_at in H; unfold unit_ in T; cbn [there back_ center radii x_rotation start_angle sweep_angle] in H; eapply quarter_right; [|exact H|reflexivity| |exact H|reflexivity]; nra. }
    unfold apart. cbn [px py]. nra.
Qed.
Definition three : arc := Arc (P 0 0) (P 100 100) 0 (3 * (PI / 2)) 0 None.
Definition three' : arc := Arc (P 0 0) (P 100 100) (3 * (PI / 2)) (3 * (PI / 2)) 0 None.
Lemma more_than_a_turn : exists a b pos ang, proper a /\ proper b /\ goes_on a b /\ 0 < sweep_angle a * sweep_angle b /\ 0 < pos /\ 0 < ang /\ forall len, exists h h' p, join len pos ang (start_point a) a b = Some [h; h'] /\
  end_point h' = end_point h /\ on (center h') (radii h') (x_rotation h') (start_angle h' + sweep_angle h') p /\ apart 199 p (end_point h').
Proof.
  assert (G := pi_3). exists three, three', (1 / 1000), (1 / 1000).
  assert (PA : proper three) by (apply proper_at; rewrite Rabs_right; lra). assert (PB : proper three') by (apply proper_at; rewrite Rabs_right; lra).
  assert (GO : goes_on three three') by (unfold goes_on, three, three'; cbn; split; [reflexivity|]; split; [reflexivity|]; split; [reflexivity|]; exists 0%Z; ring).
  split; [exact PA|]. split; [exact PB|]. split; [exact GO|]. split; [cbn; nra|]. split; [lra|]. split; [lra|]. intros len.
  destruct (merged len three three' (1 / 1000) GO (proj2 (proj2 (proj2 PB)))) as (Q1 & Q2 & Q3 & Q4 & (k & Q5) & Q6); [lra|left; reflexivity|apply PA|apply circle_mean|].
  assert (J : is_connected three three' (1 / 1000) (1 / 1000) = true) by (apply connected; try assumption; try apply PA; try apply PB; try lra; cbn; lra).
  set (m := merge len (1 / 1000) (start_point three) three three') in *.
  assert (SW : sweep_angle m = 3 * PI) by (rewrite Q4; cbn; field).
  assert (E1 : end_point three' = P (-100) 0). { rewrite (after three three' GO (proj2 (proj2 (proj2 PB)))). cbn [three three' center radii x_rotation start_angle sweep_angle]. replace (0 + (3 * (PI / 2) + 3 * (PI / 2))) with (PI + IZR 1 * (2 * PI)) by field. rewrite ellipse_turn. unfold ellipse_at, rotate_radian. cbn [px py]. rewrite cos_PI, sin_PI, cos_0, sin_0. f_equal; ring. }
  do 2 eexists. exists (P 100 0). split; [|split; [|split]].
  - unfold join. rewrite J. fold m. rewrite SW. rewrite (proj2 (less_true (2 * PI - 1 / 1000) (Rabs (3 * PI)))) by (rewrite Rabs_right; lra). unfold signum. rewrite (proj2 (less_false (3 * PI) 0)) by lra. reflexivity.
  - change (end_point three' = end_point (with_angles m (start_angle m) (1 * PI))). rewrite E1. unfold end_point, with_angles, point_at_angle. cbn [memo center radii x_rotation start_angle sweep_angle]. rewrite Q1, Q2, Q3, Q5. cbn [three center radii x_rotation start_angle]. replace (0 + IZR k * (2 * PI) + 1 * PI) with (PI + IZR k * (2 * PI)) by ring. rewrite ellipse_turn. unfold ellipse_at, rotate_radian. cbn [px py]. rewrite cos_PI, sin_PI, cos_0, sin_0. f_equal; ring.
  - cbn [center radii x_rotation start_angle sweep_angle set_end_point_memo with_angles]. rewrite Q1, Q2, Q3, Q5. apply on_at. cbn [three center radii x_rotation start_angle]. replace (0 + IZR k * (2 * PI) + 1 * PI + 1 * PI) with (0 + IZR (k + 1) * (2 * PI)) by (rewrite plus_IZR; ring). rewrite ellipse_turn. unfold ellipse_at, rotate_radian. cbn [px py]. rewrite cos_0, sin_0. f_equal; ring.
  - cbn [end_point set_end_point_memo memo]. rewrite E1. unfold apart. cbn [px py]. lra.
Qed.
