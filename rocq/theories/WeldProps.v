From Coq Require Import Reals ZArith Bool List Lra.
From Verif Require Import EllipseModel ArcModel ArcSpec ArcProofs WeldModel WeldSpec WeldProofs WeldProofs2.
Import ListNotations.
Open Scope R_scope.

(** C127: straight arcs. *)
Theorem C127_line_partial : forall a pos, kept a -> Rabs (sweep_angle a) <= 2 * PI -> pos <= px (radii a) -> pos <= py (radii a) -> is_straight a pos = true ->
  1 <= distance_squared (start_point a) (end_point a) -> forall p, on_arc a p -> near_line pos (start_point a) (end_point a) p.
Proof. exact straight_line. Qed.
Print Assumptions C127_line_partial.
Theorem C127_loop_refuted : exists a pos p, proper a /\ 0 < pos /\ px (radii a) = py (radii a) /\ pos <= px (radii a) /\ is_straight a pos = true /\ on_arc a p /\
  forall q, between (start_point a) (end_point a) q -> apart 99 p q.
Proof. exact loop_lost. Qed.
Print Assumptions C127_loop_refuted.
Theorem C127_thin_refuted : exists a pos p, proper a /\ 0 < pos /\ is_straight a pos = true /\ on_arc a p /\ forall q, between (start_point a) (end_point a) q -> apart 99 p q.
Proof. exact thin_lost. Qed.
Print Assumptions C127_thin_refuted.
(** A sixth of a circle counts as straight for a tolerance of half its radius. *)
Definition flat : arc := Arc (P 0 0) (P 1 1) 0 (PI / 3) 0 None.
Example C127_flat : kept flat /\ Rabs (sweep_angle flat) <= 2 * PI /\ 1 / 2 <= px (radii flat) /\ 1 / 2 <= py (radii flat) /\ is_straight flat (1 / 2) = true /\ 1 <= distance_squared (start_point flat) (end_point flat).
Proof.
  assert (G := PI_RGT_0). assert (K : kept flat) by (intros p E; discriminate). split; [exact K|]. split; [cbn; rewrite Rabs_right; lra|]. split; [cbn; lra|]. split; [cbn; lra|]. split.
  - unfold is_straight. rewrite !orb_true_iff. right. apply less_true. rewrite (cross_at flat (1 / 2)); [|exact K|apply on_at; reflexivity].
    set (M := Rmax _ 1). assert (M1 : 1 <= M) by apply Rmax_r. cbn [radii sweep_angle flat px py]. replace (PI / 3 * (1 / 2 - 1 / 2)) with 0 by field. replace (PI / 3 / 2) with (PI / 6) by field. rewrite cos_0, sin_PI6, cos_PI6.
    assert (Q : 17 / 10 <= sqrt 3 <= 18 / 10) by (split; [rewrite <- (sqrt_square (17 / 10)) by lra|rewrite <- (sqrt_square (18 / 10)) by lra]; apply sqrt_le_1_alt; lra).
    apply Rmult_lt_reg_r with M; [lra|]. unfold Rdiv at 1. rewrite Rmult_assoc, Rinv_l, Rmult_1_r by lra. rewrite Rabs_left; lra.
  - unfold flat, start_point, end_point, point_at_angle, ellipse_at, rotate_radian, distance_squared. cbn. replace (0 + PI / 3) with (PI / 3) by ring. rewrite cos_PI3, sin_PI3, cos_0, sin_0. assert (Q := sqrt_sqrt 3). nra.
Qed.

(** C128: joined arcs. *)
Theorem C128_joined_partial : forall (len : arc -> R) a b pos ang, goes_on a b -> proper a -> proper b -> definite a pos -> 1 / 1000000000 <= mean_radius a -> 0 < pos -> 0 < ang ->
  0 < sweep_angle a * sweep_angle b -> Rabs (sweep_angle a + sweep_angle b) <= 2 * PI - ang ->
  exists c u, join len pos ang (start_point a) a b = Some [c] /\ 0 < u < 1 /\ reparametrised c a (fun t => u * t) /\ reparametrised c b (fun t => u + (1 - u) * t) /\ end_point c = end_point b /\ proper c.
Proof. exact joined_one. Qed.
Print Assumptions C128_joined_partial.
Theorem C128_whole_partial : forall (len : arc -> R) a b pos ang, goes_on a b -> proper a -> proper b -> definite a pos -> 1 / 1000000000 <= mean_radius a -> 0 < pos -> 0 < ang ->
  0 < sweep_angle a * sweep_angle b -> 2 * PI - ang < Rabs (sweep_angle a + sweep_angle b) <= 2 * PI ->
  exists c h h' u v, join len pos ang (start_point a) a b = Some [h; h'] /\ Rabs (sweep_angle c) = 2 * PI /\
    reparametrised c h (fun t => t / 2) /\ reparametrised c h' (fun t => 1 / 2 + t / 2) /\ reparametrised c a (fun t => u * t) /\ reparametrised c b (fun t => u + v * t) /\
    0 < u /\ 0 < v /\ u + v <= 1 /\ (1 - (u + v)) * (2 * PI) < ang /\ kept h /\ end_point h' = end_point b.
Proof. exact joined_two. Qed.
Print Assumptions C128_whole_partial.
Theorem C128_back_refuted : exists a b pos ang p, proper a /\ proper b /\ goes_on a b /\ 0 < pos /\ 0 < ang /\ forall len, exists l c, join len pos ang (start_point a) a b = Some l /\ In c l /\ on_arc c p /\
  forall q, on_arc a q \/ on_arc b q -> apart 99 p q.
Proof. exact goes_back. Qed.
Print Assumptions C128_back_refuted.
Theorem C128_turn_refuted : exists a b pos ang, proper a /\ proper b /\ goes_on a b /\ 0 < sweep_angle a * sweep_angle b /\ 0 < pos /\ 0 < ang /\ forall len, exists h h' p, join len pos ang (start_point a) a b = Some [h; h'] /\
  end_point h' = end_point h /\ on (center h') (radii h') (x_rotation h') (start_angle h' + sweep_angle h') p /\ apart 199 p (end_point h').
Proof. exact more_than_a_turn. Qed.
Print Assumptions C128_turn_refuted.
(** Two quarters, and two halves, of a circle. *)
Definition quarters (s : R) : arc * arc := (Arc (P 0 0) (P 100 100) 0 s 0 None, Arc (P 0 0) (P 100 100) s s 0 None).
Example C128_meets : forall s, s = PI / 2 \/ s = PI -> let (a, b) := quarters s in goes_on a b /\ proper a /\ proper b /\ definite a (1 / 1000) /\ 1 / 1000000000 <= mean_radius a /\ 0 < sweep_angle a * sweep_angle b.
Proof.
  intros s H. assert (G := PI_RGT_0). assert (S : 0 < s < 2 * PI) by lra. cbn. split; [|split; [|split; [|split; [left; reflexivity|split; [apply circle_mean|apply Rmult_lt_0_compat; lra]]]]].
  - unfold goes_on. cbn. split; [reflexivity|]. split; [reflexivity|]. split; [reflexivity|]. exists 0%Z. ring.
  - apply proper_at. rewrite Rabs_right; lra.
  - apply proper_at. rewrite Rabs_right; lra.
Qed.
