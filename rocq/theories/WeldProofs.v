From Coq Require Import Reals ZArith Bool List Lra Lia.
From Verif Require Import EllipseModel ArcModel ArcSpec ArcProofs ArcProofs2 ArcProofs3 WeldModel WeldSpec.
Import ListNotations.
Open Scope R_scope.

Lemma dist_self p : distance_squared p p = 0.
Proof. unfold distance_squared. ring. Qed.
Lemma end_is a : kept a -> end_point a = ellipse_at (center a) (radii a) (x_rotation a) (start_angle a + sweep_angle a).
Proof. intros K. unfold end_point. destruct (memo a) as [p|] eqn:M; [apply on_at, K; exact M|reflexivity]. Qed.
Lemma ellipse_turn c r phi t k : ellipse_at c r phi (t + IZR k * (2 * PI)) = ellipse_at c r phi t.
Proof. apply turned; [apply turn_cos|apply turn_sin]. Qed.
Lemma scale_one x : 1 / 1000000000 <= x -> x / Rmax x (1 / 1000000000) = 1.
Proof. intros H. rewrite Rmax_left by exact H. field. lra. Qed.
Lemma same_point_true p q : same_point p q = true <-> p = q.
Proof.
  destruct p as [a b], q as [c d]. unfold same_point. cbn [px py]. rewrite andb_true_iff, !same_true. split; [intros [-> ->]; reflexivity|intros E; injection E as -> ->; auto].
Qed.
Lemma after a b : goes_on a b -> kept b -> end_point b = ellipse_at (center a) (radii a) (x_rotation a) (start_angle a + (sweep_angle a + sweep_angle b)).
Proof.
  intros (C & R & X & k & S) K. rewrite (end_is b K), C, R, X, S. replace (start_angle a + sweep_angle a + IZR k * (2 * PI) + sweep_angle b) with (start_angle a + (sweep_angle a + sweep_angle b) + IZR k * (2 * PI)) by ring. apply ellipse_turn.
Qed.

(** Arcs of an ellipse that go on from one another are always joined. *)
Lemma connected a b pos ang : goes_on a b -> kept b -> 0 < px (radii a) -> 0 < py (radii a) -> 1 / 1000000000 <= px (radii a) + py (radii a) -> 0 < pos -> 0 < ang -> is_connected a b pos ang = true.
Proof.
  intros G K X Y L P0 A0. assert (E := after a b G K). destruct G as (C & R & Ro & k & S). unfold is_connected.
  assert (I : is_invariant_broken a b = false).
  { unfold is_invariant_broken. rewrite R. rewrite scale_one by exact L. destruct (less _ _).
    - apply less_false. unfold start_point at 1, point_at_angle. rewrite C, R, Ro, S. replace (start_angle a + sweep_angle a + IZR k * (2 * PI) - sweep_angle a * 1) with (start_angle a + IZR k * (2 * PI)) by ring. rewrite ellipse_turn, dist_self. lra.
    - apply less_false. rewrite E. unfold point_at_angle. rewrite Rmult_1_r, Rplus_assoc, dist_self. lra. }
  rewrite I. assert (M : is_similar a b pos ang = true); [|rewrite M; reflexivity].
  unfold is_similar. rewrite C, R, Ro, !dist_self. rewrite (proj2 (less_true (Rabs (x_rotation a - x_rotation a)) ang)) by (rewrite Rminus_diag_eq, Rabs_R0 by reflexivity; exact A0). rewrite orb_true_r, andb_true_r.
  assert (B : below 0 (tolerance_scaled a b pos) = true).
  { unfold tolerance_scaled, below. destruct (same _ 0); [reflexivity|]. apply less_true. apply Rmult_lt_0_compat; [apply Rmult_lt_0_compat; exact P0|]. apply Rlt_le_trans with (40 * sqrt (px (radii a) * px (radii a) + py (radii a) * py (radii a))); [|apply Rmax_r].
    apply Rmult_lt_0_compat; [lra|]. apply sqrt_lt_R0. assert (0 < px (radii a) * px (radii a)) by (apply Rmult_lt_0_compat; exact X). assert (0 < py (radii a) * py (radii a)) by (apply Rmult_lt_0_compat; exact Y). lra. }
  rewrite B. reflexivity.
Qed.

Lemma circle_dist c r phi t : 0 <= r -> distance c (ellipse_at c (P r r) phi t) = r.
Proof.
  intros H. unfold distance, distance_squared, ellipse_at, rotate_radian. cbn [px py]. assert (Q := sin2_cos2 phi). assert (Q' := sin2_cos2 t). unfold Rsqr in Q, Q'.
  match goal with |- sqrt ?X = _ => replace X with (r * r * ((sin phi * sin phi + cos phi * cos phi) * (sin t * sin t + cos t * cos t))) by ring end. rewrite Q, Q'. replace (r * r * (1 * 1)) with (r * r) by ring. apply sqrt_square. exact H.
Qed.
(** Fitting a circle to points of it. *)
Lemma refit_same m pos p q t u : definite m pos -> 0 < pos -> 0 < px (radii m) -> p = ellipse_at (center m) (radii m) (x_rotation m) t -> q = ellipse_at (center m) (radii m) (x_rotation m) u ->
  center (refit m pos p q) = center m /\ radii (refit m pos p q) = radii m /\ start_angle (refit m pos p q) = start_angle m /\ sweep_angle (refit m pos p q) = sweep_angle m /\ x_rotation (refit m pos p q) = x_rotation m.
Proof.
  intros D P0 X EP EQ. unfold refit. destruct (is_circle m pos) eqn:C; [|auto]. unfold is_circle in C. apply less_true in C. destruct D as [D|D]; [|lra]. cbn. split; [reflexivity|]. split; [|auto].
  destruct m as [c [rx ry] s w f mm]. cbn [center radii x_rotation px py] in *. subst ry. rewrite EP, EQ, !circle_dist by lra. f_equal; lra.
Qed.
Lemma merged len a b pos : goes_on a b -> kept b -> 0 < pos -> definite a pos -> 0 < px (radii a) -> 1 / 1000000000 <= mean_radius a ->
  let m := merge len pos (start_point a) a b in
  center m = center a /\ radii m = radii a /\ x_rotation m = x_rotation a /\ sweep_angle m = sweep_angle a + sweep_angle b /\ (exists k, start_angle m = start_angle a + IZR k * (2 * PI)) /\ memo m = Some (end_point b).
Proof.
  intros G K P0 D X L. assert (E := after a b G K). destruct G as (C & R & Ro & k & S). cbv zeta. assert (MR : mean_radius b = mean_radius a) by (unfold mean_radius; rewrite R; reflexivity).
  unfold merge. rewrite MR, scale_one by exact L. rewrite !Rmult_1_r. destruct (less (len a) (len b)).
  - set (c := with_angles b (start_angle b - sweep_angle a) (sweep_angle b + sweep_angle a)).
    destruct (refit_same c pos (start_point a) (end_point b) (start_angle a) (start_angle a + (sweep_angle a + sweep_angle b))) as (Q1 & Q2 & Q3 & Q4 & Q5); try (unfold c, with_angles, definite; cbn [center radii x_rotation]; rewrite ?C, ?R, ?Ro; assumption || reflexivity).
    cbn [set_end_point_memo center radii x_rotation sweep_angle start_angle memo]. rewrite Q1, Q2, Q3, Q4, Q5. unfold c, with_angles. cbn [center radii x_rotation sweep_angle start_angle]. rewrite C, R, Ro, S.
    split; [reflexivity|]. split; [reflexivity|]. split; [reflexivity|]. split; [ring|]. split; [exists k; ring|reflexivity].
  - set (c := with_angles a (start_angle a) (sweep_angle a + sweep_angle b)).
    destruct (refit_same c pos (start_point a) (end_point b) (start_angle a) (start_angle a + (sweep_angle a + sweep_angle b))) as (Q1 & Q2 & Q3 & Q4 & Q5); try (unfold c, with_angles, definite; cbn [center radii x_rotation]; assumption || reflexivity).
    cbn [set_end_point_memo center radii x_rotation sweep_angle start_angle memo]. rewrite Q1, Q2, Q3, Q4, Q5. unfold c, with_angles. cbn [center radii x_rotation sweep_angle start_angle].
    split; [reflexivity|]. split; [reflexivity|]. split; [reflexivity|]. split; [reflexivity|]. split; [exists 0%Z; ring|reflexivity].
Qed.

(** Angles along an arc. *)
Lemma along a b f k : center b = center a -> radii b = radii a -> x_rotation b = x_rotation a ->
  (forall s, start_angle a + sweep_angle a * f s = start_angle b + sweep_angle b * s + IZR k * (2 * PI)) -> reparametrised a b f.
Proof.
  intros C R Ro H s p. rewrite !on_at, C, R, Ro, H, ellipse_turn. reflexivity.
Qed.
Lemma apart_ends c r phi t d : 0 < px r -> 0 < py r -> 0 < Rabs d < 2 * PI -> ellipse_at c r phi (t + d) <> ellipse_at c r phi t.
Proof.
  intros X Y D E. assert (ON : on c r phi (t + d) (ellipse_at c r phi t)) by (apply on_at; symmetry; exact E). assert (ON' : on c r phi t (ellipse_at c r phi t)) by (apply on_at; reflexivity).
  destruct (chord _ _ _ _ _ _ _ ON ON') as [A B]. rewrite !Rminus_diag_eq in A, B by reflexivity. assert (CC : cos (t + d) = cos t) by nra. assert (SS : sin (t + d) = sin t) by nra.
  destruct (same_turn _ _ CC SS) as (k & Kk). assert (DK : d = IZR k * (2 * PI)) by lra. assert (G := PI_RGT_0).
  assert (KZ : (- 1 < k < 1)%Z). { unfold Rabs in D. destruct (Rcase_abs d); split; apply lt_IZR; apply Rmult_lt_reg_r with (2 * PI); lra. }
  replace k with 0%Z in DK by lia. rewrite DK, Rmult_0_l, Rabs_R0 in D. lra.
Qed.

Section One.
  Variable len : arc -> R.
  Variables (a b : arc) (pos ang : R).
  Hypotheses (G : goes_on a b) (A : proper a) (B : proper b) (D : definite a pos) (L : 1 / 1000000000 <= mean_radius a) (P0 : 0 < pos) (A0 : 0 < ang) (Same : 0 < sweep_angle a * sweep_angle b).

  Lemma is_joined : is_connected a b pos ang = true.
  Proof. destruct A as (X & Y & _). apply connected; try assumption; [apply B|unfold mean_radius in L; lra]. Qed.
  Lemma sum_abs : Rabs (sweep_angle a + sweep_angle b) = Rabs (sweep_angle a) + Rabs (sweep_angle b).
  Proof. unfold Rabs. destruct (Rcase_abs (sweep_angle a)), (Rcase_abs (sweep_angle b)), (Rcase_abs (sweep_angle a + sweep_angle b)); nra. Qed.
  Lemma sum_nonzero : sweep_angle a + sweep_angle b <> 0.
  Proof. intros Z. assert (S := sum_abs). rewrite Z, Rabs_R0 in S. destruct A as (_ & _ & W & _), B as (_ & _ & W' & _). lra. Qed.

  Lemma joined_one : Rabs (sweep_angle a + sweep_angle b) <= 2 * PI - ang ->
    exists c u, join len pos ang (start_point a) a b = Some [c] /\ 0 < u < 1 /\ reparametrised c a (fun t => u * t) /\ reparametrised c b (fun t => u + (1 - u) * t) /\ end_point c = end_point b /\ proper c.
  Proof.
    intros H. destruct (merged len a b pos G (proj2 (proj2 (proj2 B))) P0 D (proj1 A) L) as (Q1 & Q2 & Q3 & Q4 & (k & Q5) & Q6). set (m := merge len pos (start_point a) a b) in *.
    assert (E : end_point m = end_point b) by (unfold end_point at 1; rewrite Q6; reflexivity). assert (AF := after a b G (proj2 (proj2 (proj2 B)))). assert (SA := sum_abs). assert (SZ := sum_nonzero). assert (GP := PI_RGT_0).
    destruct A as (X & Y & W & K), B as (_ & _ & W' & K'). set (s1 := sweep_angle a) in *. set (s2 := sweep_angle b) in *.
    assert (NE : same_point (end_point m) (start_point a) = false).
    { destruct (same_point (end_point m) (start_point a)) eqn:SP; [|reflexivity]. exfalso. apply same_point_true in SP. rewrite E, AF in SP. revert SP. apply apart_ends; try assumption. lra. }
    assert (U : 0 < s1 / (s1 + s2) < 1).
    { assert (I : 0 < / ((s1 + s2) * (s1 + s2))) by (apply Rinv_0_lt_compat; nra). split.
      - replace (s1 / (s1 + s2)) with ((s1 * s1 + s1 * s2) * / ((s1 + s2) * (s1 + s2))) by (field; exact SZ). apply Rmult_lt_0_compat; nra.
      - assert (0 < s2 / (s1 + s2)) by (replace (s2 / (s1 + s2)) with ((s2 * s2 + s1 * s2) * / ((s1 + s2) * (s1 + s2))) by (field; exact SZ); apply Rmult_lt_0_compat; nra). replace (s1 / (s1 + s2)) with (1 - s2 / (s1 + s2)) by (field; exact SZ). lra. }
    exists m, (s1 / (s1 + s2)). split; [|split; [exact U|split; [|split; [|split; [exact E|]]]]].
    - unfold join. rewrite is_joined. fold m. rewrite NE, Q4. rewrite (proj2 (less_false _ _) H). reflexivity.
    - apply (along m a (fun t => s1 / (s1 + s2) * t) k); try congruence. intros s. rewrite Q4, Q5. fold s1. field. exact SZ.
    - destruct G as (C & R & Ro & k' & S). apply (along m b (fun t => s1 / (s1 + s2) + (1 - s1 / (s1 + s2)) * t) (k - k')%Z); try congruence. intros s. rewrite Q4, Q5, S, minus_IZR. fold s1 s2. field. exact SZ.
    - unfold proper. rewrite Q2, Q4. split; [exact X|]. split; [exact Y|]. split; [lra|]. intros p Hp. rewrite Q6 in Hp. injection Hp as <-. apply on_at. rewrite AF, Q1, Q2, Q3, Q4, Q5. fold s1 s2. replace (start_angle a + IZR k * (2 * PI) + (s1 + s2)) with (start_angle a + (s1 + s2) + IZR k * (2 * PI)) by ring. rewrite ellipse_turn. reflexivity.
  Qed.

  Lemma joined_two : 2 * PI - ang < Rabs (sweep_angle a + sweep_angle b) <= 2 * PI ->
    exists c h h' u v, join len pos ang (start_point a) a b = Some [h; h'] /\ Rabs (sweep_angle c) = 2 * PI /\
      reparametrised c h (fun t => t / 2) /\ reparametrised c h' (fun t => 1 / 2 + t / 2) /\ reparametrised c a (fun t => u * t) /\ reparametrised c b (fun t => u + v * t) /\
      0 < u /\ 0 < v /\ u + v <= 1 /\ (1 - (u + v)) * (2 * PI) < ang /\ kept h /\ end_point h' = end_point b.
  Proof.
    intros H. destruct (merged len a b pos G (proj2 (proj2 (proj2 B))) P0 D (proj1 A) L) as (Q1 & Q2 & Q3 & Q4 & (k & Q5) & Q6). set (m := merge len pos (start_point a) a b) in *.
    assert (SA := sum_abs). assert (SZ := sum_nonzero). assert (GP := PI_RGT_0). destruct A as (X & Y & W & K), B as (_ & _ & W' & K'). set (s1 := sweep_angle a) in *. set (s2 := sweep_angle b) in *.
    set (sg := signum (s1 + s2)). assert (SG : sg * sg = 1 /\ sg * s1 = Rabs s1 /\ sg * s2 = Rabs s2).
    { unfold sg, signum. destruct (less (s1 + s2) 0) eqn:N; [apply less_true in N|apply less_false in N]; (split; [ring|]); unfold Rabs; destruct (Rcase_abs s1), (Rcase_abs s2); split; nra. }
    destruct SG as (SG & S1 & S2).
    exists (Arc (center m) (radii m) (start_angle m) (sg * (2 * PI)) (x_rotation m) None), (set_end_point_memo (with_angles m (start_angle m) (sg * PI)) (end_point (with_angles m (start_angle m) (sg * PI)))),
      (set_end_point_memo (with_angles (with_angles m (start_angle m) (sg * PI)) (start_angle m + sg * PI) (sg * PI)) (end_point b)), (sg * s1 / (2 * PI)), (sg * s2 / (2 * PI)).
    assert (I : 0 < / (2 * PI)) by (apply Rinv_0_lt_compat; lra).
    split; [|split; [|split; [|split; [|split; [|split; [|split; [|split; [|split; [|split; [|split; [|reflexivity]]]]]]]]]]].
    - unfold join. rewrite is_joined. fold m. rewrite Q4. fold sg. rewrite (proj2 (less_true _ _) (proj1 H)). reflexivity.
    - cbn [sweep_angle]. rewrite Rabs_mult, (Rabs_right (2 * PI)) by lra. assert (AS : Rabs sg = 1) by (unfold sg, signum; destruct (less _ _); [rewrite Rabs_left; lra|rewrite Rabs_right; lra]). rewrite AS. ring.
    - apply along with (k := 0%Z); try reflexivity. intros s. cbn. field.
    - apply along with (k := 0%Z); try reflexivity. intros s. cbn. field.
    - apply along with (k := k); cbn [center radii x_rotation]; try congruence. intros s. cbn [start_angle sweep_angle]. rewrite Q5. fold s1. transitivity (start_angle a + IZR k * (2 * PI) + sg * sg * s1 * s); [field; lra|rewrite SG; ring].
    - destruct G as (C & R & Ro & k' & S). apply along with (k := (k - k')%Z); cbn [center radii x_rotation]; try congruence. intros s. cbn [start_angle sweep_angle]. rewrite Q5, S, minus_IZR. fold s1 s2. transitivity (start_angle a + IZR k * (2 * PI) + sg * sg * (s1 + s2 * s)); [field; lra|rewrite SG; ring].
    - rewrite S1. apply Rmult_lt_0_compat; lra.
    - rewrite S2. apply Rmult_lt_0_compat; lra.
    - rewrite S1, S2. apply Rmult_le_reg_r with (2 * PI); [lra|]. replace ((Rabs s1 / (2 * PI) + Rabs s2 / (2 * PI)) * (2 * PI)) with (Rabs s1 + Rabs s2) by (field; lra). lra.
    - rewrite S1, S2. replace ((1 - (Rabs s1 / (2 * PI) + Rabs s2 / (2 * PI))) * (2 * PI)) with (2 * PI - (Rabs s1 + Rabs s2)) by (field; lra). lra.
    - intros p Hp. cbn [memo set_end_point_memo] in Hp. injection Hp as <-. apply on_at. reflexivity.
  Qed.
End One.
