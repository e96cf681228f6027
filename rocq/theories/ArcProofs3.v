From Coq Require Import Reals ZArith Bool Lra Lia Psatz.
From Verif Require Import EllipseModel ArcModel ArcSpec ArcProofs ArcProofs2.
Open Scope R_scope.

(** ** Chords *)
Lemma chord : forall c r phi t u p q, on c r phi t p -> on c r phi u q ->
  cos phi * (px p - px q) + sin phi * (py p - py q) = px r * (cos t - cos u) /\ - sin phi * (px p - px q) + cos phi * (py p - py q) = py r * (sin t - sin u).
Proof.
  intros c r phi t u p q [A B] [C D]. pose proof (sin2_cos2 phi) as Q. unfold Rsqr in Q. rewrite A, B, C, D. split.
  - transitivity ((sin phi * sin phi + cos phi * cos phi) * (px r * (cos t - cos u))); [ring|rewrite Q; ring].
  - transitivity ((sin phi * sin phi + cos phi * cos phi) * (py r * (sin t - sin u))); [ring|rewrite Q; ring].
Qed.
Lemma length_ : forall a w, (cos a - cos (a + w)) * (cos a - cos (a + w)) + (sin a - sin (a + w)) * (sin a - sin (a + w)) = 4 * (sin (w / 2) * sin (w / 2)).
Proof.
  intros a w. pose proof (sin2_cos2 a) as Q. pose proof (sin2_cos2 w) as Q'. unfold Rsqr in Q, Q'. assert (H : cos w = 1 - 2 * sin (w / 2) * sin (w / 2)) by (rewrite <- cos_2a_sin; f_equal; field).
  rewrite cos_plus, sin_plus. transitivity ((sin a * sin a + cos a * cos a) * (1 - 2 * cos w + (sin w * sin w + cos w * cos w))); [ring|]. rewrite Q, Q', H. ring.
Qed.
Lemma abs_half : forall w, Rabs (sin (w / 2)) = Rabs (sin (Rabs w / 2)).
Proof. intros w. unfold Rabs at 3. destruct (Rcase_abs w); [|reflexivity]. replace (- w / 2) with (- (w / 2)) by field. rewrite sin_neg, Rabs_Ropp. reflexivity. Qed.
Lemma sqr_half : forall w, sin (w / 2) * sin (w / 2) = sin (Rabs w / 2) * sin (Rabs w / 2).
Proof. intros w. unfold Rabs. destruct (Rcase_abs w); [|reflexivity]. replace (- w / 2) with (- (w / 2)) by field. rewrite sin_neg. ring. Qed.
Lemma half_pos : forall w, 0 < Rabs w < 2 * PI -> 0 < sin (Rabs w / 2).
Proof. intros w H. apply sin_gt_0; lra. Qed.

Lemma factor : forall a, proper a -> radius_factor a = sin (sweep_angle a / 2) * sin (sweep_angle a / 2).
Proof.
  intros a (X & Y & W & K). unfold radius_factor. rewrite (proj2 (same_false (px (radii a)) 0)) by lra. rewrite (proj2 (same_false (py (radii a)) 0)) by lra. cbn [orb].
  rewrite fmod_cos, fmod_sin, !Rabs_right by lra. destruct (ends a K) as [A B]. destruct (chord _ _ _ _ _ _ _ A B) as [C D].
  set (hx := px (start_point a) - px (end_point a)) in *. set (hy := py (start_point a) - py (end_point a)) in *. set (f := x_rotation a) in *.
  replace (cos f * (hx * (1 / 2)) + sin f * (hy * (1 / 2))) with ((cos f * hx + sin f * hy) / 2) by field. replace (- sin f * (hx * (1 / 2)) + cos f * (hy * (1 / 2))) with ((- sin f * hx + cos f * hy) / 2) by field.
  rewrite C, D. pose proof (length_ (start_angle a) (sweep_angle a)) as L.
  set (u := cos (start_angle a) - cos (start_angle a + sweep_angle a)) in *. set (v := sin (start_angle a) - sin (start_angle a + sweep_angle a)) in *.
  transitivity ((u * u + v * v) / 4); [field; split; lra|]. rewrite L. field.
Qed.

Lemma direction : forall a b w, cos w <> 1 -> cos a - cos (a + w) = cos b - cos (b + w) -> sin a - sin (a + w) = sin b - sin (b + w) -> cos a = cos b /\ sin a = sin b.
Proof.
  intros a b w N C S. rewrite !cos_plus in C. rewrite !sin_plus in S. pose proof (sin2_cos2 w) as Q. unfold Rsqr in Q.
  set (x := cos a - cos b). set (y := sin a - sin b). assert (E1 : (1 - cos w) * x + sin w * y = 0) by (unfold x, y; lra). assert (E2 : (1 - cos w) * y - sin w * x = 0) by (unfold x, y; lra).
  assert (D : 2 * (1 - cos w) <> 0) by lra.
  assert (X : x = 0). { apply (Rmult_eq_reg_l (2 * (1 - cos w))); [|exact D]. rewrite Rmult_0_r. transitivity ((1 - cos w) * ((1 - cos w) * x + sin w * y) - sin w * ((1 - cos w) * y - sin w * x) - (sin w * sin w + cos w * cos w - 1) * x); [ring|]. rewrite E1, E2, Q. ring. }
  assert (Y : y = 0). { apply (Rmult_eq_reg_l (2 * (1 - cos w))); [|exact D]. rewrite Rmult_0_r. transitivity (sin w * ((1 - cos w) * x + sin w * y) + (1 - cos w) * ((1 - cos w) * y - sin w * x) - (sin w * sin w + cos w * cos w - 1) * y); [ring|]. rewrite E1, E2, Q. ring. }
  unfold x, y in X, Y. split; lra.
Qed.

Definition large_of (a : arc) : bool := less PI (Rabs (sweep_angle a)).
Definition sweep_of (a : arc) : bool := less 0 (sweep_angle a).

(** The arc again, from a command whose radii are the ones of the arc in proportion. *)
Lemma redrawn : forall a b c, proper a -> 0 < c -> arc_of (px (radii a) * c) (py (radii a) * c) (x_rotation a) (large_of a) (sweep_of a) (start_point a) (end_point a) b ->
  exists m, c <= m /\ radii b = P (px (radii a) * m) (py (radii a) * m) /\ (m = c \/ Rabs (sweep_angle b) = PI) /\ 0 < Rabs (sweep_angle b) < 2 * PI /\ x_rotation b = x_rotation a /\
    cos (start_angle a) - cos (start_angle a + sweep_angle a) = m * (cos (start_angle b) - cos (start_angle b + sweep_angle b)) /\
    sin (start_angle a) - sin (start_angle a + sweep_angle a) = m * (sin (start_angle b) - sin (start_angle b + sweep_angle b)) /\
    sin (Rabs (sweep_angle a) / 2) = m * sin (Rabs (sweep_angle b) / 2).
Proof.
  intros a b c (X & Y & W & K) C0 (SB & EB & (s & S1 & RX & RY & SP) & SW & LG & XR). pose proof PI_RGT_0 as PP.
  rewrite Rabs_right in RX by nra. rewrite Rabs_right in RY by nra. assert (M : c <= c * s) by nra.
  assert (WB : 0 < Rabs (sweep_angle b) < 2 * PI) by (destruct (sweep_of a); [rewrite Rabs_right by lra|rewrite Rabs_left by lra]; lra).
  exists (c * s). destruct (ends a K) as [SA EA]. destruct (chord _ _ _ _ _ _ _ SA EA) as [C1 D1]. destruct (chord _ _ _ _ _ _ _ SB EB) as [C2 D2].
  rewrite C1 in C2. rewrite D1 in D2. rewrite RX in C2. rewrite RY in D2.
  assert (U : cos (start_angle a) - cos (start_angle a + sweep_angle a) = c * s * (cos (start_angle b) - cos (start_angle b + sweep_angle b))) by (apply (Rmult_eq_reg_l (px (radii a))); lra).
  assert (V : sin (start_angle a) - sin (start_angle a + sweep_angle a) = c * s * (sin (start_angle b) - sin (start_angle b + sweep_angle b))) by (apply (Rmult_eq_reg_l (py (radii a))); lra).
  split; [exact M|]. split; [destruct (radii b) as [x y]; cbn [px py] in *; f_equal; lra|]. split; [destruct SP as [->|SP]; [left; ring|right; exact SP]|]. split; [exact WB|]. split; [exact XR|]. split; [exact U|]. split; [exact V|].
  pose proof (length_ (start_angle a) (sweep_angle a)) as L1. pose proof (length_ (start_angle b) (sweep_angle b)) as L2. rewrite sqr_half in L1, L2. rewrite U, V in L1.
  pose proof (half_pos _ W) as P1. pose proof (half_pos _ WB) as P2. set (x := sin (Rabs (sweep_angle a) / 2)) in *. set (y := sin (Rabs (sweep_angle b) / 2)) in *.
  set (m := c * s) in *. assert (Q : x * x = (m * y) * (m * y)) by nra. assert (MY : 0 < m * y) by nra.
  assert (Z : (x - m * y) * (x + m * y) = 0) by lra. apply Rmult_integral in Z. destruct Z; lra.
Qed.

Lemma half_inj : forall w v (large : bool), 0 < w < 2 * PI -> 0 < v < 2 * PI -> (if large then PI <= w else w <= PI) -> (if large then PI <= v else v <= PI) -> sin (w / 2) = sin (v / 2) -> w = v.
Proof.
  intros w v large W V LW LV S. destruct large.
  - rewrite <- (sin_PI_x (w / 2)), <- (sin_PI_x (v / 2)) in S. assert (PI - w / 2 = PI - v / 2) by (apply sin_inj; [lra|lra|exact S]). lra.
  - assert (w / 2 = v / 2) by (apply sin_inj; [lra|lra|exact S]). lra.
Qed.

Lemma redrawn_same : forall a b, proper a -> arc_of (px (radii a)) (py (radii a)) (x_rotation a) (large_of a) (sweep_of a) (start_point a) (end_point a) b -> same_arc a b.
Proof.
  intros a b PR AO. pose proof PI_RGT_0 as PP. pose proof PR as (X & Y & W & K). pose proof AO as (SB & EB & _ & SW & LG & _).
  assert (AO' : arc_of (px (radii a) * 1) (py (radii a) * 1) (x_rotation a) (large_of a) (sweep_of a) (start_point a) (end_point a) b) by (rewrite !Rmult_1_r; exact AO).
  destruct (redrawn a b 1 PR Rlt_0_1 AO') as (m & M & RB & MP & WB & XR & U & V & S).
  pose proof (half_pos _ W) as P1. assert (M1 : m = 1). { destruct MP as [MP|MP]; [exact MP|]. rewrite MP, sin_PI2 in S. pose proof (SIN_bound (Rabs (sweep_angle a) / 2)). lra. }
  subst m. rewrite !Rmult_1_l in U, V, S. rewrite !Rmult_1_r in RB.
  assert (AB : Rabs (sweep_angle a) = Rabs (sweep_angle b)).
  { apply (half_inj _ _ (large_of a) W WB); [|exact LG|exact S]. unfold large_of. destruct (less PI (Rabs (sweep_angle a))) eqn:L; [apply less_true in L; lra|apply less_false in L; exact L]. }
  assert (SE : sweep_angle b = sweep_angle a).
  { unfold sweep_of in SW. destruct (less 0 (sweep_angle a)) eqn:L.
    - apply less_true in L. rewrite !Rabs_right in AB by lra. lra.
    - apply less_false in L. assert (sweep_angle a < 0) by (destruct L as [L|L]; [exact L|rewrite L, Rabs_R0 in W; lra]). rewrite !Rabs_left in AB by lra. lra. }
  rewrite SE in U, V. assert (N : cos (sweep_angle a) <> 1).
  { intros E. replace (sweep_angle a) with (2 * (sweep_angle a / 2)) in E by field. rewrite cos_2a_sin in E. rewrite Rmult_assoc, sqr_half in E. nra. }
  destruct (direction _ _ _ N U V) as [C S']. destruct (same_turn _ _ (eq_sym C) (eq_sym S')) as (k & KK).
  split; [|split; [|split; [|split]]].
  - destruct (ends a K) as [[A1 A2] _]. destruct SB as [B1 B2]. rewrite RB, <- C, <- S' in B1, B2. cbn [px py] in B1, B2. destruct (center a) as [c1 c2], (center b) as [c3 c4]. cbn [px py] in *. f_equal; lra.
  - rewrite RB. destruct (radii a); reflexivity.
  - exact SE.
  - exact XR.
  - exists k. exact KK.
Qed.

Lemma own : forall a, proper a -> arc_of (px (radii a)) (py (radii a)) (x_rotation a) (large_of a) (sweep_of a) (start_point a) (end_point a) a.
Proof.
  intros a (X & Y & W & K). pose proof PI_RGT_0 as PP. destruct (ends a K) as [A B]. split; [exact A|]. split; [exact B|]. split; [|split; [|split]].
  - exists 1. rewrite !Rmult_1_r, !Rabs_right by lra. split; [lra|]. split; [reflexivity|]. split; [reflexivity|]. now left.
  - unfold sweep_of. destruct (less 0 (sweep_angle a)) eqn:L.
    + apply less_true in L. rewrite Rabs_right in W by lra. exact W.
    + apply less_false in L. rewrite Rabs_left1 in W by lra. lra.
  - unfold large_of. destruct (less PI (Rabs (sweep_angle a))) eqn:L; [apply less_true in L; lra|apply less_false in L; exact L].
  - reflexivity.
Qed.

(** ** Writing *)
Lemma flag_inj : forall x y, flag_value x = flag_value y -> x = y.
Proof. intros [] []; cbn; intros; try reflexivity; lra. Qed.
Lemma degrees : forall x, x * 180 / PI * PI / 180 = x.
Proof. intros x. pose proof PI_RGT_0. field. lra. Qed.
Lemma drawn_command : forall a b rx ry, drawn (Command rx ry (x_rotation a * 180 / PI) (large_flag a) (sweep_flag a) (end_point a)) (start_point a) b <-> arc_of rx ry (x_rotation a) (large_of a) (sweep_of a) (start_point a) (end_point a) b.
Proof.
  intros a b rx ry. cbn [drawn]. rewrite degrees. split.
  - intros (l & s & L & S & A). change (large_flag a) with (flag_value (large_of a)) in L. change (sweep_flag a) with (flag_value (sweep_of a)) in S. apply flag_inj in L, S. now subst l s.
  - intros A. exists (large_of a), (sweep_of a). auto.
Qed.
Lemma root : forall a, proper a -> sqrt (radius_factor a) = sin (Rabs (sweep_angle a) / 2).
Proof. intros a H. rewrite (factor a H), sqr_half. apply sqrt_square. pose proof H as (_ & _ & W & _). pose proof (half_pos _ W). lra. Qed.
Lemma not_more : forall a, proper a -> less 1 (radius_factor a) = false.
Proof. intros a H. apply less_false. rewrite (factor a H). pose proof (SIN_bound (sweep_angle a / 2)). nra. Qed.
Lemma limit_distance : forall x y k, distance_squared (P (x * k) (y * k)) (P x y) = (x * x + y * y) * ((1 - k) * (1 - k)).
Proof. intros x y k. unfold distance_squared. cbn [px py]. ring. Qed.
Lemma limit_at : forall a, proper a ->
  distance_squared (P (px (radii a) * sqrt (radius_factor a)) (py (radii a) * sqrt (radius_factor a))) (radii a) = (px (radii a) * px (radii a) + py (radii a) * py (radii a)) * ((1 - sin (Rabs (sweep_angle a) / 2)) * (1 - sin (Rabs (sweep_angle a) / 2))).
Proof. intros a H. rewrite (root a H), <- limit_distance. destruct (radii a); reflexivity. Qed.

Lemma written_exact : forall fuel a positional precision, proper a ->
  positional * positional <= (px (radii a) * px (radii a) + py (radii a) * py (radii a)) * ((1 - sin (Rabs (sweep_angle a) / 2)) * (1 - sin (Rabs (sweep_angle a) / 2))) ->
  drawn (to_arc_to fuel a positional precision) (start_point a) a /\ forall b, drawn (to_arc_to fuel a positional precision) (start_point a) b -> same_arc a b.
Proof.
  intros fuel a positional precision H L. unfold to_arc_to. rewrite (not_more a H), (limit_at a H), (proj2 (less_false _ _) L). cbn [orb]. split.
  - apply drawn_command. exact (own a H).
  - intros b D. apply drawn_command in D. exact (redrawn_same a b H D).
Qed.

(** The divisor. *)
Lemma euclid_positive : forall a b positional precision, 0 < precision -> forall fuel u v, (0 <= v)%Z -> (0 < u)%Z -> (Z.to_nat v < fuel)%nat -> exists g, euclid a b positional precision fuel u v = Some g /\ 0 < g.
Proof.
  intros a b positional precision PR. assert (D : forall z, (0 < z)%Z -> 0 < IZR z / precision) by (intros z Z; apply Rdiv_lt_0_compat; [apply IZR_lt; exact Z|exact PR]).
  induction fuel as [|fuel IH]; intros u v V U F; [lia|]. cbn [euclid]. destruct (Z.eqb_spec v 0) as [->|NZ].
  - eexists. split; [reflexivity|]. apply D. exact U.
  - cbv zeta. destruct (near_whole _ _ && near_whole _ _)%bool; [eexists; split; [reflexivity|apply D; lia]|]. pose proof (Z.mod_pos_bound u v ltac:(lia)) as [A B]. apply IH; [exact A|lia|lia].
Qed.
Lemma round_nonzero : forall x, 1 / 2 <= x -> (0 < round x)%Z.
Proof.
  intros x H. unfold round. rewrite (proj2 (less_false x 0)) by lra. destruct (base_Int_part (x + 1 / 2)) as [A B]. apply lt_IZR. lra.
Qed.
Lemma scale_nonneg : forall p x, (0 <= scale_u32 p x)%Z.
Proof. intros p x. unfold scale_u32. pose proof (Z.abs_nonneg (round (x * p))). lia. Qed.
Lemma scale_positive : forall p x, 1 / 2 <= x * p -> (0 < scale_u32 p x)%Z.
Proof. intros p x H. unfold scale_u32. pose proof (round_nonzero _ H). lia. Qed.
Lemma gcd_positive : forall a b positional precision, 0 < precision -> 1 / 2 <= a * precision \/ 1 / 2 <= b * precision -> exists g, euclid_gcd_lossy a b positional precision = Some g /\ 0 < g.
Proof.
  intros a b positional precision PR H. unfold euclid_gcd_lossy. pose proof (scale_nonneg precision a). pose proof (scale_nonneg precision b).
  apply euclid_positive; [exact PR|lia| |lia]. destruct H as [H|H]; apply scale_positive in H; lia.
Qed.

(** The halving ends. *)
Lemma halve_ends : forall x y lx ly, 0 < x -> 0 < y -> 0 < lx -> 0 < ly -> exists n k, 0 < k /\ (x * k < lx \/ y * k < ly) /\ forall fuel, (n <= fuel)%nat -> halve fuel (P x y) (P lx ly) = Some (P (x * k) (y * k)).
Proof.
  assert (G : forall n x y lx ly, 0 < x -> 0 < y -> x * (1 / 2) ^ n < lx -> exists k, 0 < k /\ (x * k < lx \/ y * k < ly) /\ forall fuel, (n <= fuel)%nat -> halve fuel (P x y) (P lx ly) = Some (P (x * k) (y * k))).
  { induction n as [|n IH]; intros x y lx ly X Y L.
    - exists 1. cbn [pow] in L. split; [lra|]. split; [left; lra|]. intros fuel _. assert (Q : quadrant_a (P x y) (P lx ly) = false) by (unfold quadrant_a; cbn [px py]; rewrite (proj2 (less_true x lx)) by lra; reflexivity).
      rewrite !Rmult_1_r. destruct fuel; cbn [halve]; rewrite Q; reflexivity.
    - destruct (quadrant_a (P x y) (P lx ly)) eqn:Q.
      + destruct (IH (x / 2) (y / 2) lx ly) as (k & K & KL & KF); [lra|lra|cbn [pow] in L; lra|]. exists (k / 2). split; [lra|]. split; [lra|].
        intros [|fuel] F; [lia|]. cbn [halve]. rewrite Q. cbn [px py]. rewrite KF by lia. do 2 f_equal; field.
      + exists 1. split; [lra|]. split.
        * unfold quadrant_a in Q. cbn [px py] in Q. apply andb_false_iff in Q. destruct Q as [Q|Q]; apply negb_false_iff, less_true in Q; [left|right]; lra.
        * intros fuel _. rewrite !Rmult_1_r. destruct fuel; cbn [halve]; rewrite Q; reflexivity. }
  intros x y lx ly X Y LX LY. destruct (pow_lt_1_zero (1 / 2)) with (y := lx / x) as (n & N); [rewrite Rabs_right; lra|apply Rdiv_lt_0_compat; lra|].
  specialize (N n (le_n n)). rewrite Rabs_right in N by (apply Rle_ge, pow_le; lra). exists n. apply G; [exact X|exact Y|].
  apply (Rmult_lt_compat_l x) in N; [|exact X]. replace (x * (lx / x)) with lx in N by (field; lra). exact N.
Qed.

(** There is such an arc. *)
Lemma half_exists : forall a c, proper a -> 0 < c < sin (Rabs (sweep_angle a) / 2) -> exists b, arc_of (px (radii a) * c) (py (radii a) * c) (x_rotation a) (large_of a) (sweep_of a) (start_point a) (end_point a) b.
Proof.
  intros a c (X & Y & W & K) C. pose proof PI_RGT_0 as PP. destruct (ends a K) as [[S1 S2] [E1 E2]]. pose proof (length_ (start_angle a) (sweep_angle a)) as L. rewrite sqr_half in L.
  set (k := sin (Rabs (sweep_angle a) / 2)) in *. set (u := (cos (start_angle a) - cos (start_angle a + sweep_angle a)) / (2 * k)). set (v := (sin (start_angle a) - sin (start_angle a + sweep_angle a)) / (2 * k)).
  assert (UV : u * u + v * v = 1).
  { transitivity (((cos (start_angle a) - cos (start_angle a + sweep_angle a)) * (cos (start_angle a) - cos (start_angle a + sweep_angle a)) + (sin (start_angle a) - sin (start_angle a + sweep_angle a)) * (sin (start_angle a) - sin (start_angle a + sweep_angle a))) / (4 * (k * k))); [unfold u, v; field; lra|]. rewrite L. field. lra. }
  destruct (polar u v UV) as (CT & ST & _). set (t := atan2 v u) in *. clearbody t.
  assert (KU : k * u = (cos (start_angle a) - cos (start_angle a + sweep_angle a)) / 2) by (unfold u; field; lra). assert (KV : k * v = (sin (start_angle a) - sin (start_angle a + sweep_angle a)) / 2) by (unfold v; field; lra).
  set (w := if sweep_of a then PI else - PI).
  assert (CW : cos (t + w) = - cos t /\ sin (t + w) = - sin t). { unfold w. destruct (sweep_of a); [split; [apply neg_cos|apply neg_sin]|]. rewrite cos_plus, sin_plus, cos_neg, sin_neg, cos_PI, sin_PI. split; ring. }
  assert (AW : Rabs w = PI) by (unfold w; destruct (sweep_of a); [apply Rabs_right; lra|rewrite Rabs_Ropp; apply Rabs_right; lra]).
  exists (Arc (P ((px (start_point a) + px (end_point a)) / 2) ((py (start_point a) + py (end_point a)) / 2)) (P (px (radii a) * k) (py (radii a) * k)) t w (x_rotation a) None).
  unfold arc_of, on. cbn [center radii start_angle sweep_angle x_rotation px py]. destruct CW as [-> ->]. rewrite CT, ST, AW.
  assert (RU : px (radii a) * k * u = px (radii a) * ((cos (start_angle a) - cos (start_angle a + sweep_angle a)) / 2)) by (rewrite <- KU; ring). assert (RV : py (radii a) * k * v = py (radii a) * ((sin (start_angle a) - sin (start_angle a + sweep_angle a)) / 2)) by (rewrite <- KV; ring).
  replace (px (radii a) * k * - u) with (- (px (radii a) * k * u)) by ring. replace (py (radii a) * k * - v) with (- (py (radii a) * k * v)) by ring. rewrite RU, RV, S1, S2, E1, E2.
  split; [split; field|]. split; [split; field|]. split.
  - exists (k / c). rewrite !Rabs_right by nra. split; [apply (Rmult_le_reg_r c); [lra|]; unfold Rdiv; rewrite Rmult_assoc, Rinv_l by lra; lra|]. split; [field; lra|]. split; [field; lra|]. now right.
  - split; [unfold w; destruct (sweep_of a); lra|]. split; [destruct (large_of a); lra|reflexivity].
Qed.

Lemma written_half : forall a positional precision, proper a -> 0 < precision -> 1 / 2 <= px (radii a) * precision \/ 1 / 2 <= py (radii a) * precision ->
  (px (radii a) * px (radii a) + py (radii a) * py (radii a)) * ((1 - sin (Rabs (sweep_angle a) / 2)) * (1 - sin (Rabs (sweep_angle a) / 2))) < positional * positional ->
  exists n rx ry, 0 < rx /\ 0 < ry /\ forall fuel, (n <= fuel)%nat ->
    to_arc_to fuel a positional precision = Command rx ry (x_rotation a * 180 / PI) (large_flag a) (sweep_flag a) (end_point a) /\
    (exists b, drawn (to_arc_to fuel a positional precision) (start_point a) b) /\
    forall b, drawn (to_arc_to fuel a positional precision) (start_point a) b ->
      Rabs (sweep_angle b) = PI /\ (0 < sweep_angle b <-> 0 < sweep_angle a) /\ radii b = P (px (radii a) * sin (Rabs (sweep_angle a) / 2)) (py (radii a) * sin (Rabs (sweep_angle a) / 2)) /\ ~ apart positional (radii a) (radii b).
Proof.
  intros a positional precision H PR SC L. pose proof H as (X & Y & W & K). pose proof (half_pos _ W) as SP. set (k := sin (Rabs (sweep_angle a) / 2)) in *.
  destruct (gcd_positive _ _ positional _ PR SC) as (g & G & G0).
  destruct (halve_ends (px (radii a) / g) (py (radii a) / g) (px (radii a) * k) (py (radii a) * k)) as (n & c & C & CL & CF); [apply Rdiv_lt_0_compat; lra|apply Rdiv_lt_0_compat; lra|nra|nra|].
  set (c' := c / g). assert (C' : 0 < c') by (apply Rdiv_lt_0_compat; lra).
  assert (RX : px (radii a) / g * c = px (radii a) * c') by (unfold c'; field; lra). assert (RY : py (radii a) / g * c = py (radii a) * c') by (unfold c'; field; lra).
  exists n, (px (radii a) * c'), (py (radii a) * c'). split; [nra|]. split; [nra|]. intros fuel F.
  assert (E : to_arc_to fuel a positional precision = Command (px (radii a) * c') (py (radii a) * c') (x_rotation a * 180 / PI) (large_flag a) (sweep_flag a) (end_point a)).
  { unfold to_arc_to. rewrite (not_more a H), (limit_at a H). fold k. rewrite (proj2 (less_true _ _) L). cbn [orb]. rewrite G, (proj2 (same_false g 0)) by lra. rewrite (root a H). fold k. rewrite (CF fuel F). cbn [px py]. rewrite RX, RY. reflexivity. }
  assert (CK : c' < k) by (rewrite RX, RY in CL; destruct CL as [CL|CL]; nra).
  split; [exact E|]. split; [destruct (half_exists a c' H (conj C' CK)) as (b & B); exists b; rewrite E; apply drawn_command; exact B|].
  intros b D. rewrite E in D. apply drawn_command in D. destruct (redrawn a b c' H C' D) as (m & M & RB & MP & WB & XR & U & V & S). fold k in S.
  pose proof (half_pos _ WB) as PB. pose proof (SIN_bound (Rabs (sweep_angle b) / 2)) as SB.
  assert (PI' : Rabs (sweep_angle b) = PI). { destruct MP as [MP|MP]; [|exact MP]. exfalso. subst m. nra. }
  rewrite PI', sin_PI2, Rmult_1_r in S. subst m. split; [exact PI'|]. split; [|split; [exact RB|]].
  - destruct D as (_ & _ & _ & SW & _). unfold sweep_of in SW. destruct (less 0 (sweep_angle a)) eqn:Q; [apply less_true in Q|apply less_false in Q]; lra.
  - rewrite RB. unfold apart. cbn [px py]. nra.
Qed.
