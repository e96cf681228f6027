From Coq Require Import Reals ZArith Bool Lra Lia Psatz.
From Verif Require Import EllipseModel ArcModel ArcSpec ArcProofs ArcProofs2 ArcProofs3.
Open Scope R_scope.

Lemma differ : forall a, proper a -> start_point a <> end_point a.
Proof.
  intros a (X & Y & W & K) E. destruct (ends a K) as [A B]. destruct (chord _ _ _ _ _ _ _ A B) as [C D]. rewrite E in C, D.
  assert (U : cos (start_angle a) - cos (start_angle a + sweep_angle a) = 0) by (apply (Rmult_eq_reg_l (px (radii a))); lra).
  assert (V : sin (start_angle a) - sin (start_angle a + sweep_angle a) = 0) by (apply (Rmult_eq_reg_l (py (radii a))); lra).
  pose proof (length_ (start_angle a) (sweep_angle a)) as L. rewrite U, V, sqr_half in L. pose proof (half_pos _ W). nra.
Qed.
Lemma read_back : forall a, proper a -> 1 / 100000 <= px (radii a) -> 1 / 100000 <= py (radii a) ->
  exists b, from_arc_to (px (radii a)) (py (radii a)) (x_rotation a * 180 / PI) (large_flag a) (sweep_flag a) (end_point a) (start_point a) = Some b /\ same_arc a b /\ kept b /\ end_point b = end_point a.
Proof.
  intros a H LX LY. pose proof H as (X & Y & W & K).
  destruct (parsed (px (radii a)) (py (radii a)) (x_rotation a * 180 / PI) (large_of a) (sweep_of a) (start_point a) (end_point a)) as (b & E & AO & KB); [rewrite Rabs_right; lra|rewrite Rabs_right; lra|exact (differ a H)|].
  exists b. split; [exact E|]. unfold radians in AO. rewrite degrees in AO. split; [exact (redrawn_same a b H AO)|]. split; [exact KB|].
  unfold from_arc_to in E. destruct (is_arc_to_line _ _ _ _); [discriminate|]. cbv zeta in E. injection E as <-. reflexivity.
Qed.

(** ** Witnesses *)
Definition semicircle : arc := Arc (P 0 0) (P 1 1) PI PI 0 None.
Lemma semicircle_of : forall r, 0 < r <= 1 -> arc_of r r 0 false true (P (-1) 0) (P 1 0) semicircle.
Proof.
  intros r H. pose proof PI_RGT_0 as PP. unfold arc_of, semicircle, on. cbn [center radii start_angle sweep_angle x_rotation px py].
  assert (PI2 : PI + PI = 2 * PI) by ring. rewrite PI2, cos_2PI, sin_2PI, cos_PI, sin_PI, cos_0, sin_0. rewrite (Rabs_right PI) by lra. rewrite (Rabs_right r) by lra. split; [|split; [|split; [|split; [|split]]]]; try (split; ring); try lra.
  exists (1 / r). split; [apply (Rmult_le_reg_r r); [lra|]; unfold Rdiv; rewrite Rmult_assoc, Rinv_l by lra; lra|]. split; [field; lra|]. split; [field; lra|]. now right.
Qed.
Lemma tiny : exists rx ry from to a p, 0 < rx /\ 0 < ry /\ from <> to /\ arc_of rx ry 0 false true from to a /\ halfway a p /\ py from = 0 /\ py to = 0 /\ apart (9 / 10) p (P (px p) 0) /\ from_arc_to rx ry 0 0 1 to from = None.
Proof.
  exists (1 / 1000000), (1 / 1000000), (P (-1) 0), (P 1 0), semicircle, (P 0 (-1)). split; [lra|]. split; [lra|]. split; [intros E; injection E; lra|]. split; [apply semicircle_of; lra|]. split.
  - unfold halfway, on, semicircle. cbn [center radii start_angle sweep_angle x_rotation px py]. rewrite cos_plus, sin_plus, cos_PI, sin_PI, cos_PI2, sin_PI2, cos_0, sin_0. split; ring.
  - cbn [px py]. split; [reflexivity|]. split; [reflexivity|]. split; [unfold apart; cbn [px py]; lra|].
    unfold from_arc_to, is_arc_to_line. rewrite Rabs_right by lra. rewrite (proj2 (less_true _ _)) by lra. reflexivity.
Qed.

Definition speck : arc := Arc (P 0 0) (P (2 / 5) (2 / 5)) 0 PI 0 None.
Lemma speck_proper : proper speck.
Proof. pose proof PI_RGT_0. unfold proper, speck, kept. cbn. rewrite Rabs_right by lra. split; [lra|]. split; [lra|]. split; [lra|]. intros p D. discriminate. Qed.
Lemma endless : exists a positional precision, proper a /\ 0 < positional /\ 0 < precision /\ forall fuel, to_arc_to fuel a positional precision = Endless.
Proof.
  exists speck, (1 / 1000), 1. split; [exact speck_proper|]. split; [lra|]. split; [lra|]. intros fuel. unfold to_arc_to.
  rewrite (not_more _ speck_proper), (limit_at _ speck_proper). pose proof PI_RGT_0.
  assert (S : sin (Rabs (sweep_angle speck) / 2) = 1) by (cbn [sweep_angle speck]; rewrite Rabs_right by lra; exact sin_PI2). rewrite S.
  rewrite (proj2 (less_true _ _)) by lra. cbn [orb].
  assert (R0 : round (2 / 5 * 1) = 0%Z). { unfold round. rewrite (proj2 (less_false _ _)) by lra. apply int_small. lra. }
  unfold euclid_gcd_lossy, scale_u32. cbn [radii px py speck]. rewrite R0. cbn. rewrite (proj2 (same_true (0 / 1) 0)) by lra. reflexivity.
Qed.

(** An arc of radius a hundred, a little less than half a turn. *)
Definition h : R := acos (1 / 500).
Definition bow : arc := Arc (P 0 0) (P 100 100) (- h) (2 * h) 0 None.
Lemma cos_h : cos h = 1 / 500. Proof. apply cos_acos. lra. Qed.
Lemma sin_h : 1 - 4 / 1000000 < sin h < 1.
Proof.
  pose proof (sin2_cos2 h) as Q. rewrite cos_h in Q. unfold Rsqr in Q. assert (P : 0 <= sin h) by (unfold h; rewrite sin_acos by lra; apply sqrt_pos). split; nra.
Qed.
Lemma h_range : 0 < h < PI. Proof. apply acos_bound_lt. lra. Qed.
Lemma h_half : 0 < h < PI / 2.
Proof. pose proof h_range as [A B]. split; [exact A|]. destruct (Rlt_le_dec h (PI / 2)) as [L|L]; [exact L|]. pose proof (cos_le_0 h L ltac:(lra)) as C. rewrite cos_h in C. lra. Qed.
Lemma bow_abs : Rabs (sweep_angle bow) = 2 * h. Proof. cbn. pose proof h_range. rewrite Rabs_right; lra. Qed.
Lemma bow_proper : proper bow.
Proof. pose proof h_range. unfold proper. rewrite bow_abs. unfold kept. cbn. split; [lra|]. split; [lra|]. split; [lra|]. intros p D. discriminate. Qed.
Lemma bow_half : sin (Rabs (sweep_angle bow) / 2) = sin h.
Proof. rewrite bow_abs. f_equal. field. Qed.
Lemma moved : exists a positional precision n p, proper a /\ 0 < positional /\ 0 < precision /\ halfway a p /\
  (forall fuel, (n <= fuel)%nat -> exists b, drawn (to_arc_to fuel a positional precision) (start_point a) b) /\
  forall fuel b q, (n <= fuel)%nat -> drawn (to_arc_to fuel a positional precision) (start_point a) b -> halfway b q -> apart (190 * positional) p q.
Proof.
  pose proof sin_h as SH. pose proof h_half as HH. pose proof PI_RGT_0 as PP.
  destruct (written_half bow (1 / 1000) 1000 bow_proper ltac:(lra) ltac:(left; cbn; lra)) as (n & rx & ry & X & Y & F).
  { rewrite bow_half. cbn [bow radii px py]. nra. }
  exists bow, (1 / 1000), 1000, n, (P 100 0). split; [exact bow_proper|]. split; [lra|]. split; [lra|]. split; [|split].
  - unfold halfway, on. cbn. replace (- h + 2 * h / 2) with 0 by field. rewrite cos_0, sin_0. split; ring.
  - intros fuel L. exact (proj1 (proj2 (F fuel L))).
  - intros fuel b q L D Q. destruct (F fuel L) as (E & _ & B). destruct (B b D) as (PI' & SG & RB & _). rewrite bow_half in RB. rewrite E in D. apply drawn_command in D.
    assert (SP : 0 < sweep_angle b) by (apply SG; cbn; lra). rewrite Rabs_right in PI' by lra.
    destruct D as (SA & EA & _ & _ & _ & XR). cbn [bow x_rotation] in XR, SA, EA. unfold halfway in Q. rewrite XR in Q. rewrite PI', RB in *. clear RB.
    unfold start_point, end_point, point_at_angle, ellipse_at, rotate_radian in SA, EA. unfold on in *. cbn [bow memo center radii x_rotation start_angle sweep_angle px py] in *.
    replace (- h + 2 * h) with h in EA by ring. rewrite cos_neg, sin_neg in SA. rewrite cos_0, sin_0 in *. rewrite !neg_cos, !neg_sin in EA. rewrite cos_plus, sin_plus, cos_PI2, sin_PI2 in Q.
    rewrite cos_h in SA, EA. set (cs := cos (start_angle b)) in *. set (sn := sin (start_angle b)) in *. set (z := sin h) in *.
    destruct SA as [S1 S2], EA as [E1 E2], Q as [Q1 Q2].
    assert (CX : px (center b) = 1 / 5) by lra. assert (ZC : 100 * z * cs = 0) by lra. assert (ZS : 100 * z * sn = - (100 * z)) by lra.
    assert (QX : px q = 1 / 5 + 100 * z) by (rewrite Q1, CX; lra). assert (QY : py q = py (center b)) by (rewrite Q2; lra).
    unfold apart. cbn [px py]. rewrite QX. nra.
Qed.
