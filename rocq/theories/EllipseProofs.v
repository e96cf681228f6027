From Coq Require Import Reals Lra Bool Psatz.
From Verif Require Import EllipseModel EllipseSpec.
Open Scope R_scope.

(** ** Ellipses as quadratic forms *)
Definition qa (s : shape) : R := rx s ^ 2 * cos (angle s) ^ 2 + ry s ^ 2 * sin (angle s) ^ 2.
Definition qb (s : shape) : R := (rx s ^ 2 - ry s ^ 2) * (cos (angle s) * sin (angle s)).
Definition qd (s : shape) : R := rx s ^ 2 * sin (angle s) ^ 2 + ry s ^ 2 * cos (angle s) ^ 2.
Definition form (a b d x y : R) : R := d * x ^ 2 - 2 * b * (x * y) + a * y ^ 2.
Lemma cs1 : forall t, cos t ^ 2 + sin t ^ 2 = 1.
Proof. intros t. pose proof (sin2_cos2 t) as H. unfold Rsqr in H. lra. Qed.
Lemma form_axes : forall s x y, form (qa s) (qb s) (qd s) x y = ry s ^ 2 * along s x y ^ 2 + rx s ^ 2 * across s x y ^ 2.
Proof. intros. unfold form, qa, qb, qd, along, across. ring. Qed.
Lemma form_det : forall s, qa s * qd s - qb s ^ 2 = (rx s * ry s) ^ 2.
Proof.
  intros s. unfold qa, qb, qd. pose proof (cs1 (angle s)) as H. set (c := cos (angle s)) in *. set (n := sin (angle s)) in *.
  transitivity ((rx s * ry s) ^ 2 * (c ^ 2 + n ^ 2) ^ 2); [ring|]. rewrite H. ring.
Qed.
Lemma strain_form : forall s x y, rx s <> 0 -> ry s <> 0 -> 4 * (rx s * ry s) ^ 2 * strain s x y = form (qa s) (qb s) (qd s) x y.
Proof. intros s x y A B. rewrite form_axes. unfold strain. field. split; assumption. Qed.
Lemma growth_square : forall s x y, growth s x y ^ 2 = if Rlt_dec 1 (strain s x y) then strain s x y else 1.
Proof.
  intros s x y. unfold growth. destruct (Rlt_dec 1 (strain s x y)); [|ring]. rewrite <- Rsqr_pow2. apply Rsqr_sqrt. lra.
Qed.
Lemma growth_pos : forall s x y, 0 < growth s x y.
Proof. intros. unfold growth. destruct (Rlt_dec 1 (strain s x y)); [apply sqrt_lt_R0; lra|lra]. Qed.
Lemma on_form : forall s cx cy x y, rx s <> 0 -> ry s <> 0 ->
  on_ellipse s cx cy x y <-> form (qa s) (qb s) (qd s) x y = growth s cx cy ^ 2 * (rx s * ry s) ^ 2.
Proof.
  intros s cx cy x y A B. rewrite form_axes. pose proof (cs1 (angle s)) as CS. pose proof (growth_pos s cx cy) as G. unfold on_ellipse, along, across.
  set (c := cos (angle s)) in *. set (n := sin (angle s)) in *. set (k := growth s cx cy) in *. split.
  - intros (u & v & UV & -> & ->).
    transitivity (k ^ 2 * (rx s * ry s) ^ 2 * ((u ^ 2 + v ^ 2) * (c ^ 2 + n ^ 2) ^ 2)); [ring|]. rewrite UV, CS. ring.
  - intros E. exists ((c * x + n * y) / (k * rx s)), ((- n * x + c * y) / (k * ry s)). split; [|split].
    + transitivity ((ry s ^ 2 * (c * x + n * y) ^ 2 + rx s ^ 2 * (- n * x + c * y) ^ 2) / (k ^ 2 * (rx s * ry s) ^ 2)); [field; repeat split; try assumption; lra|].
      rewrite E. field. repeat split; try assumption; lra.
    + transitivity (x * (c ^ 2 + n ^ 2)); [rewrite CS; ring|]. field. repeat split; try assumption; lra.
    + transitivity (y * (c ^ 2 + n ^ 2)); [rewrite CS; ring|]. field. repeat split; try assumption; lra.
Qed.

(** ** The axes of a matrix *)
Definition na (n : lin) : R := l0 n ^ 2 + l2 n ^ 2.
Definition nb (n : lin) : R := l0 n * l1 n + l2 n * l3 n.
Definition nd (n : lin) : R := l1 n ^ 2 + l3 n ^ 2.
Lemma hypot_square : forall x y, hypot x y ^ 2 = x * x + y * y.
Proof. intros. unfold hypot. rewrite <- Rsqr_pow2. apply Rsqr_sqrt. nra. Qed.
Lemma hypot_zero : forall x y, hypot x y = 0 -> x = 0 /\ y = 0.
Proof. intros x y H. pose proof (hypot_square x y) as S. rewrite H in S. split; nra. Qed.
Lemma hypot_pos : forall x y, hypot x y <> 0 -> 0 < hypot x y.
Proof. intros x y H. unfold hypot in *. pose proof (sqrt_pos (x * x + y * y)). lra. Qed.
Lemma angle_back : forall t, t * 180 / PI * PI / 180 = t.
Proof. intros. field. apply PI_neq0. Qed.
(** The angle whose cosine is [x / h] and whose sine has the sign of [y]. *)
Lemma acos_angle : forall x y h g, h > 0 -> h ^ 2 = x * x + y * y -> (g = 1 /\ 0 <= y \/ g = -1 /\ y <= 0) ->
  cos (g * acos (x / h)) = x / h /\ sin (g * acos (x / h)) = y / h.
Proof.
  intros x y h g H E G.
  assert (B : -1 <= x / h <= 1).
  { assert (X : - h <= x <= h) by nra. split; [apply Rmult_le_reg_r with h; [lra|]; field_simplify; lra|apply Rmult_le_reg_r with h; [lra|]; field_simplify; lra]. }
  assert (S : sin (acos (x / h)) = Rabs y / h).
  { rewrite sin_acos by exact B. replace (1 - (x / h)²) with ((Rabs y / h)²).
    - apply sqrt_Rsqr. apply Rmult_le_pos; [apply Rabs_pos|]. left. apply Rinv_0_lt_compat. exact H.
    - unfold Rsqr. transitivity ((Rabs y * Rabs y) / h ^ 2); [field; lra|]. assert (Y : Rabs y * Rabs y = y * y) by (rewrite <- Rabs_mult; apply Rabs_right; nra).
      rewrite Y. transitivity ((h ^ 2 - x * x) / h ^ 2); [rewrite E; field; nra|]. field. lra. }
  destruct G as [(-> & Y)|(-> & Y)].
  - rewrite Rmult_1_l, S, cos_acos by exact B. split; [reflexivity|]. rewrite Rabs_right by lra. reflexivity.
  - replace (-1 * acos (x / h)) with (- acos (x / h)) by ring. rewrite cos_neg, sin_neg, S, cos_acos by exact B. split; [reflexivity|]. rewrite Rabs_left1 by exact Y. field. lra.
Qed.
Definition root (n : lin) : R := hypot (l0 n - l3 n) (l1 n + l2 n) * hypot (l0 n + l3 n) (l1 n - l2 n).
Definition total (n : lin) : R := l0 n * l0 n + l1 n * l1 n + (l2 n * l2 n + l3 n * l3 n).
Lemma root_square : forall n, root n ^ 2 = total n ^ 2 - 4 * det n ^ 2.
Proof. intros n. unfold root. rewrite Rpow_mult_distr, !hypot_square. unfold total, det. ring. Qed.
Lemma root_nonneg : forall n, 0 <= root n.
Proof. intros n. unfold root. apply Rmult_le_pos; apply sqrt_pos. Qed.
Lemma root_le : forall n, root n <= total n.
Proof. intros n. pose proof (root_square n). pose proof (root_nonneg n). assert (0 <= total n) by (unfold total; nra). nra. Qed.
Lemma root_lt : forall n, det n <> 0 -> root n < total n.
Proof.
  intros n D. pose proof (root_square n). pose proof (root_nonneg n). assert (0 <= total n) by (unfold total; nra).
  assert (0 < det n ^ 2) by (rewrite <- Rsqr_pow2; apply Rlt_0_sqr; exact D). nra.
Qed.
(** A square sum and a direction that is kept give the form. *)
Lemma spectral : forall n w t1 t2 h, h > 0 -> h ^ 2 = t1 * t1 + t2 * t2 ->
  na n * t1 + nb n * t2 = w * t1 -> nb n * t1 + nd n * t2 = w * t2 ->
  w * (t1 / h) ^ 2 + (total n - w) * (t2 / h) ^ 2 = na n /\ (w - (total n - w)) * (t1 / h * (t2 / h)) = nb n /\ w * (t2 / h) ^ 2 + (total n - w) * (t1 / h) ^ 2 = nd n.
Proof.
  intros n w t1 t2 h H E A B. assert (T : total n = na n + nd n) by (unfold total, na, nd; ring). rewrite T.
  assert (X : forall a b : R, a = b * h ^ 2 -> a / h ^ 2 = b) by (intros a b ->; field; lra). repeat split.
  - transitivity ((w * t1 ^ 2 + (na n + nd n - w) * t2 ^ 2) / h ^ 2); [field; lra|]. apply X. rewrite E.
    transitivity ((w * t1) * t1 + (na n + nd n) * t2 ^ 2 - (w * t2) * t2); [ring|]. rewrite <- A, <- B. ring.
  - transitivity (((w - (na n + nd n - w)) * (t1 * t2)) / h ^ 2); [field; lra|]. apply X. rewrite E.
    transitivity ((w * t1) * t2 + (w * t2) * t1 - (na n + nd n) * (t1 * t2)); [ring|]. rewrite <- A, <- B. ring.
  - transitivity ((w * t2 ^ 2 + (na n + nd n - w) * t1 ^ 2) / h ^ 2); [field; lra|]. apply X. rewrite E.
    transitivity ((w * t2) * t2 + (na n + nd n) * t1 ^ 2 - (w * t1) * t1); [ring|]. rewrite <- A, <- B. ring.
Qed.
(** The direction that is computed is kept by the form. *)
Lemma kept : forall n w, w ^ 2 - total n * w + det n ^ 2 = 0 ->
  let sub := w - (l2 n * l2 n + l3 n * l3 n) in let rows := l0 n * l2 n + l1 n * l3 n in
  let t1 := l0 n * sub + l2 n * rows in let t2 := l1 n * sub + l3 n * rows in
  na n * t1 + nb n * t2 = w * t1 /\ nb n * t1 + nd n * t2 = w * t2 /\ t1 * t1 + t2 * t2 = w * (sub ^ 2 + rows ^ 2).
Proof.
  intros n w W sub rows t1 t2.
  assert (E1 : (l0 n * l0 n + l1 n * l1 n) * sub + rows * rows = w * sub).
  { unfold sub, rows, total, det in *. nra. }
  assert (E2 : rows * sub + (l2 n * l2 n + l3 n * l3 n) * rows = w * rows) by (unfold sub; ring).
  split; [|split].
  - transitivity (l0 n * ((l0 n * l0 n + l1 n * l1 n) * sub + rows * rows) + l2 n * (rows * sub + (l2 n * l2 n + l3 n * l3 n) * rows)).
    + unfold na, nb, t1, t2, rows. ring.
    + rewrite E1, E2. unfold t1. ring.
  - transitivity (l1 n * ((l0 n * l0 n + l1 n * l1 n) * sub + rows * rows) + l3 n * (rows * sub + (l2 n * l2 n + l3 n * l3 n) * rows)).
    + unfold nd, nb, t1, t2, rows. ring.
    + rewrite E1, E2. unfold t2. ring.
  - transitivity (sub * ((l0 n * l0 n + l1 n * l1 n) * sub + rows * rows) + rows * (rows * sub + (l2 n * l2 n + l3 n * l3 n) * rows)).
    + unfold t1, t2, rows. ring.
    + rewrite E1, E2. ring.
Qed.
Lemma axes_form : forall n s, axes n = Some s -> qa s = na n /\ qb s = nb n /\ qd s = nd n.
Proof.
  intros n s. unfold axes. cbv zeta. fold (root n). fold (total n). destruct (Req_EM_T (root n) 0) as [R|R].
  { intros E. injection E as <-. unfold qa, qb, qd, angle. cbn [rx ry deg]. replace (0 * PI / 180) with 0 by (field; apply PI_neq0). rewrite cos_0, sin_0.
    assert (S : sqrt (total n / 2) ^ 2 = total n / 2).
    { rewrite <- Rsqr_pow2. apply Rsqr_sqrt. unfold total. nra. }
    rewrite S. unfold root in R. apply Rmult_integral in R. unfold na, nb, nd, total.
    destruct R as [R|R]; apply hypot_zero in R; destruct R as (R1 & R2).
    - assert (l3 n = l0 n) by lra. assert (l2 n = - l1 n) by lra. rewrite H, H0. repeat split; field.
    - assert (l3 n = - l0 n) by lra. assert (l2 n = l1 n) by lra. rewrite H, H0. repeat split; field. }
  set (major := less (1 / 1000000) _). set (w := if major then (total n + root n) / 2 else (total n - root n) / 2).
  set (t1 := l0 n * _ + _). set (t2 := l1 n * _ + _).
  assert (W : w ^ 2 - total n * w + det n ^ 2 = 0).
  { unfold w. pose proof (root_square n). destruct major; nra. }
  destruct (kept n w W) as (K1 & K2 & K3). cbv zeta in K1, K2, K3. fold t1 t2 in K1, K2, K3. clearbody t1 t2.
  destruct (Req_EM_T (hypot t1 t2) 0) as [H|H]; [discriminate|]. intros E. injection E as <-. apply hypot_pos in H.
  pose proof (hypot_square t1 t2) as HS. destruct (spectral n w t1 t2 _ H HS K1 K2) as (S1 & S2 & S3).
  pose proof (root_nonneg n) as RN. pose proof (root_le n) as RL.
  assert (SM : sqrt ((total n + root n) / 2) ^ 2 = (total n + root n) / 2) by (rewrite <- Rsqr_pow2; apply Rsqr_sqrt; lra).
  assert (SN : sqrt ((total n - root n) / 2) ^ 2 = (total n - root n) / 2) by (rewrite <- Rsqr_pow2; apply Rsqr_sqrt; lra).
  unfold qa, qb, qd, angle. cbn [rx ry deg]. rewrite SM, SN, angle_back. destruct major; cbn [andb orb negb] in *.
  - assert (AN : cos ((if less t2 0 || false then -1 else 1) * acos (t1 / hypot t1 t2)) = t1 / hypot t1 t2 /\ sin ((if less t2 0 || false then -1 else 1) * acos (t1 / hypot t1 t2)) = t2 / hypot t1 t2).
    { apply acos_angle; [exact H|exact HS|]. unfold less. destruct (Rlt_dec t2 0); cbn [orb]; [right|left]; lra. }
    destruct AN as (-> & ->). unfold w in *. replace (total n - (total n + root n) / 2) with ((total n - root n) / 2) in * by field.
    split; [exact S1|]. split; [exact S2|exact S3].
  - assert (AN : cos ((if less 0 t1 then -1 else 1) * acos (t2 / hypot t1 t2)) = t2 / hypot t1 t2 /\ sin ((if less 0 t1 then -1 else 1) * acos (t2 / hypot t1 t2)) = - t1 / hypot t1 t2).
    { apply acos_angle; [exact H|rewrite HS; ring|]. unfold less. destruct (Rlt_dec 0 t1); [right|left]; lra. }
    destruct AN as (-> & ->). unfold w in *. replace (total n - (total n - root n) / 2) with ((total n + root n) / 2) in * by field.
    replace (- t1 / hypot t1 t2) with (- (t1 / hypot t1 t2)) by (field; lra). set (x := t1 / hypot t1 t2) in *. set (y := t2 / hypot t1 t2) in *.
    rewrite <- S1, <- S2, <- S3. repeat split; ring.
Qed.
(** It fails only for matrices that are nearly a rotation and a scale, by less than 1e-6. *)
Lemma axes_some : forall n, det n <> 0 -> root n = 0 \/ 1 / 1000000 < root n -> axes n <> None.
Proof.
  intros n D R. unfold axes. cbv zeta. fold (root n). fold (total n). destruct (Req_EM_T (root n) 0) as [Z|Z]; [discriminate|]. destruct R as [R|R]; [contradiction|].
  set (major := less (1 / 1000000) _) in *. set (w := if major then (total n + root n) / 2 else (total n - root n) / 2).
  set (sub := w - _). set (rows := l0 n * l2 n + l1 n * l3 n). set (t1 := l0 n * sub + _). set (t2 := l1 n * sub + _).
  assert (W : w ^ 2 - total n * w + det n ^ 2 = 0).
  { unfold w. pose proof (root_square n). destruct major; nra. }
  destruct (kept n w W) as (_ & _ & K3). cbv zeta in K3. fold sub rows in K3. fold t1 t2 in K3.
  assert (WP : 0 < w).
  { pose proof (root_lt n D). pose proof (root_nonneg n). unfold w. destruct major; lra. }
  assert (SN : sub <> 0).
  { unfold sub, w. unfold major, less in *. pose proof (root_nonneg n).
    destruct (Rlt_dec (1 / 1000000) (Rabs ((total n + root n) / 2 - (l2 n * l2 n + l3 n * l3 n)))) as [L|L].
    - intros E. rewrite E, Rabs_R0 in L. lra.
    - intros E. apply L. replace ((total n + root n) / 2 - (l2 n * l2 n + l3 n * l3 n)) with (root n) by lra. rewrite Rabs_right; lra. }
  destruct (Req_EM_T (hypot t1 t2) 0) as [H|H]; [|discriminate]. exfalso. apply hypot_zero in H. destruct H as (-> & ->).
  assert (0 < sub ^ 2) by (rewrite <- Rsqr_pow2; apply Rlt_0_sqr; exact SN). nra.
Qed.
Lemma upright_form : forall s, qa (upright s) = qa s /\ qb (upright s) = qb s /\ qd (upright s) = qd s.
Proof.
  intros s. unfold upright. destruct (less 80 (Rabs (deg s))); [|repeat split]. unfold qa, qb, qd, angle. cbn [rx ry deg]. destruct (less 0 (deg s)).
  - replace ((deg s + -90) * PI / 180) with (- (PI / 2 - deg s * PI / 180)) by field. rewrite cos_neg, sin_neg, cos_shift, sin_shift. repeat split; ring.
  - replace ((deg s + 90) * PI / 180) with (PI / 2 + deg s * PI / 180) by field. rewrite <- sin_cos, <- (cos_sin (deg s * PI / 180)) || idtac.
    replace (cos (PI / 2 + deg s * PI / 180)) with (- sin (deg s * PI / 180)) by (rewrite sin_cos; ring). rewrite <- cos_sin. repeat split; ring.
Qed.
Lemma upright_radii : forall s, rx (upright s) * ry (upright s) = rx s * ry s.
Proof. intros s. unfold upright. destruct (less 80 (Rabs (deg s))); cbn [rx ry]; ring. Qed.

(** ** The image *)
(** [g]: by how much the radii are made longer before the matrix is applied. *)
Lemma image_form : forall m s s' g, (qa s' = g ^ 2 * (l0 m ^ 2 * qa s + 2 * (l0 m * l2 m) * qb s + l2 m ^ 2 * qd s)) ->
  qb s' = g ^ 2 * (l0 m * l1 m * qa s + (l0 m * l3 m + l1 m * l2 m) * qb s + l2 m * l3 m * qd s) ->
  qd s' = g ^ 2 * (l1 m ^ 2 * qa s + 2 * (l1 m * l3 m) * qb s + l3 m ^ 2 * qd s) ->
  (forall x y, form (qa s') (qb s') (qd s') (move_x m x y) (move_y m x y) = g ^ 2 * det m ^ 2 * form (qa s) (qb s) (qd s) x y) /\
  (rx s' * ry s') ^ 2 = g ^ 4 * det m ^ 2 * (rx s * ry s) ^ 2.
Proof.
  intros m s s' g A B D. split.
  - intros x y. rewrite A, B, D. unfold form, move_x, move_y, det. ring.
  - rewrite <- !form_det, A, B, D. unfold det. ring.
Qed.
Lemma image_ellipse : forall m s s' g cx cy, det m <> 0 -> rx s <> 0 -> ry s <> 0 -> (g = 1 \/ 1 < strain s cx cy /\ g ^ 2 = strain s cx cy) ->
  (forall x y, form (qa s') (qb s') (qd s') (move_x m x y) (move_y m x y) = g ^ 2 * det m ^ 2 * form (qa s) (qb s) (qd s) x y) ->
  (rx s' * ry s') ^ 2 = g ^ 4 * det m ^ 2 * (rx s * ry s) ^ 2 ->
  forall x y, on_ellipse s cx cy x y <-> on_ellipse s' (move_x m cx cy) (move_y m cx cy) (move_x m x y) (move_y m x y).
Proof.
  intros m s s' g cx cy D A B G F R x y.
  assert (D2 : 0 < det m ^ 2) by (rewrite <- Rsqr_pow2; apply Rlt_0_sqr; exact D).
  assert (P2 : 0 < (rx s * ry s) ^ 2) by (rewrite <- Rsqr_pow2; apply Rlt_0_sqr; apply Rmult_integral_contrapositive; split; assumption).
  assert (G2 : 0 < g ^ 2) by (destruct G as [->|(G & ->)]; lra).
  assert (G4 : g ^ 4 = g ^ 2 * g ^ 2) by ring. rewrite G4 in R.
  assert (R0 : 0 < (rx s' * ry s') ^ 2) by (rewrite R; exact (Rmult_lt_0_compat _ _ (Rmult_lt_0_compat _ _ (Rmult_lt_0_compat _ _ G2 G2) D2) P2)).
  assert (A' : rx s' <> 0) by (intros E; rewrite E in R0; nra). assert (B' : ry s' <> 0) by (intros E; rewrite E in R0; nra).
  rewrite !on_form by assumption. rewrite F, !growth_square.
  pose proof (strain_form s cx cy A B) as S1. pose proof (strain_form s' (move_x m cx cy) (move_y m cx cy) A' B') as S2. rewrite F, <- S1, R in S2.
  assert (S : g ^ 2 * strain s' (move_x m cx cy) (move_y m cx cy) = strain s cx cy).
  { apply Rmult_eq_reg_l with (4 * (g ^ 2 * det m ^ 2 * (rx s * ry s) ^ 2)); [|pose proof (Rmult_lt_0_compat _ _ (Rmult_lt_0_compat _ _ G2 D2) P2); lra]. lra. }
  rewrite R. set (q := form (qa s) (qb s) (qd s) x y). set (p := (rx s * ry s) ^ 2) in *. set (d := det m ^ 2) in *. set (h := strain s cx cy) in *.
  set (h' := strain s' (move_x m cx cy) (move_y m cx cy)) in *.
  assert (X : forall k k', k = g ^ 2 * k' -> (q = k * p <-> g ^ 2 * d * q = k' * (g ^ 2 * g ^ 2 * d * p))).
  { intros k k' ->. split.
    - intros ->. ring.
    - intros E. apply Rmult_eq_reg_l with (g ^ 2 * d); [|apply Rgt_not_eq, Rmult_lt_0_compat; assumption]. rewrite E. ring. }
  apply X. destruct G as [->|(G & E)].
  - replace (1 ^ 2) with 1 in * by ring. rewrite Rmult_1_l in S. rewrite <- S. ring.
  - assert (H1 : h' = 1) by (rewrite E in S; apply Rmult_eq_reg_l with h; lra). rewrite H1. destruct (Rlt_dec 1 h) as [L|L]; [|contradiction]. destruct (Rlt_dec 1 1); [lra|]. lra.
Qed.
Lemma rotated_spec : forall s x y, rx s <> 0 -> ry s <> 0 -> exists g, (g = 1 \/ 1 < strain s x y /\ g ^ 2 = strain s x y) /\
  rotated_ellipse s x y = (rx s * g, ry s * g, cos (angle s), sin (angle s)).
Proof.
  intros s x y A B. unfold rotated_ellipse. cbv zeta. fold (radians (deg s)). change (radians (deg s)) with (angle s).
  set (h := _ + _). assert (H : h = strain s x y).
  { unfold h, strain, along, across. field. split; assumption. }
  rewrite H. unfold less. destruct (Rlt_dec 0 (rx s)), (Rlt_dec 0 (ry s)), (Rlt_dec 1 (strain s x y)) as [L|L]; cbn [andb];
    try (exists 1; split; [left; reflexivity|rewrite !Rmult_1_r; reflexivity]).
  exists (sqrt (strain s x y)). split; [|reflexivity]. right. split; [exact L|]. rewrite <- Rsqr_pow2. apply Rsqr_sqrt. lra.
Qed.
Theorem shape_image : forall m s s' cx cy, det m <> 0 -> rx s <> 0 -> ry s <> 0 -> transform_shape m cx cy s = Some s' ->
  forall x y, on_ellipse s cx cy x y <-> on_ellipse s' (move_x m cx cy) (move_y m cx cy) (move_x m x y) (move_y m x y).
Proof.
  intros m s s' cx cy D A B E. unfold transform_shape in E. destruct (rotated_spec s cx cy A B) as (g & G & RE). rewrite RE in E.
  match type of E with option_map _ (axes ?n) = _ => destruct (axes n) as [t|] eqn:AX; [|discriminate] end. injection E as <-.
  destruct (axes_form _ _ AX) as (Q1 & Q2 & Q3). destruct (upright_form t) as (U1 & U2 & U3). destruct (image_form m s (upright t) g) as (F & R).
  - rewrite U1, Q1. unfold na, qa, qb, qd, multiply. cbn [l0 l1 l2 l3]. ring.
  - rewrite U2, Q2. unfold nb, qa, qb, qd, multiply. cbn [l0 l1 l2 l3]. ring.
  - rewrite U3, Q3. unfold nd, qa, qb, qd, multiply. cbn [l0 l1 l2 l3]. ring.
  - exact (image_ellipse m s (upright t) g cx cy D A B G F R).
Qed.
(** Any matrix that is not a rotation and a scale has axes. *)
Lemma axes_exist : forall n, root n <> 0 -> exists s, qa s = na n /\ qb s = nb n /\ qd s = nd n /\ rx s ^ 2 - ry s ^ 2 = root n.
Proof.
  intros n R. pose proof (root_square n) as RS. pose proof (root_nonneg n) as RN. pose proof (root_le n) as RL. set (w := (total n + root n) / 2).
  assert (T : total n = na n + nd n) by (unfold total, na, nd; ring).
  assert (DD : det n ^ 2 = na n * nd n - nb n ^ 2) by (unfold det, na, nb, nd; ring).
  assert (W : (w - na n) * (w - nd n) = nb n ^ 2) by (unfold w; nra).
  assert (V : exists t1 t2, (t1 <> 0 \/ t2 <> 0) /\ na n * t1 + nb n * t2 = w * t1 /\ nb n * t1 + nd n * t2 = w * t2).
  { destruct (Req_EM_T (nb n) 0) as [Z|Z].
    - destruct (Req_EM_T (w - na n) 0) as [Z'|Z'].
      + exists 1, 0. split; [left; lra|]. rewrite Z. lra.
      + exists 0, 1. split; [right; lra|]. rewrite Z in *. assert (w - nd n = 0) by (apply Rmult_eq_reg_l with (w - na n); [nra|exact Z']). lra.
    - exists (nb n), (w - na n). split; [left; exact Z|]. nra. }
  destruct V as (t1 & t2 & NZ & K1 & K2).
  assert (H : 0 < hypot t1 t2).
  { apply hypot_pos. intros H. apply hypot_zero in H. destruct NZ as [X|X]; apply X; apply H. }
  pose proof (hypot_square t1 t2) as HS. destruct (spectral n w t1 t2 _ H HS K1 K2) as (S1 & S2 & S3).
  assert (SM : sqrt w ^ 2 = w) by (rewrite <- Rsqr_pow2; apply Rsqr_sqrt; unfold w; lra).
  assert (SN : sqrt (total n - w) ^ 2 = total n - w) by (rewrite <- Rsqr_pow2; apply Rsqr_sqrt; unfold w; lra).
  set (g := if Rlt_dec t2 0 then -1 else 1).
  destruct (acos_angle t1 t2 (hypot t1 t2) g H HS) as (C & D); [unfold g; destruct (Rlt_dec t2 0); lra|].
  exists (Shape (sqrt w) (sqrt (total n - w)) (g * acos (t1 / hypot t1 t2) * 180 / PI)). unfold qa, qb, qd, angle. cbn [rx ry deg].
  rewrite SM, SN, angle_back, C, D. split; [exact S1|]. split; [exact S2|]. split; [exact S3|]. unfold w. field.
Qed.
Theorem shape_some : forall m s cx cy, det m <> 0 -> rx s <> 0 -> ry s <> 0 -> transform_shape m cx cy s = None ->
  exists s', 0 < rx s' ^ 2 - ry s' ^ 2 <= 1 / 1000000 /\
    forall x y, on_ellipse s cx cy x y <-> on_ellipse s' (move_x m cx cy) (move_y m cx cy) (move_x m x y) (move_y m x y).
Proof.
  intros m s cx cy D A B E. unfold transform_shape in E. destruct (rotated_spec s cx cy A B) as (g & G & RE). rewrite RE in E.
  match type of E with option_map _ (axes ?q) = _ => set (n := q) in * end.
  assert (DN : det n <> 0).
  { assert (X : det n = det m * (rx s * ry s) * g ^ 2 * (cos (angle s) ^ 2 + sin (angle s) ^ 2)) by (unfold n, multiply, det; cbn [l0 l1 l2 l3]; ring).
    rewrite cs1 in X. rewrite X. assert (g ^ 2 <> 0) by (destruct G as [->|(G & ->)]; lra). exact (Rmult_integral_contrapositive_currified _ _ (Rmult_integral_contrapositive_currified _ _ (Rmult_integral_contrapositive_currified _ _ D (Rmult_integral_contrapositive_currified _ _ A B)) H) R1_neq_R0). }
  assert (N : axes n = None) by (destruct (axes n); [discriminate|reflexivity]). pose proof (root_nonneg n) as RN.
  destruct (Req_EM_T (root n) 0) as [Z|Z]; [exfalso; apply (axes_some n DN); [left; exact Z|exact N]|].
  destruct (Rlt_dec (1 / 1000000) (root n)) as [L|L]; [exfalso; apply (axes_some n DN); [right; exact L|exact N]|].
  destruct (axes_exist n Z) as (t & Q1 & Q2 & Q3 & Q4). exists t. split; [lra|]. destruct (image_form m s t g) as (F & R).
  - rewrite Q1. unfold n, na, qa, qb, qd, multiply. cbn [l0 l1 l2 l3]. ring.
  - rewrite Q2. unfold n, nb, qa, qb, qd, multiply. cbn [l0 l1 l2 l3]. ring.
  - rewrite Q3. unfold n, nd, qa, qb, qd, multiply. cbn [l0 l1 l2 l3]. ring.
  - exact (image_ellipse m s t g cx cy D A B G F R).
Qed.
(** The radii of the result are 0 only if one was. *)
Theorem shape_radii : forall m s s' cx cy, det m <> 0 -> rx s <> 0 -> ry s <> 0 -> transform_shape m cx cy s = Some s' -> 0 < rx s' /\ 0 < ry s' /\ Rabs (deg s') <= 90.
Proof.
  intros m s s' cx cy D A B E. unfold transform_shape in E. destruct (rotated_spec s cx cy A B) as (g & G & RE). rewrite RE in E.
  match type of E with option_map _ (axes ?q) = _ => set (n := q) in * end.
  assert (DN : det n <> 0).
  { assert (X : det n = det m * (rx s * ry s) * g ^ 2 * (cos (angle s) ^ 2 + sin (angle s) ^ 2)) by (unfold n, multiply, det; cbn [l0 l1 l2 l3]; ring).
    rewrite cs1 in X. rewrite X. assert (g ^ 2 <> 0) by (destruct G as [->|(G & ->)]; lra). exact (Rmult_integral_contrapositive_currified _ _ (Rmult_integral_contrapositive_currified _ _ (Rmult_integral_contrapositive_currified _ _ D (Rmult_integral_contrapositive_currified _ _ A B)) H) R1_neq_R0). }
  pose proof (root_lt n DN). pose proof (root_nonneg n). pose proof PI_RGT_0.
  assert (X : forall t, axes n = Some t -> 0 < rx t /\ 0 < ry t /\ Rabs (deg t) <= 180).
  { intros t. unfold axes. cbv zeta. fold (root n). fold (total n). destruct (Req_EM_T (root n) 0) as [Z|Z].
    - intros X. injection X as <-. cbn [rx ry deg]. rewrite Rabs_R0. repeat split; try (apply sqrt_lt_R0); lra.
    - match goal with |- context [Req_EM_T (hypot ?a ?b) 0] => set (t1 := a); set (t2 := b) end. destruct (Req_EM_T (hypot t1 t2) 0) as [Y|Y]; [discriminate|].
      intros X. injection X as <-. cbn [rx ry deg]. split; [apply sqrt_lt_R0; lra|]. split; [apply sqrt_lt_R0; lra|].
      match goal with |- Rabs (?g * acos ?q * 180 / PI) <= _ => pose proof (acos_bound q) as AB; assert (GS : Rabs g = 1) by (match goal with |- Rabs (if ?b then _ else _) = _ => destruct b end; [rewrite Rabs_left by lra; lra|apply Rabs_R1]); set (gg := g) in *; set (ac := acos q) in * end.
      replace (gg * ac * 180 / PI) with (gg * (ac * 180 / PI)) by (field; lra). rewrite Rabs_mult, GS, Rmult_1_l.
      assert (0 <= ac * 180 / PI <= 180).
      { split; [apply Rmult_le_pos; [lra|left; apply Rinv_0_lt_compat; lra]|]. apply Rmult_le_reg_r with PI; [lra|]. field_simplify; lra. }
      rewrite Rabs_right by lra. lra. }
  destruct (axes n) as [t|]; [|discriminate]. injection E as <-. destruct (X t eq_refl) as (X1 & X2 & X3). unfold upright, less.
  destruct (Rlt_dec 80 (Rabs (deg t))) as [L|L]; [|lra]. cbn [rx ry deg]. split; [exact X2|]. split; [exact X1|].
  destruct (Rlt_dec 0 (deg t)) as [P|P].
  - rewrite (Rabs_right (deg t)) in * by lra. apply Rabs_le. lra.
  - rewrite (Rabs_left1 (deg t)) in * by lra. apply Rabs_le. lra.
Qed.
