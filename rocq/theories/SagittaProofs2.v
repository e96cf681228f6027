From Coq Require Import Reals ZArith Bool Lra Lia.
From Verif Require Import EllipseModel ArcModel ArcSpec ArcProofs SagittaModel SagittaSpec SagittaProofs.
Open Scope R_scope.

Lemma abs_le x b : Rabs x <= b -> - b <= x <= b.
Proof. unfold Rabs. destruct (Rcase_abs x); lra. Qed.
Lemma over p x y : 0 < p -> x / p = y / p -> x = y.
Proof. intros P E. apply (Rmult_eq_reg_r (/ p)); [exact E|]. assert (I := Rinv_0_lt_compat p P). lra. Qed.
Lemma min_moves p a : 0 < p -> 0 < px (radii a) -> 0 < py (radii a) -> px (min_by p a) <> 0 \/ py (min_by p a) <> 0.
Proof.
  intros P0 A B. destruct (step_of p a P0) as [X Y]. rewrite X, Y. assert (U := tangent_unit a A B). set (t := start_tangent_unit a) in *.
  destruct (Z.eq_dec (round (px t)) 0) as [E|E].
  - destruct (Z.eq_dec (round (py t)) 0) as [F|F].
    + apply round_zero, abs_le in E. apply round_zero, abs_le in F. exfalso. nra.
    + right. intros H. apply F, eq_IZR. apply (over p); [exact P0|]. rewrite H. field. lra.
  - left. intros H. apply E, eq_IZR. apply (over p); [exact P0|]. rewrite H. field. lra.
Qed.
Lemma min_small p a : 0 < p -> 0 < px (radii a) -> 0 < py (radii a) -> Rabs (px (min_by p a)) <= 1 / p /\ Rabs (py (min_by p a)) <= 1 / p.
Proof.
  intros P0 A B. destruct (step_of p a P0) as [X Y]. rewrite X, Y. assert (U := tangent_unit a A B). set (t := start_tangent_unit a) in *. assert (I := Rinv_0_lt_compat p P0).
  unfold Rdiv. rewrite !Rabs_mult, (Rabs_pos_eq (/ p)) by lra. split; apply Rmult_le_compat_r; try lra; apply round_unit; unfold Rabs; destruct (Rcase_abs _); nra.
Qed.
Lemma min_whole p a : whole_units p (px (min_by p a)) /\ whole_units p (py (min_by p a)).
Proof. split; apply round_whole. Qed.
Lemma round_0 p x : 0 < p -> round_to p x = 0 -> Rabs x <= 1 / 2 / p.
Proof. intros P0 E. assert (C := round_close p x P0). rewrite E in C. replace (0 - x) with (- x) in C by lra. rewrite Rabs_Ropp in C. exact C. Qed.

Lemma relative p a from : 0 < p -> 0 < px (radii a) -> 0 < py (radii a) ->
  let e := end_by p a from in let x := px (end_point a) - px from in let y := py (end_point a) - py from in
  (px e <> 0 \/ py e <> 0) /\ whole_units p (px e) /\ whole_units p (py e) /\ within (3 / 2) p (px e) x /\ within (3 / 2) p (py e) y /\
  (1 / 2 / p < Rabs x \/ 1 / 2 / p < Rabs y -> within (1 / 2) p (px e) x /\ within (1 / 2) p (py e) y).
Proof.
  intros P0 A B. cbv zeta. unfold end_by. set (x := px (end_point a) - px from). set (y := py (end_point a) - py from).
  assert (I := Rinv_0_lt_compat p P0). assert (CX := round_close p x P0). assert (CY := round_close p y P0). assert (LE : 1 / 2 / p <= 3 / 2 / p) by (unfold Rdiv; nra).
  destruct (same (round_to p x) 0 && same (round_to p y) 0)%bool eqn:E.
  - apply andb_prop in E. destruct E as [EX EY]. apply same_true in EX. apply same_true in EY. apply (round_0 p x P0) in EX. apply (round_0 p y P0) in EY.
    destruct (min_whole p a) as [W1 W2]. destruct (min_small p a P0 A B) as [S1 S2]. split; [apply min_moves; assumption|]. split; [exact W1|]. split; [exact W2|].
    assert (G : forall u v, Rabs u <= 1 / p -> Rabs v <= 1 / 2 / p -> within (3 / 2) p u v).
    { intros u v HU HV. unfold within. assert (T := Rabs_triang u (- v)). rewrite Rabs_Ropp in T. replace (3 / 2 / p) with (1 / p + 1 / 2 / p) by (field; lra). unfold Rminus. lra. }
    split; [apply G; assumption|]. split; [apply G; assumption|]. intros [H|H]; lra.
  - cbn [px py]. split.
    + apply andb_false_iff in E. destruct E as [E|E]; apply same_false in E; auto.
    + split; [apply round_whole|]. split; [apply round_whole|]. unfold within. split; [lra|]. split; [lra|]. intros _. split; assumption.
Qed.

Lemma round_int z : round (IZR z) = z.
Proof.
  assert (N := abs_le _ _ (round_near (IZR z))). assert (L : (- 1 < z - round (IZR z) < 1)%Z) by (split; apply lt_IZR; rewrite minus_IZR; lra). lia.
Qed.
Lemma round_kept p x : 0 < p -> whole_units p x -> round_to p x = x.
Proof. intros P0 (z & ->). unfold round_to. replace (IZR z / p * p) with (IZR z) by (field; lra). rewrite round_int. reflexivity. Qed.
Lemma whole_plus p x y : 0 < p -> whole_units p x -> whole_units p y -> whole_units p (x + y).
Proof. intros P0 (z & ->) (w & ->). exists (z + w)%Z. rewrite plus_IZR. field. lra. Qed.

Lemma absolute p a from : 0 < p -> 0 < px (radii a) -> 0 < py (radii a) -> whole_units p (px from) -> whole_units p (py from) ->
  let e := end_to p a from in let x := px (end_point a) in let y := py (end_point a) in
  (px e <> px from \/ py e <> py from) /\ whole_units p (px e) /\ whole_units p (py e) /\ within (3 / 2) p (px e) x /\ within (3 / 2) p (py e) y /\
  (1 / 2 / p < Rabs (x - px from) \/ 1 / 2 / p < Rabs (y - py from) -> within (1 / 2) p (px e) x /\ within (1 / 2) p (py e) y).
Proof.
  intros P0 A B FX FY. cbv zeta. unfold end_to. rewrite (round_kept p _ P0 FX), (round_kept p _ P0 FY). set (x := px (end_point a)). set (y := py (end_point a)).
  assert (I := Rinv_0_lt_compat p P0). assert (CX := round_close p x P0). assert (CY := round_close p y P0). assert (LE : 1 / 2 / p <= 3 / 2 / p) by (unfold Rdiv; nra).
  destruct (same (round_to p x) (px from) && same (round_to p y) (py from))%bool eqn:E.
  - apply andb_prop in E. destruct E as [EX EY]. apply same_true in EX. apply same_true in EY. rewrite EX in CX. rewrite EY in CY.
    destruct (min_whole p a) as [W1 W2]. destruct (min_small p a P0 A B) as [S1 S2]. cbn [px py]. split; [destruct (min_moves p a P0 A B); [left|right]; lra|].
    split; [apply whole_plus; assumption|]. split; [apply whole_plus; assumption|].
    assert (G : forall f u v, Rabs u <= 1 / p -> Rabs (f - v) <= 1 / 2 / p -> within (3 / 2) p (f + u) v).
    { intros f u v HU HV. unfold within. assert (T := Rabs_triang u (f - v)). replace (3 / 2 / p) with (1 / p + 1 / 2 / p) by (field; lra). replace (f + u - v) with (u + (f - v)) by lra. lra. }
    split; [apply G; assumption|]. split; [apply G; assumption|]. rewrite (Rabs_minus_sym x), (Rabs_minus_sym y). intros [H|H]; lra.
  - cbn [px py]. split.
    + apply andb_false_iff in E. destruct E as [E|E]; apply same_false in E; auto.
    + split; [apply round_whole|]. split; [apply round_whole|]. unfold within. split; [lra|]. split; [lra|]. intros _. split; assumption.
Qed.

Definition turn (s : R) : R := let e := rem_euclid s (2 * PI) in if less PI e then e - 2 * PI else e.
Lemma rem_small s : 0 <= s < 2 * PI -> rem_euclid s (2 * PI) = s.
Proof.
  intros H. assert (G := PI_RGT_0). unfold rem_euclid. rewrite (int_between _ 0); [lra|]. assert (E : s / (2 * PI) * (2 * PI) = s) by (field; lra). split; [apply Rmult_le_reg_r with (2 * PI); lra|apply Rmult_lt_reg_r with (2 * PI); lra].
Qed.
Lemma rem_neg s : - (2 * PI) < s < 0 -> rem_euclid s (2 * PI) = s + 2 * PI.
Proof.
  intros H. assert (G := PI_RGT_0). unfold rem_euclid. rewrite (int_between _ (-1)); [lra|]. assert (E : s / (2 * PI) * (2 * PI) = s) by (field; lra). split; [apply Rmult_le_reg_r with (2 * PI); lra|apply Rmult_lt_reg_r with (2 * PI); lra].
Qed.
Lemma turn_sign s : 0 < Rabs s < 2 * PI -> Rabs s <> PI -> if less (turn s) 0 then sin s < 0 else 0 < sin s.
Proof.
  intros [L U] N. assert (G := PI_RGT_0). unfold turn. cbv zeta. destruct (Rle_lt_dec 0 s) as [H|H].
  - rewrite Rabs_pos_eq in L, U, N by exact H. rewrite rem_small by lra. destruct (less PI s) eqn:E; [apply less_true in E; rewrite (proj2 (less_true _ _)) by lra; apply sin_lt_0; lra|apply less_false in E; rewrite (proj2 (less_false _ _)) by lra; apply sin_gt_0; lra].
  - rewrite Rabs_left in L, U, N by exact H. rewrite rem_neg by lra. assert (P2 : sin (s + 2 * PI) = sin s) by (rewrite sin_plus, sin_2PI, cos_2PI; ring). destruct (less PI (s + 2 * PI)) eqn:E; [apply less_true in E|apply less_false in E].
    + rewrite (proj2 (less_true _ _)) by lra. rewrite <- P2. apply sin_lt_0; lra.
    + rewrite (proj2 (less_false _ _)) by lra. rewrite <- P2. apply sin_gt_0; lra.
Qed.
Lemma tangent_form a : 0 < px (radii a) -> 0 < py (radii a) -> exists l, 0 < l /\
  let k := if less (turn (sweep_angle a)) 0 then - / l else / l in
  let tx := k * (- px (radii a) * sin (start_angle a)) in let ty := k * (py (radii a) * cos (start_angle a)) in
  start_tangent_unit a = P (tx * cos (x_rotation a) - ty * sin (x_rotation a)) (tx * sin (x_rotation a) + ty * cos (x_rotation a)).
Proof.
  intros A B. assert (U := tangent_unit a A B). unfold start_tangent_unit in *. cbv zeta in *. fold (turn (sweep_angle a)) in *. set (len := sqrt _) in *. destruct (same len 0) eqn:E; [cbn [px py] in U; lra|].
  apply same_false in E. assert (L : 0 <= len) by apply sqrt_pos. exists len. split; [lra|]. destruct (less (turn (sweep_angle a)) 0); f_equal; field; lra.
Qed.
Lemma towards a p q : 0 < px (radii a) -> 0 < py (radii a) -> 0 < Rabs (sweep_angle a) < 2 * PI -> Rabs (sweep_angle a) <> PI ->
  on (center a) (radii a) (x_rotation a) (start_angle a) p -> on (center a) (radii a) (x_rotation a) (start_angle a + sweep_angle a) q -> leads a (start_tangent_unit a) p q.
Proof.
  intros A B S N [P1 P2] [Q1 Q2]. destruct (tangent_form a A B) as (l & L & E). cbv zeta in E. set (k := if less _ 0 then _ else _) in E. assert (T := turn_sign _ S N).
  assert (K : 0 < k * sin (sweep_angle a)). { assert (I := Rinv_0_lt_compat l L). unfold k. destruct (less (turn (sweep_angle a)) 0); nra. }
  unfold leads. cbv zeta. rewrite E. cbn [px py]. rewrite P1, P2, Q1, Q2. rewrite cos_plus, sin_plus.
  assert (SC := sin2_cos2 (x_rotation a)). assert (SA := sin2_cos2 (start_angle a)). unfold Rsqr in SC, SA.
  set (c := cos (x_rotation a)) in *. set (s := sin (x_rotation a)) in *. set (ca := cos (start_angle a)) in *. set (sa := sin (start_angle a)) in *. set (cs := cos (sweep_angle a)) in *. set (ss := sin (sweep_angle a)) in *.
  set (rx := px (radii a)) in *. set (ry := py (radii a)) in *.
  match goal with |- 0 < ?G => replace G with (k * ss * ((sa * sa + ca * ca) * ((s * s + c * c) * (s * s + c * c)))) by (field; split; lra) end.
  rewrite SC, SA. lra.
Qed.
Lemma direction prec a from p q : 0 < prec -> 0 < px (radii a) -> 0 < py (radii a) -> 0 < Rabs (sweep_angle a) < 2 * PI -> Rabs (sweep_angle a) <> PI ->
  on (center a) (radii a) (x_rotation a) (start_angle a) p -> on (center a) (radii a) (x_rotation a) (start_angle a + sweep_angle a) q ->
  Rabs (px (end_point a) - px from) < 1 / 2 / prec -> Rabs (py (end_point a) - py from) < 1 / 2 / prec ->
  exists d, px d * px d + py d * py d = 1 /\ leads a d p q /\ within (1 / 2) prec (px (end_by prec a from)) (px d / prec) /\ within (1 / 2) prec (py (end_by prec a from)) (py d / prec).
Proof.
  intros P0 A B S N HP HQ X Y. exists (start_tangent_unit a). split; [apply tangent_unit; assumption|]. split; [apply towards; assumption|].
  assert (Z : forall x, Rabs x < 1 / 2 / prec -> round_to prec x = 0).
  { intros x H. unfold round_to. assert (R0 : round (x * prec) = 0%Z); [|rewrite R0; field; lra].
    assert (Q : Rabs (x * prec) < 1 / 2) by (rewrite Rabs_mult, (Rabs_pos_eq prec) by lra; apply Rmult_lt_reg_r with (/ prec); [apply Rinv_0_lt_compat; exact P0|]; replace (Rabs x * prec * / prec) with (Rabs x) by (field; lra); exact H).
    assert (C := abs_le _ _ (round_near (x * prec))). apply Rabs_def2 in Q. assert (W : (- 1 < round (x * prec) < 1)%Z) by (split; apply lt_IZR; lra). lia. }
  unfold end_by. rewrite (Z _ X), (Z _ Y). rewrite (proj2 (same_true 0 0)) by reflexivity. cbn [andb]. unfold min_by. cbn [px py]. split; apply round_close; exact P0.
Qed.
