From Coq Require Import Reals ZArith Bool Lra Lia Psatz.
From Verif Require Import EllipseModel ArcModel ArcSpec.
Open Scope R_scope.

Lemma less_true : forall x y, less x y = true <-> x < y.
Proof. intros x y. unfold less. destruct (Rlt_dec x y); split; intros; try lra; try discriminate; auto. Qed.
Lemma less_false : forall x y, less x y = false <-> y <= x.
Proof. intros x y. unfold less. destruct (Rlt_dec x y); split; intros; try lra; try discriminate; auto. Qed.
Lemma same_true : forall x y, same x y = true <-> x = y.
Proof. intros x y. unfold same. destruct (Req_EM_T x y); split; intros; try lra; try discriminate; auto; try contradiction. Qed.
Lemma same_false : forall x y, same x y = false <-> x <> y.
Proof. intros x y. unfold same. destruct (Req_EM_T x y); split; intros; try discriminate; auto; try contradiction. Qed.

(** ** Whole turns *)
Lemma turn_cos : forall x k, cos (x + IZR k * (2 * PI)) = cos x.
Proof.
  assert (N : forall x n, cos (x + INR n * (2 * PI)) = cos x) by (intros x n; rewrite <- (cos_period x n); f_equal; ring).
  intros x k. destruct (Z_le_gt_dec 0 k) as [H|H].
  - rewrite <- (Z2Nat.id k H), <- INR_IZR_INZ. apply N.
  - rewrite <- (N (x + IZR k * (2 * PI)) (Z.to_nat (- k))). rewrite INR_IZR_INZ, Z2Nat.id by lia. rewrite opp_IZR. f_equal. ring.
Qed.
Lemma turn_sin : forall x k, sin (x + IZR k * (2 * PI)) = sin x.
Proof.
  assert (N : forall x n, sin (x + INR n * (2 * PI)) = sin x) by (intros x n; rewrite <- (sin_period x n); f_equal; ring).
  intros x k. destruct (Z_le_gt_dec 0 k) as [H|H].
  - rewrite <- (Z2Nat.id k H), <- INR_IZR_INZ. apply N.
  - rewrite <- (N (x + IZR k * (2 * PI)) (Z.to_nat (- k))). rewrite INR_IZR_INZ, Z2Nat.id by lia. rewrite opp_IZR. f_equal. ring.
Qed.
Lemma fmod_cos : forall x, cos (fmod x (2 * PI)) = cos x.
Proof. intros x. unfold fmod. rewrite <- (turn_cos _ (trunc (x / (2 * PI)))). f_equal. ring. Qed.
Lemma fmod_sin : forall x, sin (fmod x (2 * PI)) = sin x.
Proof. intros x. unfold fmod. rewrite <- (turn_sin _ (trunc (x / (2 * PI)))). f_equal. ring. Qed.
Lemma int_small : forall x, 0 <= x < 1 -> Int_part x = 0%Z.
Proof. intros x [A B]. destruct (base_Int_part x) as [C D]. assert (-1 < Int_part x)%Z by (apply lt_IZR; lra). assert (Int_part x < 1)%Z by (apply lt_IZR; lra). lia. Qed.
Lemma fmod_small : forall x, - (2 * PI) < x < 2 * PI -> fmod x (2 * PI) = x.
Proof.
  intros x [A B]. pose proof PI_RGT_0 as P. unfold fmod, trunc.
  assert (L : - 1 < x / (2 * PI) < 1).
  { split; apply (Rmult_lt_reg_r (2 * PI)); try lra; unfold Rdiv; rewrite Rmult_assoc, Rinv_l by lra; lra. }
  destruct (less (x / (2 * PI)) 0) eqn:E.
  - apply less_true in E. rewrite int_small by lra. cbn. lra.
  - apply less_false in E. rewrite int_small by lra. lra.
Qed.
Lemma same_turn : forall a b, cos a = cos b -> sin a = sin b -> exists k, a = b + IZR k * (2 * PI).
Proof.
  intros a b C S. assert (O : cos (a - b) = 1) by (rewrite cos_minus, C, S; pose proof (sin2_cos2 b) as Q; unfold Rsqr in Q; lra).
  assert (Z : sin ((a - b) / 2) = 0).
  { replace (a - b) with (2 * ((a - b) / 2)) in O by field. rewrite cos_2a_sin in O. assert (Q : sin ((a - b) / 2) * sin ((a - b) / 2) = 0) by lra. apply Rmult_integral in Q. tauto. }
  apply sin_eq_0_0 in Z. destruct Z as (k & Z). exists k. lra.
Qed.
Lemma round_near : forall x, Rabs (x - IZR (round x)) <= 1 / 2.
Proof.
  intros x. unfold round. destruct (less x 0).
  - rewrite opp_IZR. destruct (base_Int_part (- x + 1 / 2)) as [A B]. apply Rabs_le. lra.
  - destruct (base_Int_part (x + 1 / 2)) as [A B]. apply Rabs_le. lra.
Qed.

(** ** The angle of a point *)
Lemma sqrt_scale : forall x y, x <> 0 -> Rabs x * sqrt (1 + (y / x)²) = sqrt (x * x + y * y).
Proof.
  intros x y H. symmetry. apply sqrt_lem_1; [nra| |].
  - apply Rmult_le_pos; [apply Rabs_pos|apply sqrt_pos].
  - replace (Rabs x * sqrt (1 + (y / x)²) * (Rabs x * sqrt (1 + (y / x)²))) with ((Rabs x * Rabs x) * (sqrt (1 + (y / x)²) * sqrt (1 + (y / x)²))) by ring.
    assert (A : Rabs x * Rabs x = x * x) by (unfold Rabs; destruct (Rcase_abs x); ring).
    rewrite sqrt_sqrt by (pose proof (Rle_0_sqr (y / x)); lra). rewrite A. unfold Rsqr. field. exact H.
Qed.
Lemma polar : forall x y, x * x + y * y = 1 -> cos (atan2 y x) = x /\ sin (atan2 y x) = y /\ - PI < atan2 y x <= PI.
Proof.
  intros x y U. pose proof PI_RGT_0 as PP. unfold atan2.
  assert (K : x <> 0 -> cos (atan (y / x)) = Rabs x /\ sin (atan (y / x)) = Rabs x * (y / x)).
  { intros H. pose proof (sqrt_scale x y H) as Q. rewrite U, sqrt_1 in Q. rewrite cos_atan, sin_atan. assert (S : sqrt (1 + (y / x)²) <> 0) by (intros Z; rewrite Z in Q; lra).
    assert (E : 1 / sqrt (1 + (y / x)²) = Rabs x) by (transitivity (Rabs x * sqrt (1 + (y / x)²) / sqrt (1 + (y / x)²)); [rewrite Q; reflexivity|field; exact S]). split; [exact E|]. rewrite <- E. field. split; assumption. }
  destruct (less 0 x) eqn:A.
  - apply less_true in A. destruct K as [C S]; [lra|]. rewrite C, S, Rabs_right by lra. pose proof (atan_bound (y / x)). split; [reflexivity|]. split; [field; lra|lra].
  - apply less_false in A. destruct (less x 0) eqn:B.
    + apply less_true in B. destruct K as [C S]; [lra|]. rewrite Rabs_left in C, S by lra. pose proof (atan_bound (y / x)) as AB. destruct (less y 0) eqn:Y.
      * apply less_true in Y. rewrite cos_minus, sin_minus, cos_PI, sin_PI, C, S. split; [ring|]. split; [field; lra|].
        assert (0 < y / x) by (unfold Rdiv; pose proof (Rinv_lt_0_compat x B); nra). assert (0 < atan (y / x)) by (rewrite <- atan_0; apply atan_increasing; assumption). lra.
      * apply less_false in Y. rewrite cos_plus, sin_plus, cos_PI, sin_PI, C, S. split; [ring|]. split; [field; lra|].
        assert (N : y / x <= 0) by (unfold Rdiv; pose proof (Rinv_lt_0_compat x B); nra).
        assert (atan (y / x) <= 0). { destruct N as [N|N]; [|rewrite N, atan_0; lra]. left. rewrite <- atan_0. apply atan_increasing. exact N. } lra.
    + apply less_false in B. assert (X : x = 0) by lra. subst x. destruct (less 0 y) eqn:Y.
      * apply less_true in Y. assert (y = 1) by nra. subst y. rewrite cos_PI2, sin_PI2. split; [reflexivity|]. split; [reflexivity|lra].
      * apply less_false in Y. destruct (less y 0) eqn:W.
        -- apply less_true in W. assert (y = -1) by nra. subst y. rewrite cos_neg, sin_neg, cos_PI2, sin_PI2. split; [reflexivity|]. split; [reflexivity|lra].
        -- apply less_false in W. assert (y = 0) by lra. subst y. lra.
Qed.

(** ** The points of an ellipse *)
Lemma on_at : forall c r phi t p, on c r phi t p <-> p = ellipse_at c r phi t.
Proof.
  intros [cx cy] [rx ry] phi t [x y]. unfold on, ellipse_at, rotate_radian. cbn [px py]. split.
  - intros [A B]. f_equal; [rewrite A|rewrite B]; ring.
  - intros H. injection H as -> ->. split; ring.
Qed.
Lemma turned : forall c r phi t u, cos t = cos u -> sin t = sin u -> ellipse_at c r phi t = ellipse_at c r phi u.
Proof. intros c r phi t u C S. unfold ellipse_at, rotate_radian. cbn [px py]. now rewrite C, S. Qed.

(** ** From the command *)
Section From.
Variables rx ry phi hx hy : R.
Hypothesis RX : 0 < rx.
Hypothesis RY : 0 < ry.
Let p_x := cos phi * hx + sin phi * hy.
Let p_y := - sin phi * hx + cos phi * hy.
Let w := p_x * p_x / (rx * rx) + p_y * p_y / (ry * ry).
Lemma back : cos phi * p_x - sin phi * p_y = hx /\ sin phi * p_x + cos phi * p_y = hy.
Proof.
  unfold p_x, p_y. pose proof (sin2_cos2 phi) as Q. unfold Rsqr in Q. split.
  - transitivity ((sin phi * sin phi + cos phi * cos phi) * hx); [ring|rewrite Q; ring].
  - transitivity ((sin phi * sin phi + cos phi * cos phi) * hy); [ring|rewrite Q; ring].
Qed.
Lemma w_pos : hx <> 0 \/ hy <> 0 -> 0 < w.
Proof.
  intros H. destruct back as [A B]. assert (Z : p_x <> 0 \/ p_y <> 0).
  { destruct (Req_dec p_x 0) as [X|X]; [|auto]. destruct (Req_dec p_y 0) as [Y|Y]; [|auto]. exfalso. rewrite X, Y in A, B. lra. }
  assert (I : forall a b, 0 < b -> 0 <= a * a / (b * b)). { intros a b L. apply Rle_mult_inv_pos; nra. }
  assert (J : forall a b, 0 < b -> a <> 0 -> 0 < a * a / (b * b)). { intros a b L NZ. apply Rdiv_lt_0_compat; nra. }
  unfold w. destruct Z as [Z|Z].
  - pose proof (J _ _ RX Z). pose proof (I p_y _ RY). lra.
  - pose proof (J _ _ RY Z). pose proof (I p_x _ RX). lra.
Qed.
End From.

(** The core: points in the units of the radii. *)
Section Core.
Variables u v coe : R.
Hypothesis W : 0 < u * u + v * v.
Hypothesis COE : (u * u + v * v) * (1 + coe * coe) = 1.
Let a := atan2 (v + coe * u) (u - coe * v).
Let b := atan2 (- v + coe * u) (- u - coe * v).
Lemma start_polar : cos a = u - coe * v /\ sin a = v + coe * u /\ - PI < a <= PI.
Proof. apply polar. rewrite <- COE. ring. Qed.
Lemma end_polar : cos b = - u - coe * v /\ sin b = - v + coe * u /\ - PI < b <= PI.
Proof. apply polar. rewrite <- COE. ring. Qed.
Lemma swept_sin : sin (b - a) = 2 * coe * (u * u + v * v).
Proof. destruct start_polar as (A & B & _), end_polar as (C & D & _). rewrite sin_minus, A, B, C, D. ring. Qed.
Lemma swept_cos : cos (b - a) = (coe * coe - 1) * (u * u + v * v).
Proof. destruct start_polar as (A & B & _), end_polar as (C & D & _). rewrite cos_minus, A, B, C, D. ring. Qed.
Lemma not_full : cos (b - a) <> 1.
Proof. rewrite swept_cos. nra. Qed.
(** The sweep, made positive or negative. *)
Variable positive : bool.
Let swept := fmod (b - a) (2 * PI).
Definition turned_by : R := if (positive && less swept 0)%bool then swept + 2 * PI else if (negb positive && less 0 swept)%bool then swept - 2 * PI else swept.
Lemma swept_is : swept = b - a.
Proof. destruct start_polar as (_ & _ & A), end_polar as (_ & _ & B). pose proof PI_RGT_0. apply fmod_small. lra. Qed.
Lemma turned_range : (if positive then 0 < turned_by < 2 * PI else - (2 * PI) < turned_by < 0) /\ cos turned_by = cos (b - a) /\ sin turned_by = sin (b - a).
Proof.
  destruct start_polar as (_ & _ & A), end_polar as (_ & _ & B). pose proof PI_RGT_0 as PP. pose proof not_full as NF.
  assert (NZ : b - a <> 0) by (intros Z; rewrite Z, cos_0 in NF; lra).
  unfold turned_by. rewrite swept_is.
  pose proof (turn_cos (b - a) 1) as C1. pose proof (turn_sin (b - a) 1) as S1. pose proof (turn_cos (b - a) (-1)) as C2. pose proof (turn_sin (b - a) (-1)) as S2.
  replace (b - a + 1 * (2 * PI)) with (b - a + 2 * PI) in C1, S1 by ring. replace (b - a + -1 * (2 * PI)) with (b - a - 2 * PI) in C2, S2 by ring.
  destruct positive; cbn [andb negb].
  - destruct (less (b - a) 0) eqn:L; [apply less_true in L|apply less_false in L]; (split; [lra|]); auto.
  - destruct (less 0 (b - a)) eqn:L; [apply less_true in L|apply less_false in L]; (split; [lra|]); auto.
Qed.
Lemma turned_end : cos (a + turned_by) = cos b /\ sin (a + turned_by) = sin b.
Proof.
  destruct turned_range as (_ & C & S). rewrite cos_plus, sin_plus, C, S, <- cos_plus, <- sin_plus. replace (a + (b - a)) with b by ring. auto.
Qed.
(** The larger part is taken when the sign of [coe] says so. *)
Lemma turned_large : (if positive then coe < 0 else 0 < coe) -> PI < Rabs turned_by.
Proof.
  intros H. destruct turned_range as (R1 & C & S). rewrite swept_sin in S. pose proof PI_RGT_0 as PP. destruct positive.
  - rewrite Rabs_right by lra. destruct (Rlt_le_dec PI turned_by) as [|L]; [assumption|]. assert (0 <= sin turned_by) by (apply sin_ge_0; lra). nra.
  - rewrite Rabs_left by lra. destruct (Rlt_le_dec PI (- turned_by)) as [|L]; [assumption|]. assert (0 <= sin (- turned_by)) by (apply sin_ge_0; lra). rewrite sin_neg in H0. nra.
Qed.
Lemma turned_small : (if positive then 0 < coe else coe < 0) -> Rabs turned_by < PI.
Proof.
  intros H. destruct turned_range as (R1 & C & S). rewrite swept_sin in S. pose proof PI_RGT_0 as PP. destruct positive.
  - rewrite Rabs_right by lra. destruct (Rlt_le_dec turned_by PI) as [|L]; [assumption|]. assert (sin turned_by <= 0) by (apply sin_le_0; lra). nra.
  - rewrite Rabs_left by lra. destruct (Rlt_le_dec (- turned_by) PI) as [|L]; [assumption|]. assert (sin (- turned_by) <= 0) by (apply sin_le_0; lra). rewrite sin_neg in H0. nra.
Qed.
Lemma turned_half : coe = 0 -> Rabs turned_by = PI.
Proof.
  intros H. destruct turned_range as (R1 & C & S). rewrite swept_sin, H in S. pose proof PI_RGT_0 as PP. replace (2 * 0 * (u * u + v * v)) with 0 in S by ring.
  destruct positive.
  - rewrite Rabs_right by lra. destruct (Rtotal_order turned_by PI) as [L|[L|L]]; [|exact L|]; exfalso; [assert (0 < sin turned_by) by (apply sin_gt_0; lra)|assert (sin turned_by < 0) by (apply sin_lt_0; lra)]; lra.
  - rewrite Rabs_left by lra. destruct (Rtotal_order (- turned_by) PI) as [L|[L|L]]; [|exact L|]; exfalso; [assert (0 < sin (- turned_by)) by (apply sin_gt_0; lra)|assert (sin (- turned_by) < 0) by (apply sin_lt_0; lra)]; rewrite sin_neg in *; lra.
Qed.
End Core.

Lemma same_flags : forall l s, same (flag_value l) (flag_value s) = Bool.eqb l s.
Proof. intros [] []; cbn; unfold same; destruct (Req_EM_T _ _); try reflexivity; try lra. Qed.
Lemma same_flag0 : forall s, same (flag_value s) 0 = negb s.
Proof. intros []; cbn; unfold same; destruct (Req_EM_T _ _); try reflexivity; try lra. Qed.

Lemma scaled : forall rf, 0 < rf -> let s := if less 1 rf then sqrt rf else 1 in 1 <= s /\ rf <= s * s /\ (s = 1 \/ rf = s * s).
Proof.
  intros rf P. cbn. destruct (less 1 rf) eqn:L.
  - apply less_true in L. rewrite sqrt_sqrt by lra. split; [|split; [lra|auto]]. rewrite <- sqrt_1. apply sqrt_le_1_alt. lra.
  - apply less_false in L. split; [lra|]. split; [lra|auto].
Qed.

Lemma ratio : forall a b x y u v, 0 < a -> 0 < b -> 0 < u * u + v * v -> x = a * u -> y = b * v ->
  (a * b * (a * b) - (a * y * (a * y) + b * x * (b * x))) / (a * y * (a * y) + b * x * (b * x)) = (1 - (u * u + v * v)) / (u * u + v * v).
Proof.
  intros a b x y u v A B W -> ->. replace (a * (b * v) * (a * (b * v)) + b * (a * u) * (b * (a * u))) with ((a * b) * (a * b) * (u * u + v * v)) by ring.
  field. repeat split; lra.
Qed.
Lemma parsed : forall rx ry degrees large sweep from to,
  1 / 100000 <= Rabs rx -> 1 / 100000 <= Rabs ry -> from <> to ->
  exists a, from_arc_to rx ry degrees (flag_value large) (flag_value sweep) to from = Some a /\ arc_of rx ry (radians degrees) large sweep from to a /\ kept a.
Proof.
  intros rx ry degrees large sweep [fx fy] [tx ty] HX HY NE. unfold from_arc_to.
  assert (NL : is_arc_to_line rx ry (P fx fy) (P tx ty) = false).
  { unfold is_arc_to_line. rewrite (proj2 (less_false _ _) HX), (proj2 (less_false _ _) HY). cbn [orb px py]. destruct (same fx tx) eqn:A; [|reflexivity]. destruct (same fy ty) eqn:B; [|reflexivity].
    apply same_true in A, B. congruence. }
  rewrite NL. clear NL. set (phi := radians degrees). cbn [px py]. rewrite fmod_cos, fmod_sin, same_flags, same_flag0.
  set (ax := Rabs rx) in *. set (ay := Rabs ry) in *. assert (AX : 0 < ax) by lra. assert (AY : 0 < ay) by lra.
  set (hx := (fx - tx) * (1 / 2)). set (hy := (fy - ty) * (1 / 2)).
  assert (H : hx <> 0 \/ hy <> 0). { unfold hx, hy. destruct (Req_dec fx tx) as [->|X]; [|left; lra]. destruct (Req_dec fy ty) as [->|Y]; [now elim NE|right; lra]. }
  pose proof (w_pos ax ay phi hx hy AX AY H) as RF. destruct (back phi hx hy) as [BX BY].
  set (qx := cos phi * hx + sin phi * hy) in *. set (qy := - sin phi * hx + cos phi * hy) in *.
  set (rf := qx * qx / (ax * ax) + qy * qy / (ay * ay)) in *. pose proof (scaled rf RF) as SC. cbv zeta in SC. set (sc := if less 1 rf then sqrt rf else 1) in *. destruct SC as (S1 & S2 & S3).
  assert (X : 0 < ax * sc) by nra. assert (Y : 0 < ay * sc) by nra.
  set (u := qx / (ax * sc)). set (v := qy / (ay * sc)).
  assert (UV : u * u + v * v = rf / (sc * sc)) by (unfold u, v, rf; field; repeat split; lra).
  assert (SS : 0 < sc * sc) by nra.
  assert (W : 0 < u * u + v * v) by (rewrite UV; apply Rdiv_lt_0_compat; lra).
  assert (W1 : u * u + v * v <= 1) by (rewrite UV; apply (Rmult_le_reg_r (sc * sc)); [lra|]; unfold Rdiv; rewrite Rmult_assoc, Rinv_l by lra; lra).
  assert (QX : qx = ax * sc * u) by (unfold u; field; lra). assert (QY : qy = ay * sc * v) by (unfold v; field; lra).
  set (k := if Bool.eqb large sweep then -1 else 1). set (root := sqrt (Rabs _)).
  assert (RT : root * root = (1 - (u * u + v * v)) / (u * u + v * v)).
  { unfold root. rewrite sqrt_sqrt by apply Rabs_pos. rewrite (ratio (ax * sc) (ay * sc) qx qy u v X Y W QX QY). apply Rabs_right, Rle_ge, Rle_mult_inv_pos; lra. }
  assert (R0 : 0 <= root) by apply sqrt_pos. clearbody root.
  set (coe := k * root). assert (KK : k * k = 1) by (unfold k; destruct (Bool.eqb large sweep); ring).
  assert (COE : (u * u + v * v) * (1 + coe * coe) = 1). { unfold coe. replace (k * root * (k * root)) with ((k * k) * (root * root)) by ring. rewrite KK, RT. field. lra. }
  set (cx := coe * (ax * sc * qy) / (ay * sc)). set (cy := - coe * (ay * sc * qx) / (ax * sc)).
  assert (CX : cx = ax * sc * (coe * v)) by (unfold cx; rewrite QY; field; lra). assert (CY : cy = - (ay * sc * (coe * u))) by (unfold cy; rewrite QX; field; lra).
  replace ((qy - cy) / (ay * sc)) with (v + coe * u) by (rewrite QY, CY; field; lra).
  replace ((qx - cx) / (ax * sc)) with (u - coe * v) by (rewrite QX, CX; field; lra).
  replace ((- qy - cy) / (ay * sc)) with (- v + coe * u) by (rewrite QY, CY; field; lra).
  replace ((- qx - cx) / (ax * sc)) with (- u - coe * v) by (rewrite QX, CX; field; lra).
  rewrite Bool.negb_involutive.
  pose proof (turned_range u v coe W COE sweep) as TR. pose proof (turned_end u v coe W COE sweep) as TE. pose proof (turned_large u v coe W COE sweep) as TL. pose proof (turned_small u v coe W COE sweep) as TS. pose proof (turned_half u v coe W COE sweep) as TH.
  destruct (start_polar u v coe COE) as (SC & SS' & _), (end_polar u v coe COE) as (EC & ES & _).
  fold (turned_by u v coe sweep). set (tb := turned_by u v coe sweep) in *. clearbody tb.
  set (sa := atan2 (v + coe * u) (u - coe * v)) in *. set (ea := atan2 (- v + coe * u) (- u - coe * v)) in *. clearbody sa ea.
  assert (ENDS : on (P (cos phi * cx - sin phi * cy + (fx + tx) / 2) (sin phi * cx + cos phi * cy + (fy + ty) / 2)) (P (ax * sc) (ay * sc)) phi (sa + tb) (P tx ty)).
  { unfold on. cbn [px py]. destruct TE as [-> ->]. rewrite EC, ES. replace (ax * sc * (- u - coe * v)) with (- qx - cx) by (rewrite QX, CX; ring). replace (ay * sc * (- v + coe * u)) with (- qy - cy) by (rewrite QY, CY; ring).
    unfold hx, hy in BX, BY. split; lra. }
  eexists. split; [reflexivity|]. split.
  - split; [|split; [|split; [|split; [|split]]]]; cbn [center radii start_angle sweep_angle x_rotation px py].
    + unfold on. cbn [px py]. rewrite SC, SS'. replace (ax * sc * (u - coe * v)) with (qx - cx) by (rewrite QX, CX; ring). replace (ay * sc * (v + coe * u)) with (qy - cy) by (rewrite QY, CY; ring).
      unfold hx, hy in BX, BY. split; lra.
    + exact ENDS.
    + exists sc. split; [exact S1|]. split; [reflexivity|]. split; [reflexivity|]. destruct S3 as [S3|S3]; [now left|]. right. apply TH. unfold coe.
      assert (E : u * u + v * v = 1) by (rewrite UV, S3; field; nra). rewrite E in RT. assert (root = 0) by nra. subst root. ring.
    + exact (proj1 TR).
    + assert (Z : coe = 0 \/ (if Bool.eqb large sweep then coe < 0 else 0 < coe)).
      { unfold coe, k. destruct R0 as [R0|R0]; [|left; rewrite <- R0; ring]. right. destruct (Bool.eqb large sweep); lra. }
      destruct Z as [Z|Z]; [rewrite (TH Z); destruct large; lra|]. destruct large, sweep; cbn in Z; cbn in TL, TS.
      * left. exact (TL Z).
      * left. exact (TL Z).
      * left. exact (TS Z).
      * left. exact (TS Z).
    + reflexivity.
  - unfold kept. cbn. intros p Q. injection Q as <-. exact ENDS.
Qed.
