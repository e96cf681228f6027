From Coq Require Import Reals ZArith Bool Lra Lia.
From Verif Require Import EllipseModel ArcModel ArcSpec ArcProofs SagittaModel SagittaSpec.
Open Scope R_scope.

Lemma same_true x y : same x y = true <-> x = y.
Proof. unfold same. destruct (Req_EM_T x y); split; intros; congruence. Qed.
Lemma same_false x y : same x y = false <-> x <> y.
Proof. unfold same. destruct (Req_EM_T x y); split; intros; congruence. Qed.

Lemma int_between x z : IZR z <= x < IZR z + 1 -> Int_part x = z.
Proof.
  intros H. destruct (base_Int_part x) as [A B]. apply Z.le_antisymm; apply Z.lt_succ_r; apply lt_IZR; rewrite succ_IZR; lra.
Qed.
Lemma round_between x z : 0 <= x -> IZR z - 1 / 2 <= x < IZR z + 1 / 2 -> round x = z.
Proof. intros X H. unfold round. rewrite (proj2 (less_false x 0)) by exact X. apply int_between. lra. Qed.
Lemma round_close p x : 0 < p -> Rabs (round_to p x - x) <= 1 / 2 / p.
Proof.
  intros P. unfold round_to. assert (N := round_near (x * p)). rewrite Rabs_minus_sym in N. replace (IZR (round (x * p)) / p - x) with ((IZR (round (x * p)) - x * p) / p) by (field; lra).
  unfold Rdiv at 1. rewrite Rabs_mult, (Rabs_pos_eq (/ p)) by (left; apply Rinv_0_lt_compat; exact P). unfold Rdiv at 2. apply Rmult_le_compat_r; [left; apply Rinv_0_lt_compat; exact P|exact N].
Qed.
Lemma round_whole p x : whole_units p (round_to p x).
Proof. exists (round (x * p)). reflexivity. Qed.
Lemma round_nonneg x : 0 <= x -> (0 <= round x)%Z.
Proof. intros H. unfold round. rewrite (proj2 (less_false x 0) H). destruct (base_Int_part (x + 1 / 2)) as [_ B]. apply Z.lt_succ_r, lt_IZR. rewrite succ_IZR. lra. Qed.

(** The height of an arc of a circle. *)
Lemma saggita_circle r large bx by_ e : 0 <= e -> 0 <= r -> saggita r r large bx by_ e =
  if less (r * r) ((bx * bx + by_ * by_) / 4) then None else Some (if same large 1 then r else r - sqrt (r * r - (bx * bx + by_ * by_) / 4)).
Proof.
  intros E R. unfold saggita. rewrite (proj2 (less_false e (Rabs (r - r)))) by (rewrite Rminus_diag_eq, Rabs_R0 by reflexivity; exact E).
  set (c := bx * bx + by_ * by_). assert (L : less ((r * 2) ^ 2) c = less (r * r) (c / 4)).
  { destruct (less (r * r) (c / 4)) eqn:X; [apply less_true in X; apply less_true|apply less_false in X; apply less_false]; lra. }
  rewrite L. destruct (less (r * r) (c / 4)) eqn:X; [reflexivity|]. apply less_false in X. replace (1 / 4 * c) with (c / 4) by lra.
  destruct (same large 1); [|reflexivity]. assert (S := sqrt_pos (r * r - c / 4)). rewrite Rmin_right by lra. reflexivity.
Qed.
Lemma top_small r h y : 0 <= r -> h * h <= r * r -> top r h false y -> y = r - sqrt (r * r - h * h).
Proof.
  intros R H (k & K & S & ->). assert (E : sqrt (r * r - h * h) = - k); [|lra]. replace (r * r - h * h) with ((- k) * (- k)) by lra. apply sqrt_square. lra.
Qed.
Lemma top_of r h : 0 <= r -> h * h <= r * r -> top r h false (r - sqrt (r * r - h * h)).
Proof. intros R H. exists (- sqrt (r * r - h * h)). assert (Q := sqrt_pos (r * r - h * h)). assert (S := sqrt_sqrt (r * r - h * h)). split; [rewrite Rmult_opp_opp, S; lra|]. split; lra. Qed.

Lemma coarser_inv fuel : forall p s bx by_ tol r r', 0 <= tol -> 0 <= r -> 0 < p -> coarser fuel p s 0 bx by_ tol r r = Some r' ->
  r' = (r, r) \/ exists n q, r' = (q, q) /\ 0 <= q /\ saggita q q 0 bx by_ tol = Some n /\ Rabs (s - n) < tol.
Proof.
  induction fuel as [|fuel IH]; intros p s bx by_ tol r r' T R P H; cbn [coarser] in H; destruct (less p 1) eqn:L; try (injection H as <-; left; reflexivity); try discriminate.
  assert (Q : 0 <= round_to p r) by (unfold round_to; apply Rmult_le_pos; [apply (IZR_le 0), round_nonneg, Rmult_le_pos; lra|left; apply Rinv_0_lt_compat; exact P]).
  destruct (saggita (round_to p r) (round_to p r) 0 bx by_ tol) as [n|] eqn:S; [|injection H as <-; left; reflexivity].
  destruct (less (Rabs (s - n)) tol) eqn:D; [|injection H as <-; left; reflexivity]. apply less_true in D.
  apply IH in H; [|exact T|exact Q|lra]. destruct H as [-> |H]; [right; exists n, (round_to p r); auto|right; exact H].
Qed.
Lemma coarser_ends n : forall s large bx by_ tol rx ry, exists r, coarser (S n) (10 ^ n) s large bx by_ tol rx ry = Some r.
Proof.
  induction n as [|n IH]; intros s large bx by_ tol rx ry.
  - cbn [coarser pow]. rewrite (proj2 (less_false 1 1)) by lra. destruct (saggita _ _ _ _ _ _) as [m|]; [|eexists; reflexivity]. destruct (less _ _); [|eexists; reflexivity]. rewrite (proj2 (less_true (1 / 10) 1)) by lra. eexists. reflexivity.
  - cbn [coarser]. assert (G : 1 <= 10 ^ S n) by (apply pow_R1_Rle; lra). rewrite (proj2 (less_false _ _) G). destruct (saggita _ _ _ _ _ _) as [m|]; [|eexists; reflexivity]. destruct (less _ _); [|eexists; reflexivity].
    replace (10 ^ S n / 10) with (10 ^ n) by (cbn [pow]; field). apply IH.
Qed.
Lemma smart_ends n smart large bx by_ tol rx ry : exists r, smart_radii (S n) smart (10 ^ n) large bx by_ tol rx ry = Some r.
Proof.
  unfold smart_radii. destruct smart; [|eexists; reflexivity]. destruct (saggita rx ry large bx by_ tol) as [s|]; [apply coarser_ends|eexists; reflexivity].
Qed.
Lemma smart_height n smart bx by_ tol r y h : 0 < tol -> 0 < r -> 4 * (h * h) = bx * bx + by_ * by_ -> top r h false y ->
  exists r' y', smart_radii (S n) smart (10 ^ n) 0 bx by_ tol r r = Some (r', r') /\ top r' h false y' /\ Rabs (y - y') < tol.
Proof.
  intros T R H Y. destruct (smart_ends n smart 0 bx by_ tol r r) as (q & Q). rewrite Q. assert (HR : h * h <= r * r) by (destruct Y as (k & K & _); assert (0 <= k * k) by (apply Rle_0_sqr); lra).
  assert (Same : exists r' y', Some (r, r) = Some (r', r') /\ top r' h false y' /\ Rabs (y - y') < tol) by (exists r, y; split; [reflexivity|]; split; [exact Y|]; rewrite Rminus_diag_eq, Rabs_R0 by reflexivity; exact T).
  unfold smart_radii in Q. destruct smart; [|injection Q as <-; exact Same].
  rewrite (saggita_circle r 0 bx by_ tol) in Q by lra. replace ((bx * bx + by_ * by_) / 4) with (h * h) in Q by lra. rewrite (proj2 (less_false (r * r) (h * h)) HR) in Q. rewrite (proj2 (same_false 0 1)) in Q by lra.
  apply coarser_inv in Q; [|lra|lra|apply pow_lt; lra]. destruct Q as [-> |(m & z & -> & Z & S & D)]; [exact Same|].
  rewrite (saggita_circle z 0 bx by_ tol) in S by lra. replace ((bx * bx + by_ * by_) / 4) with (h * h) in S by lra. destruct (less (z * z) (h * h)) eqn:L; [discriminate|]. apply less_false in L. rewrite (proj2 (same_false 0 1)) in S by lra. injection S as <-.
  exists z. eexists. split; [reflexivity|]. split; [apply top_of; assumption|]. rewrite (top_small r h y) by (assumption || lra). exact D.
Qed.

(** A larger arc: its height is not looked at. *)
Lemma large_moved : exists n r r' bx by_ tol h y y', 0 < tol /\ 0 < r /\ 4 * (h * h) = bx * bx + by_ * by_ /\
  smart_radii (S n) true (10 ^ n) 1 bx by_ tol r r = Some (r', r') /\ top r h true y /\ top r' h true y' /\ 400 * tol <= Rabs (y - y').
Proof.
  exists 3%nat, (100 + 8 / 10000), 100, 200, 0, (1 / 1000), 100, (sqrt ((100 + 8 / 10000) * (100 + 8 / 10000) - 100 * 100) + (100 + 8 / 10000)), (0 + 100).
  split; [lra|]. split; [lra|]. split; [lra|]. split; [|split; [|split]].
  - assert (SG : forall x, 100 <= x -> saggita x x 1 200 0 (1 / 1000) = Some x).
    { intros x X. rewrite saggita_circle by lra. assert (100 * 100 <= x * x) by (apply Rmult_le_compat; lra). rewrite (proj2 (less_false _ _)) by lra. rewrite (proj2 (same_true 1 1)) by reflexivity. reflexivity. }
    assert (R3 : round_to 1000 (100 + 8 / 10000) = 100 + 1 / 1000) by (unfold round_to; rewrite (round_between _ 100001) by lra; lra).
    assert (R2 : round_to 100 (100 + 1 / 1000) = 100) by (unfold round_to; rewrite (round_between _ 10000) by lra; lra).
    assert (R1 : round_to 10 100 = 100) by (unfold round_to; rewrite (round_between _ 1000) by lra; lra).
    assert (R0 : round_to 1 100 = 100) by (unfold round_to; rewrite (round_between _ 100) by lra; lra).
    assert (D : forall x y, Rabs (x - y) < 1 / 1000 -> less (Rabs (x - y)) (1 / 1000) = true) by (intros x y; apply less_true).
    unfold smart_radii. rewrite SG by lra. cbn [coarser]. replace (10 ^ 3) with 1000 by lra. replace (1000 / 10) with 100 by lra. replace (100 / 10) with 10 by lra. replace (10 / 10) with 1 by lra.
    rewrite !(proj2 (less_false _ _)) by lra. rewrite R3, SG by lra. rewrite D by (rewrite Rabs_left; lra). rewrite R2, SG by lra. rewrite D by (rewrite Rabs_right; lra). rewrite R1, SG by lra. rewrite D by (rewrite Rabs_right; lra).
    rewrite R0, SG by lra. rewrite D by (rewrite Rabs_right; lra). rewrite (proj2 (less_true (1 / 10) 1)) by lra. reflexivity.
  - eexists. split; [|split; [|reflexivity]]; [rewrite sqrt_sqrt; lra|apply sqrt_pos].
  - exists 0. split; [lra|]. split; lra.
  - assert (Q : 4 / 10 <= sqrt ((100 + 8 / 10000) * (100 + 8 / 10000) - 100 * 100)) by (rewrite <- (sqrt_square (4 / 10)) by lra; apply sqrt_le_1_alt; lra). rewrite Rabs_right; lra.
Qed.

(** The direction. *)
Lemma tangent_unit a : 0 < px (radii a) -> 0 < py (radii a) -> px (start_tangent_unit a) * px (start_tangent_unit a) + py (start_tangent_unit a) * py (start_tangent_unit a) = 1.
Proof.
  intros A B. unfold start_tangent_unit. cbv zeta. set (e := if less PI _ then _ else _).
  set (tx := - px (radii a) * sin (start_angle a)). set (ty := py (radii a) * cos (start_angle a)).
  set (tx' := if less e 0 then - tx else tx). set (ty' := if less e 0 then - ty else ty).
  assert (SQ : tx' * tx' + ty' * ty' = tx * tx + ty * ty) by (unfold tx', ty'; destruct (less e 0); lra).
  assert (PO : 0 < tx * tx + ty * ty).
  { unfold tx, ty. assert (SC := sin2_cos2 (start_angle a)). unfold Rsqr in SC. set (s := sin (start_angle a)) in *. set (c := cos (start_angle a)) in *.
    assert (S0 := Rle_0_sqr s). assert (C0 := Rle_0_sqr c). unfold Rsqr in *. assert (RA : 0 < px (radii a) * px (radii a)) by (apply Rmult_lt_0_compat; lra). assert (RB : 0 < py (radii a) * py (radii a)) by (apply Rmult_lt_0_compat; lra).
    replace (- px (radii a) * s * (- px (radii a) * s) + py (radii a) * c * (py (radii a) * c)) with (px (radii a) * px (radii a) * (s * s) + py (radii a) * py (radii a) * (c * c)) by ring.
    destruct (Rle_lt_dec (s * s) 0) as [Z|Z]; [assert (c * c = 1) by lra; assert (s * s = 0) by lra; nra|]. assert (0 < px (radii a) * px (radii a) * (s * s)) by (apply Rmult_lt_0_compat; lra). assert (0 <= py (radii a) * py (radii a) * (c * c)) by (apply Rmult_le_pos; lra). lra. }
  set (rx := tx' * cos (x_rotation a) - ty' * sin (x_rotation a)). set (ry := tx' * sin (x_rotation a) + ty' * cos (x_rotation a)).
  assert (RR : rx * rx + ry * ry = tx * tx + ty * ty).
  { rewrite <- SQ. unfold rx, ry. assert (SC := sin2_cos2 (x_rotation a)). unfold Rsqr in SC. set (s := sin (x_rotation a)) in *. set (c := cos (x_rotation a)) in *.
    replace ((tx' * c - ty' * s) * (tx' * c - ty' * s) + (tx' * s + ty' * c) * (tx' * s + ty' * c)) with ((tx' * tx' + ty' * ty') * (s * s + c * c)) by ring. rewrite SC. ring. }
  rewrite RR. assert (L := sqrt_lt_R0 _ PO). assert (LL := sqrt_sqrt (tx * tx + ty * ty)). set (len := sqrt (tx * tx + ty * ty)) in *.
  rewrite (proj2 (same_false len 0)) by lra. cbn [px py].
  replace (rx / len * (rx / len) + ry / len * (ry / len)) with ((rx * rx + ry * ry) / (len * len)) by (field; lra). rewrite RR, LL by lra. field. lra.
Qed.
Lemma step_of p a : 0 < p -> px (min_by p a) = IZR (round (px (start_tangent_unit a))) / p /\ py (min_by p a) = IZR (round (py (start_tangent_unit a))) / p.
Proof.
  intros P0. unfold min_by, round_to. cbn [px py]. split; f_equal; f_equal; f_equal; field; lra.
Qed.
Lemma round_zero x : round x = 0%Z -> Rabs x <= 1 / 2.
Proof. intros H. assert (N := round_near x). rewrite H in N. rewrite Rminus_0_r in N. exact N. Qed.
Lemma round_unit x : Rabs x <= 1 -> Rabs (IZR (round x)) <= 1.
Proof.
  intros H. assert (N := round_near x). assert (Z : (- 2 < round x < 2)%Z).
  { apply Rabs_def2b in H || (unfold Rabs in H; destruct (Rcase_abs x)). unfold Rabs in N; destruct (Rcase_abs (x - IZR (round x))); split; apply lt_IZR; lra. 
    unfold Rabs in N; destruct (Rcase_abs (x - IZR (round x))); split; apply lt_IZR; lra. }
  rewrite <- abs_IZR. apply IZR_le. lia.
Qed.
