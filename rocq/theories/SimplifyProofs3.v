(** Joining lines and curves. *)
From Coq Require Import List QArith Qcanon Bool Lia Lqa Setoid Arith.
From Verif Require Import SegmentModel SimplifyModel SimplifySpec SimplifyProofs SimplifyProofs2.
Import ListNotations.
Local Open Scope Q_scope.

(** Two pieces become one. *)
Definition joins (r : Q) (s : point) (x y z : sdata) : Prop :=
  (forall a, on s x a \/ on (end_point x) y a -> exists b, on s z b /\ nigh r a b) /\
  (forall b, on s z b -> exists a, (on s x a \/ on (end_point x) y a) /\ nigh r b a) /\ end_point z = end_point y.
Lemma joins_places : forall r s before x y z rest, joins r (tip s before) x y z ->
  alike r (places s (before ++ x :: y :: rest)) (places s (before ++ z :: rest)) /\ tip s (before ++ x :: y :: rest) = tip s (before ++ z :: rest).
Proof.
  intros r s before x y z rest (A & B & E). split.
  - split.
    + intros a P. apply places_app in P. destruct P as [P|P]; [exists a; split; [apply places_app; left; exact P|apply nigh_refl]|].
      apply places_cons in P. destruct P as [O|P].
      * destruct (A a (or_introl O)) as (b & Ob & N). exists b. split; [apply places_app; right; apply places_cons; left; exact Ob|exact N].
      * apply places_cons in P. destruct P as [O|P].
        -- destruct (A a (or_intror O)) as (b & Ob & N). exists b. split; [apply places_app; right; apply places_cons; left; exact Ob|exact N].
        -- exists a. split; [apply places_app; right; apply places_cons; right; rewrite E; exact P|apply nigh_refl].
    + intros b P. apply places_app in P. destruct P as [P|P]; [exists b; split; [apply places_app; left; exact P|apply nigh_refl]|].
      apply places_cons in P. destruct P as [O|P].
      * destruct (B b O) as (a & [Oa|Oa] & N); exists a; (split; [apply places_app; right; apply places_cons|exact N]); [left; exact Oa|right; apply places_cons; left; exact Oa].
      * exists b. split; [apply places_app; right; apply places_cons; right; apply places_cons; right; rewrite <- E; exact P|apply nigh_refl].
  - rewrite !tip_app, !tip_cons, E. reflexivity.
Qed.

(** Lines. *)
Lemma squares_zero : forall x y : Q, x * x + y * y <= 0 -> x == 0 /\ y == 0.
Proof.
  intros x y H. assert (X := square_pos x). assert (Y := square_pos y). assert (X' : x * x == 0) by lra. assert (Y' : y * y == 0) by lra.
  apply Qmult_integral in X'. apply Qmult_integral in Y'. tauto.
Qed.
Lemma between : forall a1 a2 p1 p2 c1 c2 : Q, (p1 - a1) * (c2 - a2) - (p2 - a2) * (c1 - a1) == 0 ->
  0 <= (a1 - p1) * (p1 - c1) + (a2 - p2) * (p2 - c2) -> exists k, 0 <= k <= 1 /\ p1 == line_at k a1 c1 /\ p2 == line_at k a2 c2.
Proof.
  intros a1 a2 p1 p2 c1 c2 X D. set (n := (c1 - a1) * (c1 - a1) + (c2 - a2) * (c2 - a2)).
  assert (N0 : 0 <= n) by (unfold n; assert (Y1 := square_pos (c1 - a1)); assert (Y2 := square_pos (c2 - a2)); lra).
  destruct (Qeq_dec n 0) as [N|N].
  - destruct (squares_zero (c1 - a1) (c2 - a2)) as [E1 E2]; [unfold n in N; lra|].
    assert (C1 : c1 == a1) by lra. assert (C2 : c2 == a2) by lra. rewrite C1, C2 in D.
    destruct (squares_zero (p1 - a1) (p2 - a2)) as [F1 F2]; [lra|].
    exists 0. unfold line_at. split; [lra|]. split; rewrite ?C1, ?C2; lra.
  - assert (NP : 0 < n) by (destruct (Qlt_le_dec 0 n); [assumption|exfalso; apply N; lra]).
    set (d := (p1 - a1) * (c1 - a1) + (p2 - a2) * (c2 - a2)).
    assert (Y1 := square_pos (p1 - a1)). assert (Y2 := square_pos (p2 - a2)). assert (Y3 := square_pos (c1 - p1)). assert (Y4 := square_pos (c2 - p2)).
    assert (D0 : 0 <= d) by (unfold d; lra). assert (D1 : d <= n) by (unfold d, n; lra).
    exists (d / n). split.
    + split; [apply Qle_shift_div_l; [exact NP|lra]|apply Qle_shift_div_r; [exact NP|lra]].
    + assert (Z1 : (p1 - a1) * n == d * (c1 - a1)).
      { unfold n, d. transitivity ((p1 - a1) * (c1 - a1) * (c1 - a1) + (c2 - a2) * ((p1 - a1) * (c2 - a2) - (p2 - a2) * (c1 - a1)) + (c2 - a2) * (p2 - a2) * (c1 - a1)); [ring|].
        rewrite X. ring. }
      assert (Z2 : (p2 - a2) * n == d * (c2 - a2)).
      { unfold n, d. transitivity ((p2 - a2) * (c2 - a2) * (c2 - a2) - (c1 - a1) * ((p1 - a1) * (c2 - a2) - (p2 - a2) * (c1 - a1)) + (c1 - a1) * (p1 - a1) * (c2 - a2)); [ring|].
        rewrite X. ring. }
      unfold line_at. clearbody n d. split.
      * assert (W : p1 == a1 + d * (c1 - a1) / n) by (rewrite <- Z1; field; exact N). rewrite W. field. exact N.
      * assert (W : p2 == a2 + d * (c2 - a2) / n) by (rewrite <- Z2; field; exact N). rewrite W. field. exact N.
Qed.
Lemma div_range : forall u k, 0 < k -> 0 <= u -> u <= k -> 0 <= u / k <= 1.
Proof. intros u k K U L. split; [apply Qle_shift_div_l; [exact K|lra]|apply Qle_shift_div_r; [exact K|lra]]. Qed.
Lemma mul_range : forall u k, 0 <= u <= 1 -> 0 <= k <= 1 -> 0 <= u * k <= 1.
Proof. intros u k U K. split; nra. Qed.
Lemma lines_join : forall s p c, crossq (xy s) (xy p) (xy c) == 0 ->
  0 <= (fst (xy s) - fst (xy p)) * (fst (xy p) - fst (xy c)) + (snd (xy s) - snd (xy p)) * (snd (xy p) - snd (xy c)) ->
  joins 0 s (LineTo p) (LineTo c) (LineTo c).
Proof.
  intros s p c X D. unfold crossq in X. destruct (between _ _ _ _ _ _ X D) as (k & K & E1 & E2). cbn [end_point].
  assert (F : forall t, fst (on_line t (xy s) (xy p)) == fst (on_line (t * k) (xy s) (xy c)) /\ snd (on_line t (xy s) (xy p)) == snd (on_line (t * k) (xy s) (xy c))).
  { intros t. unfold line_at in E1, E2. unfold on_line, line_at. cbn [fst snd]. rewrite E1, E2. split; ring. }
  assert (G : forall t, fst (on_line t (xy p) (xy c)) == fst (on_line (k + t * (1 - k)) (xy s) (xy c)) /\ snd (on_line t (xy p) (xy c)) == snd (on_line (k + t * (1 - k)) (xy s) (xy c))).
  { intros t. unfold line_at in E1, E2. unfold on_line, line_at. cbn [fst snd]. rewrite E1, E2. split; ring. }
  split; [|split; [|reflexivity]].
  - intros a [O|O]; inversion O as [q t T E|]; subst.
    + exists (on_line (t * k) (xy s) (xy c)). split; [constructor; apply mul_range; assumption|]. apply nigh_eq; apply F.
    + exists (on_line (k + t * (1 - k)) (xy s) (xy c)). split; [constructor; nra|]. apply nigh_eq; apply G.
  - intros b O. inversion O as [q u U E|]. subst.
    destruct (Qlt_le_dec u k) as [L|L].
    + exists (on_line (u / k) (xy s) (xy p)). split; [left; constructor; apply div_range; lra|].
      assert (Ek : u / k * k == u) by (field; lra). destruct (F (u / k)) as [F1 F2].
      apply nigh_eq; [rewrite F1|rewrite F2]; unfold on_line, line_at; cbn [fst snd]; rewrite Ek; reflexivity.
    + destruct (Qlt_le_dec k 1) as [M|M].
      * exists (on_line ((u - k) / (1 - k)) (xy p) (xy c)). split; [right; constructor; apply div_range; lra|].
        assert (Ek : k + (u - k) / (1 - k) * (1 - k) == u) by (field; lra). destruct (G ((u - k) / (1 - k))) as [G1 G2].
        apply nigh_eq; [rewrite G1|rewrite G2]; unfold on_line, line_at; cbn [fst snd]; rewrite Ek; reflexivity.
      * assert (Eu : u == 1) by lra. exists (on_line 1 (xy p) (xy c)). split; [right; constructor; lra|].
        apply nigh_eq; unfold on_line, line_at; cbn [fst snd]; rewrite Eu; ring.
Qed.
(** On a grid lines are joined only if they are exactly in line. *)
Lemma grid_cross : forall h t a b c, on_grid h a -> on_grid h b -> on_grid h c -> tol t <= h * h -> is_parallel t a b c = true -> crossq (xy a) (xy b) (xy c) == 0.
Proof.
  intros h t a b c (a1 & a2 & A1 & A2) (b1 & b2 & B1 & B2) (c1 & c2 & C1 & C2) T P. unfold is_parallel in P. apply andb_true_iff in P. destruct P as [P Q].
  apply ltb_true in P. apply ltb_true in Q. rewrite this_opp in Q. rewrite !cross_xy in *. fold (tol t) in *.
  set (z := ((b1 - a1) * (c2 - a2) - (b2 - a2) * (c1 - a1))%Z).
  assert (E : crossq (xy a) (xy b) (xy c) == inject_Z z * (h * h)).
  { unfold crossq, xy. cbn [fst snd]. rewrite A1, A2, B1, B2, C1, C2. unfold z, Z.sub. rewrite !inject_Z_plus, !inject_Z_opp, !inject_Z_mult, !inject_Z_plus, !inject_Z_opp. ring. }
  rewrite E in *. destruct (Z.eq_dec z 0) as [->|N]; [change (inject_Z 0) with 0; ring|exfalso].
  assert (H0 : 0 <= h * h) by apply square_pos.
  assert (D : 1 <= inject_Z z \/ inject_Z z <= -(1)).
  { destruct (Z_lt_le_dec 0 z); [left|right]; [change 1 with (inject_Z 1)|change (-(1)) with (inject_Z (-1))]; rewrite <- Zle_Qle; lia. }
  destruct D; nra.
Qed.

(** Curves. *)
Lemma lerp_xy : forall a b k, fst (xy (lerp a b k)) == line_at (this k) (fst (xy a)) (fst (xy b)) /\ snd (xy (lerp a b k)) == line_at (this k) (snd (xy a)) (snd (xy b)).
Proof.
  intros a b k. unfold lerp, padd, pmul, psub, xy. cbn [px py fst snd]. rewrite !this_plus, !this_mult, !this_minus. unfold line_at. split; ring.
Qed.
Lemma left_half : forall k u s p q b, cubic_at (k * u) s p q b ==
  cubic_at u s (line_at k s p) (line_at k (line_at k s p) (line_at k p q)) (line_at k (line_at k (line_at k s p) (line_at k p q)) (line_at k (line_at k p q) (line_at k q b))).
Proof. intros. unfold cubic_at, line_at. ring. Qed.
Lemma right_half : forall k u s p q b, cubic_at (k + u * (1 - k)) s p q b ==
  cubic_at u (line_at k (line_at k (line_at k s p) (line_at k p q)) (line_at k (line_at k p q) (line_at k q b))) (line_at k (line_at k p q) (line_at k q b)) (line_at k q b) b.
Proof. intros. unfold cubic_at, line_at. ring. Qed.
Lemma cubic_at_eq : forall t a c d b a' c' d' b', a == a' -> c == c' -> d == d' -> b == b' -> cubic_at t a c d b == cubic_at t a' c' d' b'.
Proof. intros t a c d b a' c' d' b' A C D B. unfold cubic_at. rewrite A, C, D, B. reflexivity. Qed.
Lemma line_at_eq : forall t a b a' b', a == a' -> b == b' -> line_at t a b == line_at t a' b'.
Proof. intros t a b a' b' A B. unfold line_at. rewrite A, B. reflexivity. Qed.
Definition sound (ratio : ratio_of) : Prop := forall s a2 a b1 b, 0 <= this (ratio s a2 a b1 b) <= 1.
(** On plain rational points. *)
Lemma left_places : forall k u s p q b, fst (on_cubic (k * u) s p q b) == fst (on_cubic u s (on_line k s p) (on_line k (on_line k s p) (on_line k p q)) (on_line k (on_line k (on_line k s p) (on_line k p q)) (on_line k (on_line k p q) (on_line k q b)))) /\
  snd (on_cubic (k * u) s p q b) == snd (on_cubic u s (on_line k s p) (on_line k (on_line k s p) (on_line k p q)) (on_line k (on_line k (on_line k s p) (on_line k p q)) (on_line k (on_line k p q) (on_line k q b)))).
Proof. intros. unfold on_cubic, on_line. cbn [fst snd]. split; apply left_half. Qed.
Lemma right_places : forall k u s p q b, fst (on_cubic (k + u * (1 - k)) s p q b) == fst (on_cubic u (on_line k (on_line k (on_line k s p) (on_line k p q)) (on_line k (on_line k p q) (on_line k q b))) (on_line k (on_line k p q) (on_line k q b)) (on_line k q b) b) /\
  snd (on_cubic (k + u * (1 - k)) s p q b) == snd (on_cubic u (on_line k (on_line k (on_line k s p) (on_line k p q)) (on_line k (on_line k p q) (on_line k q b))) (on_line k (on_line k p q) (on_line k q b)) (on_line k q b) b).
Proof. intros. unfold on_cubic, on_line. cbn [fst snd]. split; apply right_half. Qed.
Definition same (a b : vec) : Prop := fst a == fst b /\ snd a == snd b.
Lemma same_lerp : forall a b k a' b', same (xy a) a' -> same (xy b) b' -> same (xy (lerp a b k)) (on_line (this k) a' b').
Proof.
  intros a b k a' b' [A1 A2] [B1 B2]. destruct (lerp_xy a b k) as [L1 L2]. split; unfold on_line; cbn [fst snd].
  - rewrite L1. apply line_at_eq; assumption.
  - rewrite L2. apply line_at_eq; assumption.
Qed.
Lemma same_refl : forall a, same a a. Proof. intros. split; reflexivity. Qed.
Lemma same_nigh : forall r a b c, same a b -> nigh r a c -> nigh r b c.
Proof. intros r a b c [A B] N. eapply nigh_respects; [exact A|exact B|reflexivity|reflexivity|exact N]. Qed.
Lemma nigh_same : forall r a b c, same a b -> nigh r c a -> nigh r c b.
Proof. intros r a b c S N. apply nigh_sym. eapply same_nigh; [exact S|]. apply nigh_sym, N. Qed.
Lemma on_cubic_eq : forall t u a c d b, t == u -> same (on_cubic t a c d b) (on_cubic u a c d b).
Proof. intros t u a c d b E. unfold on_cubic, cubic_at. split; cbn [fst snd]; rewrite E; reflexivity. Qed.
Section Halves.
Variables (r k : Q) (s p1 p2 b a1 a2 a b1 b2 : vec).
Hypothesis K0 : 0 < k.
Hypothesis K1 : k < 1.
Hypothesis P1 : same (on_line k s p1) a1.
Hypothesis P2 : same (on_line k p2 b) b2.
Hypothesis N2 : nigh r (on_line k (on_line k s p1) (on_line k p1 p2)) a2.
Hypothesis N3 : nigh r (on_line k (on_line k p1 p2) (on_line k p2 b)) b1.
Hypothesis N1 : nigh r (on_line k (on_line k (on_line k s p1) (on_line k p1 p2)) (on_line k (on_line k p1 p2) (on_line k p2 b))) a.
Lemma half_left : forall u, 0 <= u <= 1 -> nigh r (on_cubic (k * u) s p1 p2 b) (on_cubic u s a1 a2 a).
Proof.
  intros u U. destruct (left_places k u s p1 p2 b) as [F1 F2]. eapply nigh_respects; [symmetry; exact F1|symmetry; exact F2|reflexivity|reflexivity|].
  apply cubic_nigh; [exact U|apply nigh_refl| |exact N2|exact N1]. apply nigh_eq; apply P1.
Qed.
Lemma half_right : forall u, 0 <= u <= 1 -> nigh r (on_cubic (k + u * (1 - k)) s p1 p2 b) (on_cubic u a b1 b2 b).
Proof.
  intros u U. destruct (right_places k u s p1 p2 b) as [F1 F2]. eapply nigh_respects; [symmetry; exact F1|symmetry; exact F2|reflexivity|reflexivity|].
  apply cubic_nigh; [exact U|exact N1|exact N3| |apply nigh_refl]. apply nigh_eq; apply P2.
Qed.
Lemma half_back : forall u, 0 <= u <= 1 -> exists w, 0 <= w <= 1 /\
  (nigh r (on_cubic u s p1 p2 b) (on_cubic w s a1 a2 a) \/ nigh r (on_cubic u s p1 p2 b) (on_cubic w a b1 b2 b)).
Proof.
  intros u U. destruct (Qlt_le_dec u k) as [L|L].
  - assert (W : 0 <= u / k <= 1) by (apply div_range; lra). exists (u / k). split; [exact W|left].
    eapply same_nigh; [|apply half_left; exact W]. apply on_cubic_eq. field. lra.
  - assert (W : 0 <= (u - k) / (1 - k) <= 1) by (apply div_range; lra). exists ((u - k) / (1 - k)). split; [exact W|right].
    eapply same_nigh; [|apply half_right; exact W]. apply on_cubic_eq. field. lra.
Qed.
End Halves.
Lemma solve_first : forall a1 s k, ~ this k == 0 -> same (on_line (this k) (xy s) (xy (pmul (psub a1 (pmul s (1 - k)%Qc)) (/ k)%Qc))) (xy a1).
Proof.
  intros a1 s k N. unfold same, on_line, pmul, psub, xy, line_at. cbn [px py fst snd]. rewrite !this_mult, !this_minus, !this_mult, !this_minus, !this_inv. change (this 1%Qc) with 1.
  split; field; exact N.
Qed.
Lemma solve_last : forall b2 b k, ~ 1 - this k == 0 -> same (on_line (this k) (xy (pmul (psub b2 (pmul b k)) (/ (1 - k))%Qc)) (xy b)) (xy b2).
Proof.
  intros b2 b k N. unfold same, on_line, pmul, psub, xy, line_at. cbn [px py fst snd]. rewrite !this_mult, !this_minus, !this_mult, !this_inv, !this_minus. change (this 1%Qc) with 1.
  split; field; exact N.
Qed.
Lemma ratio_zero : Qc_eq_bool 0%Qc 0%Qc = false -> False. Proof. discriminate. Qed.
Lemma ratio_one : Qc_eq_bool 1%Qc 1%Qc = false -> False. Proof. discriminate. Qed.
Local Opaque near lerp pmul psub is_continuous_parallel Qc_eq_bool Qcmult Qcminus Qcinv.
Lemma curves_found : forall t ratio s a1 a2 a b1 b2 b d, join_curves t ratio s a1 a2 a b1 b2 b = Some d ->
  exists k p1 p2, k = ratio s a2 a b1 b /\ k <> 0%Qc /\ k <> 1%Qc /\ p1 = pmul (psub a1 (pmul s (1 - k)%Qc)) (/ k)%Qc /\ p2 = pmul (psub b2 (pmul b k)) (/ (1 - k))%Qc /\ d = CurveTo p1 p2 b /\
    near t (lerp (lerp (lerp s p1 k) (lerp p1 p2 k) k) (lerp (lerp p1 p2 k) (lerp p2 b k) k) k) a = true /\
    near t (lerp (lerp s p1 k) (lerp p1 p2 k) k) a2 = true /\ near t (lerp (lerp p1 p2 k) (lerp p2 b k) k) b1 = true.
Proof.
  intros t ratio s a1 a2 a b1 b2 b d H. unfold join_curves in H. destruct (is_continuous_parallel t a2 a b1); [|discriminate].
  cbv zeta in H. remember (ratio s a2 a b1 b) as k eqn:Ek.
  destruct (Qc_eq_bool k 0%Qc) eqn:Ea; [discriminate|]. destruct (Qc_eq_bool k 1%Qc) eqn:Eb; [discriminate|]. cbn [orb] in H.
  remember (pmul (psub a1 (pmul s (1 - k)%Qc)) (/ k)%Qc) as p1 eqn:E1. remember (pmul (psub b2 (pmul b k)) (/ (1 - k))%Qc) as p2 eqn:E2.
  destruct (near t (lerp (lerp (lerp s p1 k) (lerp p1 p2 k) k) (lerp (lerp p1 p2 k) (lerp p2 b k) k) k) a) eqn:C1; [|discriminate].
  destruct (near t (lerp (lerp s p1 k) (lerp p1 p2 k) k) a2) eqn:C2; [|discriminate].
  destruct (near t (lerp (lerp p1 p2 k) (lerp p2 b k) k) b1) eqn:C3; [|discriminate]. cbn [andb] in H. injection H as H.
  exists k, p1, p2. split; [reflexivity|]. clear Ek. split; [intros ->; exact (ratio_zero Ea)|]. split; [intros ->; exact (ratio_one Eb)|]. split; [exact E1|]. split; [exact E2|]. split; [symmetry; exact H|]. split; [exact C1|]. split; [exact C2|exact C3].
Qed.
Lemma near_same : forall t a b a', near t a b = true -> same (xy a) a' -> nigh (tol t) a' (xy b).
Proof. intros t a b a' N S. eapply same_nigh; [exact S|]. apply near_nigh. exact N. Qed.
Lemma curves_join : forall t ratio s a1 a2 a b1 b2 b d, 0 < tol t -> sound ratio -> join_curves t ratio s a1 a2 a b1 b2 b = Some d ->
  joins (tol t) s (CurveTo a1 a2 a) (CurveTo b1 b2 b) d.
Proof.
  intros t ratio s a1 a2 a b1 b2 b d T0 SR H. destruct (curves_found _ _ _ _ _ _ _ _ _ _ H) as (k & p1 & p2 & Ek & Na & Nb & E1 & E2 & -> & C1 & C2 & C3).
  destruct (SR s a2 a b1 b) as [K0 K1]. rewrite <- Ek in K0, K1. clear Ek H.
  assert (Na' : ~ this k == 0) by (intros X; apply Na, Qc_is_canon; exact X).
  assert (Nb' : ~ this k == 1) by (intros X; apply Nb, Qc_is_canon; exact X).
  assert (N1 : ~ 1 - this k == 0) by (intros X; apply Nb'; lra).
  assert (P1 := solve_first a1 s k Na'). rewrite <- E1 in P1. assert (P2 := solve_last b2 b k N1). rewrite <- E2 in P2. clear E1 E2.
  assert (M2 : nigh (tol t) (on_line (this k) (on_line (this k) (xy s) (xy p1)) (on_line (this k) (xy p1) (xy p2))) (xy a2)) by (eapply near_same; [exact C2|repeat apply same_lerp; apply same_refl]).
  assert (M3 : nigh (tol t) (on_line (this k) (on_line (this k) (xy p1) (xy p2)) (on_line (this k) (xy p2) (xy b))) (xy b1)) by (eapply near_same; [exact C3|repeat apply same_lerp; apply same_refl]).
  assert (M1 : nigh (tol t) (on_line (this k) (on_line (this k) (on_line (this k) (xy s) (xy p1)) (on_line (this k) (xy p1) (xy p2))) (on_line (this k) (on_line (this k) (xy p1) (xy p2)) (on_line (this k) (xy p2) (xy b)))) (xy a)) by (eapply near_same; [exact C1|repeat apply same_lerp; apply same_refl]).
  clear C1 C2 C3.
  assert (KP : 0 < this k) by (destruct (Qlt_le_dec 0 (this k)); [assumption|exfalso; apply Na'; lra]).
  assert (KQ : this k < 1) by (destruct (Qlt_le_dec (this k) 1); [assumption|exfalso; apply Nb'; lra]).
  remember (this k) as q eqn:Eq. clear Eq Na Nb Na' Nb'.
  split; [|split; [|reflexivity]].
  - intros x [O|O]; inversion O as [|c e f u U E]; subst.
    + exists (on_cubic (q * u) (xy s) (xy p1) (xy p2) (xy b)). split; [constructor; nra|]. apply nigh_sym. apply (half_left _ _ _ _ _ _ _ _ _ P1 M2 M1). exact U.
    + exists (on_cubic (q + u * (1 - q)) (xy s) (xy p1) (xy p2) (xy b)). split; [constructor; nra|]. apply nigh_sym. apply (half_right _ _ _ _ _ _ _ _ _ P2 M3 M1). exact U.
  - intros x O. inversion O as [|c e f u U E]. subst.
    destruct (half_back _ _ _ _ _ _ _ _ _ _ _ KP KQ P1 P2 M2 M3 M1 u U) as (w & W & [N|N]).
    + exists (on_cubic w (xy s) (xy a1) (xy a2) (xy a)). split; [left; constructor; exact W|exact N].
    + exists (on_cubic w (xy a) (xy b1) (xy b2) (xy b)). split; [right; constructor; exact W|exact N].
Qed.

Local Transparent is_continuous_parallel.
(** The loop. *)
Lemma on_grid_tip : forall h s l, on_grid h s -> (forall d, In d l -> on_grid h (end_point d)) -> on_grid h (tip s l).
Proof.
  intros h s l. revert s. induction l as [|d l IH]; intros s S H; [exact S|]. rewrite tip_cons. apply IH; [apply H; left; reflexivity|intros e I; apply H; right; exact I].
Qed.
Lemma join_loop_alike : forall h t ratio s l st don, 0 < tol t -> sound ratio -> tol t <= h * h -> on_grid h s ->
  (forall d, In d don -> on_grid h (end_point d)) -> (forall d, In d l -> on_grid h (end_point d)) ->
  st = tip s (rev (List.tl don)) ->
  alike (times (List.length (filter is_curve l)) (tol t)) (places s (rev don ++ l)) (places s (join_loop t ratio st don l)) /\
  tip s (rev don ++ l) = tip s (join_loop t ratio st don l).
Proof.
  intros h t ratio s l. induction l as [|c l IH]; intros st don T0 SR TH GS GD GL ST.
  { cbn [join_loop]. rewrite app_nil_r. split; [apply alike_refl|reflexivity]. }
  cbn [join_loop]. destruct don as [|p before].
  { cbn [List.tl rev] in ST. cbn [rev app].
    assert (X : alike (times (List.length (filter is_curve l)) (tol t)) (places s (rev [c] ++ l)) (places s (join_loop t ratio st [c] l)) /\ tip s (rev [c] ++ l) = tip s (join_loop t ratio st [c] l)).
    { apply IH; try assumption; [intros d [<-|[]]; apply GL; left; reflexivity|intros d I; apply GL; right; exact I]. }
    cbn [rev app] in X. destruct X as [X Y]. split; [|exact Y]. eapply alike_mono; [| |exact X]; [apply times_pos; lra|]. apply times_le; [lra|].
    cbn [filter]. destruct (is_curve c); cbn [List.length]; lia. }
  cbn [List.tl] in ST. set (m := match p with LineTo _ => _ | _ => _ end).
  assert (J : forall d, m = Some d -> joins (if is_curve c then tol t else 0) st p c d).
  { intros d E. unfold m in E. destruct p as [p|a1 a2 a|]; destruct c as [c|b1 b2 b|]; try discriminate.
    - destruct (is_continuous_parallel t st p c) eqn:IP; [|discriminate]. injection E as <-. cbn [is_curve].
      unfold is_continuous_parallel in IP. apply andb_true_iff in IP. destruct IP as [IP ID]. apply negb_true_iff, ltb_false in ID. rewrite dot_xy in ID. change (this 0%Qc) with 0 in ID.
      apply lines_join; [|exact ID]. eapply grid_cross; [| | |exact TH|exact IP].
      + rewrite ST. apply on_grid_tip; [exact GS|]. intros d I. apply GD. right. apply in_rev. exact I.
      + apply (GD (LineTo p)). left. reflexivity.
      + apply (GL (LineTo c)). left. reflexivity.
    - cbn [is_curve]. eapply curves_join; eassumption. }
  destruct m as [d|]; clearbody m || idtac.
  - specialize (J d eq_refl). rewrite ST in J.
    assert (GE : on_grid h (end_point d)) by (destruct J as (_ & _ & ->); apply GL; left; reflexivity).
    destruct (IH st (d :: before) T0 SR TH GS) as [X Y].
    + intros e [<-|I]; [exact GE|apply GD; right; exact I].
    + intros e I. apply GL. right. exact I.
    + exact ST.
    + cbn [rev] in X, Y |- *. rewrite <- !app_assoc in *. cbn [app] in *.
      destruct (joins_places _ s (rev before) p c d l J) as [A B]. rewrite B. split; [|exact Y].
      apply alike_Q with (r := (if is_curve c then tol t else 0) + times (List.length (filter is_curve l)) (tol t)).
      * cbn [filter]. destruct (is_curve c); cbn [List.length]; [rewrite times_S|]; ring.
      * apply alike_trans with (B := places s (rev before ++ d :: l)); [destruct (is_curve c); lra|apply times_pos; lra|exact A|exact X].
  - destruct (IH (end_point p) (c :: p :: before) T0 SR TH GS) as [X Y].
    + intros e [<-|I]; [apply GL; left; reflexivity|apply GD; exact I].
    + intros e I. apply GL. right. exact I.
    + cbn [List.tl rev]. rewrite tip_last. reflexivity.
    + cbn [rev] in X, Y |- *. rewrite <- !app_assoc in *. cbn [app] in *. split; [|exact Y].
      eapply alike_mono; [| |exact X]; [apply times_pos; lra|]. apply times_le; [lra|]. cbn [filter]. destruct (is_curve c); cbn [List.length]; lia.
Qed.
Lemma join_alike : forall h t ratio n gs, 0 < tol t -> sound ratio -> tol t <= h * h -> gridded h gs -> curves_at_most n gs ->
  alike (inject_Z (Z.of_nat n) * tol t) (stroked gs) (stroked (SimplifyModel.join_nodes t ratio gs)).
Proof.
  intros h t ratio n gs T0 SR TH G C. unfold stroked. apply (alike_map _ s_closed). intros g I. destruct (G g I) as [GS GD]. specialize (C g I).
  destruct g as [s l z]. cbn [with_data s_start s_data s_closed] in *.
  destruct (join_loop_alike h t ratio s l s [] T0 SR TH GS) as [X Y]; [intros d []|exact GD|reflexivity|].
  cbn [rev app] in X, Y.
  assert (X' : alike (times n (tol t)) (places s l) (places s (join_loop t ratio s [] l))).
  { eapply alike_mono; [| |exact X]; [apply times_pos; lra|]. apply times_le; [lra|exact C]. }
  destruct X' as [A B]. apply traced_alike; [apply times_pos; lra|reflexivity| | |].
  - intros a P. destruct (A a P) as (b & Pb & N). exists b. split; [right; exact Pb|exact N].
  - intros a P. destruct (B a P) as (b & Pb & N). exists b. split; [right; exact Pb|exact N].
  - cbn [s_start s_data]. rewrite <- Y. apply nigh_refl.
Qed.
