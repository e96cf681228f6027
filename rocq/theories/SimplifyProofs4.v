(** Curves that become lines. *)
From Coq Require Import List QArith Qround Qcanon Bool Lia Lqa Setoid Arith.
From Verif Require Import SegmentModel SimplifyModel SimplifySpec SimplifyProofs SimplifyProofs2 SimplifyProofs3.
Import ListNotations.
Local Open Scope Q_scope.

Lemma along_cubic : forall t s c d e, along s (on_cubic t s c d e) e == cubic_at t 0 (along s c e) (along s d e) (dist2 s e).
Proof. intros. unfold along, on_cubic, cubic_at, dist2. cbn [fst snd]. ring. Qed.
Lemma cross_cubic : forall t s c d e, crossq s e (on_cubic t s c d e) == cubic_at t 0 (crossq s e c) (crossq s e d) 0.
Proof. intros. unfold crossq, on_cubic, cubic_at. cbn [fst snd]. ring. Qed.
Lemma along_line : forall u s e, along s (on_line u s e) e == u * dist2 s e.
Proof. intros. unfold along, on_line, line_at, dist2. cbn [fst snd]. ring. Qed.
Lemma cross_line : forall u s e, crossq s e (on_line u s e) == 0.
Proof. intros. unfold crossq, on_line, line_at. cbn [fst snd]. ring. Qed.
Lemma split_distance : forall s e a b, dist2 a b * dist2 s e == (along s a e - along s b e) * (along s a e - along s b e) + (crossq s e a - crossq s e b) * (crossq s e a - crossq s e b).
Proof. intros. unfold dist2, along, crossq. ring. Qed.

Lemma mixed : forall u v x y r, 0 <= u -> 0 <= v -> u + v <= 1 -> x * x <= r -> y * y <= r -> (u * x + v * y) * (u * x + v * y) <= r.
Proof.
  intros u v x y r U V W X Y. assert (R := square_pos x).
  assert (H : 2 * (x * y) <= 2 * r) by (assert (Z := square_pos (x - y)); lra).
  assert (H1 : u * u * (x * x) <= u * u * r) by (apply Qmult_le_l_weak || nra).
  assert (H2 : v * v * (y * y) <= v * v * r) by nra.
  assert (H3 : u * v * (2 * (x * y)) <= u * v * (2 * r)) by (assert (0 <= u * v) by nra; nra).
  assert (H4 : (u + v) * (u + v) * r <= 1 * r) by (assert ((u + v) * (u + v) <= 1) by nra; nra).
  lra.
Qed.
Lemma cross_small : forall t x y r, 0 <= t <= 1 -> x * x <= r -> y * y <= r -> cubic_at t 0 x y 0 * cubic_at t 0 x y 0 <= r.
Proof.
  intros t x y r T X Y. destruct (weights t T) as (W0 & W1 & W2 & W3).
  assert (M := mixed (3 * ((1 - t) * (1 - t) * t)) (3 * ((1 - t) * t * t)) x y r W1 W2). unfold cubic_at.
  assert (S : (1 - t) * (1 - t) * (1 - t) + 3 * ((1 - t) * (1 - t) * t) + 3 * ((1 - t) * t * t) + t * t * t == 1) by ring.
  specialize (M ltac:(lra) X Y). 
  match goal with |- ?a * ?a <= r => assert (E : a == 3 * ((1 - t) * (1 - t) * t) * x + 3 * ((1 - t) * t * t) * y) by ring; rewrite E end. exact M.
Qed.
Lemma cubic_range : forall t a b d, 0 <= t <= 1 -> 0 <= a <= d -> 0 <= b <= d -> 0 <= cubic_at t 0 a b d <= d.
Proof.
  intros t a b d T A B. destruct (weights t T) as (W0 & W1 & W2 & W3). unfold cubic_at.
  assert (S : (1 - t) * (1 - t) * (1 - t) == 1 - (3 * ((1 - t) * (1 - t) * t)) - (3 * ((1 - t) * t * t)) - t * t * t) by ring.
  set (w0 := (1 - t) * (1 - t) * (1 - t)) in *. set (w1 := 3 * ((1 - t) * (1 - t) * t)) in *. set (w2 := 3 * ((1 - t) * t * t)) in *. set (w3 := t * t * t) in *. clearbody w0 w1 w2 w3.
  assert (0 <= w1 * a) by nra. assert (0 <= w2 * b) by nra. assert (0 <= w3 * d) by nra.
  assert (w1 * a <= w1 * d) by nra. assert (w2 * b <= w2 * d) by nra. assert (0 <= w0 * d) by nra. split; nra.
Qed.
(** How fast it moves. *)
Lemma cubic_step : forall a b d x y, 0 <= a <= d -> 0 <= b <= d -> 0 <= x -> x <= y -> y <= 1 -> cubic_at y 0 a b d - cubic_at x 0 a b d <= 27 * d * (y - x).
Proof.
  intros a b d x y A B X XY Y. unfold cubic_at.
  assert (E : (1 - y) * (1 - y) * (1 - y) * 0 + 3 * ((1 - y) * (1 - y) * y) * a + 3 * ((1 - y) * y * y) * b + y * y * y * d -
     ((1 - x) * (1 - x) * (1 - x) * 0 + 3 * ((1 - x) * (1 - x) * x) * a + 3 * ((1 - x) * x * x) * b + x * x * x * d) ==
     (3 * a + (3 * b - 6 * a) * (x + y) + (3 * a - 3 * b + d) * (x * x + x * y + y * y)) * (y - x)) by ring.
  rewrite E. set (p := x + y). set (q := x * x + x * y + y * y).
  assert (P : 0 <= p <= 2) by (unfold p; lra). assert (Q' : 0 <= q <= 3) by (unfold q; split; nra). clearbody p q.
  assert (G : 3 * a + (3 * b - 6 * a) * p + (3 * a - 3 * b + d) * q <= 27 * d).
  { assert ((3 * b - 6 * a) * p <= 6 * d) by nra. assert ((3 * a - 3 * b + d) * q <= 12 * d) by nra. lra. }
  nra.
Qed.
Lemma crossing : forall (F : Q -> Q) n U k, (0 < k)%nat -> F (inject_Z (Z.of_nat 0) / n) <= U -> U <= F (inject_Z (Z.of_nat k) / n) ->
  exists i, (i < k)%nat /\ F (inject_Z (Z.of_nat i) / n) <= U /\ U <= F (inject_Z (Z.of_nat (S i)) / n).
Proof.
  intros F n U k. induction k as [|k IH]; intros K L H; [lia|].
  destruct (Qlt_le_dec U (F (inject_Z (Z.of_nat k) / n))) as [M|M].
  - destruct k as [|k].
    + exists 0%nat. split; [lia|]. split; assumption.
    + destruct IH as (i & I & A & B); [lia|exact L|lra|]. exists i. split; [lia|]. split; assumption.
  - exists k. split; [lia|]. split; assumption.
Qed.
Lemma cubic_at_prop : forall t u a c d b, t == u -> cubic_at t a c d b == cubic_at u a c d b.
Proof. intros t u a c d b E. unfold cubic_at. rewrite E. reflexivity. Qed.
Lemma reached : forall a b d u m, 0 <= a <= d -> 0 <= b <= d -> 0 <= u <= 1 -> (0 < m)%Z ->
  exists t, 0 <= t <= 1 /\ 0 <= u * d - cubic_at t 0 a b d <= 27 * d / inject_Z m.
Proof.
  intros a b d u m A B U M. set (n := inject_Z m). assert (N0 : 0 < n) by (unfold n; change 0 with (inject_Z 0); rewrite <- Zlt_Qlt; exact M).
  set (k := Z.to_nat m). assert (Ek : inject_Z (Z.of_nat k) == n) by (unfold k, n; rewrite Z2Nat.id by lia; reflexivity).
  destruct (crossing (fun t => cubic_at t 0 a b d) n (u * d) k) as (i & I & L & H).
  - unfold k. lia.
  - assert (E : inject_Z (Z.of_nat 0) / n == 0) by (change (inject_Z (Z.of_nat 0)) with 0; field; lra). cbv beta. rewrite (cubic_at_prop _ _ _ _ _ _ E).
    unfold cubic_at. assert (0 <= u * d) by nra. lra.
  - assert (E : inject_Z (Z.of_nat k) / n == 1) by (rewrite Ek; field; lra). cbv beta. rewrite (cubic_at_prop _ _ _ _ _ _ E).
    unfold cubic_at. assert (u * d <= d) by nra. lra.
  - cbv beta in L, H. set (x := inject_Z (Z.of_nat i) / n) in *. set (y := inject_Z (Z.of_nat (S i)) / n) in *.
    assert (I0 : 0 <= inject_Z (Z.of_nat i)) by (change 0 with (inject_Z 0); rewrite <- Zle_Qle; lia).
    assert (I1 : inject_Z (Z.of_nat (S i)) <= n) by (rewrite <- Ek, <- Zle_Qle; lia).
    assert (IS : inject_Z (Z.of_nat (S i)) == inject_Z (Z.of_nat i) + 1) by (rewrite Nat2Z.inj_succ; unfold Z.succ; rewrite inject_Z_plus; reflexivity).
    assert (X0 : 0 <= x) by (apply Qle_shift_div_l; [exact N0|lra]).
    assert (Y1 : y <= 1) by (apply Qle_shift_div_r; [exact N0|lra]).
    assert (XY : y - x == / n) by (unfold x, y; rewrite IS; field; lra).
    assert (IN : 0 < / n) by (apply Qinv_lt_0_compat; exact N0).
    exists x. split; [split; lra|]. split; [lra|].
    assert (C := cubic_step a b d x y A B X0 ltac:(lra) Y1). unfold Qdiv. rewrite XY in C. lra.
Qed.

(** The distances between the curve and its chord. *)
Lemma chord_near : forall p s e a b r, 0 < dist2 s e -> 0 <= r -> 
  crossq s e a * crossq s e a <= p * p * dist2 s e -> crossq s e b == 0 ->
  (along s a e - along s b e) * (along s a e - along s b e) <= r * r * dist2 s e -> 0 <= p -> nigh (p + r) a b.
Proof.
  intros p s e a b r D R X Z A P. unfold nigh. assert (S := split_distance s e a b). rewrite Z in S. set (D' := dist2 s e) in *. set (q := dist2 a b) in *.
  assert (H : q * D' <= (p * p + r * r) * D').
  { rewrite S. assert (E : (crossq s e a - 0) * (crossq s e a - 0) == crossq s e a * crossq s e a) by ring. rewrite E. lra. }
  clearbody D' q. assert (H' : q <= p * p + r * r) by (apply Qmult_le_r with (z := D'); assumption). assert (0 <= p * r) by nra. lra.
Qed.
Section Chord.
Variables (p : Q) (s c d e : vec).
Hypothesis P : 0 <= p.
Hypothesis D : 0 < dist2 s e.
Hypothesis C1 : crossq s e c * crossq s e c <= p * p * dist2 s e.
Hypothesis C2 : crossq s e d * crossq s e d <= p * p * dist2 s e.
Hypothesis B1 : beside s e c.
Hypothesis B2 : beside s e d.
Lemma cross_ok : forall t, 0 <= t <= 1 -> crossq s e (on_cubic t s c d e) * crossq s e (on_cubic t s c d e) <= p * p * dist2 s e.
Proof. intros t T. rewrite cross_cubic. apply cross_small; assumption. Qed.
Lemma to_chord : forall t, 0 <= t <= 1 -> exists u, 0 <= u <= 1 /\ nigh p (on_cubic t s c d e) (on_line u s e).
Proof.
  intros t T. destruct (cubic_range t _ _ _ T B1 B2) as [L H]. set (f := cubic_at t 0 (along s c e) (along s d e) (dist2 s e)) in *.
  exists (f / dist2 s e). split.
  - split; [apply Qle_shift_div_l; [exact D|lra]|apply Qle_shift_div_r; [exact D|lra]].
  - assert (Q' : nigh (p + 0) (on_cubic t s c d e) (on_line (f / dist2 s e) s e)).
    { apply (chord_near p s e); [exact D|lra|apply cross_ok; exact T|apply cross_line| |exact P].
      rewrite along_cubic, along_line. fold f. assert (E : f - f / dist2 s e * dist2 s e == 0) by (field; lra). rewrite E. lra. }
    eapply nigh_Q; [|exact Q']. lra.
Qed.
Lemma from_chord : forall u r, 0 <= u <= 1 -> 0 < r -> exists t, 0 <= t <= 1 /\ nigh (p + r) (on_cubic t s c d e) (on_line u s e).
Proof.
  intros u r U R. set (n := 27 * (1 + dist2 s e) / r). set (m := Z.max 1 (Qceiling n)).
  assert (M : (0 < m)%Z) by (unfold m; lia).
  assert (N : n <= inject_Z m) by (apply Qle_trans with (inject_Z (Qceiling n)); [apply Qle_ceiling|rewrite <- Zle_Qle; unfold m; lia]).
  destruct (reached (along s c e) (along s d e) (dist2 s e) u m B1 B2 U M) as (t & T & L & H). exists t. split; [exact T|].
  apply (chord_near p s e); [exact D|lra|apply cross_ok; exact T|apply cross_line| |exact P].
  rewrite along_cubic, along_line. set (f := cubic_at t 0 (along s c e) (along s d e) (dist2 s e)) in *. set (g := dist2 s e) in *. 
  assert (M0 : 0 < inject_Z m) by (change 0 with (inject_Z 0); rewrite <- Zlt_Qlt; exact M).
  assert (K : 27 * (1 + g) <= r * inject_Z m).
  { unfold n in N. assert (Z := Qmult_le_compat_r _ _ r N (Qlt_le_weak _ _ R)). assert (E : 27 * (1 + g) / r * r == 27 * (1 + g)) by (field; lra). rewrite E in Z. lra. }
  assert (J : u * g - f <= r * g / (1 + g)).
  { apply Qle_trans with (27 * g / inject_Z m); [exact H|]. apply Qle_shift_div_r; [exact M0|].
    assert (E : r * g / (1 + g) * inject_Z m == g * (r * inject_Z m) / (1 + g)) by (field; lra). rewrite E. apply Qle_shift_div_l; [lra|]. nra. }
  set (h := u * g - f) in *. assert (E : (f - u * g) * (f - u * g) == h * h) by (unfold h; ring). rewrite E. clearbody h f g. clear E H K N M0.
  assert (W : 0 <= r * g / (1 + g)) by (apply Qle_shift_div_l; [lra|nra]).
  apply Qle_trans with ((r * g / (1 + g)) * (r * g / (1 + g))); [nra|].
  assert (E : r * g / (1 + g) * (r * g / (1 + g)) == r * r * (g * g / ((1 + g) * (1 + g)))) by (field; lra). rewrite E.
  assert (V : g * g / ((1 + g) * (1 + g)) <= g) by (apply Qle_shift_div_r; nra). assert (0 <= r * r) by apply square_pos. nra.
Qed.
End Chord.

(** One piece. *)
Definition follows (r : Q) (s : point) (x y : sdata) : Prop :=
  (forall a, on s x a -> exists b, on s y b /\ nigh r a b) /\ (forall b, on s y b -> exists a, on s x a /\ nigh r b a) /\ end_point y = end_point x.
Lemma follows_refl : forall r s x, follows r s x x.
Proof. intros r s x. split; [|split; [|reflexivity]]; intros a O; exists a; (split; [exact O|apply nigh_refl]). Qed.
Lemma straight_cases : forall t s c1 c2 e, is_straight t s c1 c2 e = true -> 0 < tol t /\
  (dist2 (xy s) (xy e) < tol t * tol t \/
   crossq (xy s) (xy e) (xy c1) * crossq (xy s) (xy e) (xy c1) < tol t * tol t * dist2 (xy s) (xy e) /\
   crossq (xy s) (xy e) (xy c2) * crossq (xy s) (xy e) (xy c2) < tol t * tol t * dist2 (xy s) (xy e)).
Proof.
  intros t s c1 c2 e H. unfold is_straight in H. cbv zeta in H. apply andb_true_iff in H. destruct H as [T H]. apply ltb_true in T. change (this 0%Qc) with 0 in T.
  assert (DE : this (distance_squared s e) == dist2 (xy s) (xy e)).
  { unfold distance_squared, dist2, xy, psub. cbn [px py fst snd]. rewrite ?this_plus, ?this_mult, ?this_minus. ring. }
  split; [exact T|]. apply orb_true_iff in H. destruct H as [H|H].
  - left. apply ltb_true in H. rewrite this_mult, DE in H. exact H.
  - right. apply andb_true_iff in H. destruct H as [A B]. apply ltb_true in A. apply ltb_true in B. rewrite !this_mult, DE, !cross_xy in A, B. split; assumption.
Qed.
Lemma straight_follows : forall t s c1 c2 e r, 0 < r -> tame t (s, CurveTo c1 c2 e) -> is_straight t s c1 c2 e = true -> follows (tol t + r) s (CurveTo c1 c2 e) (LineTo e).
Proof.
  intros t s c1 c2 e r R [TT TB] H. cbn [fst snd] in TT, TB. destruct (straight_cases _ _ _ _ _ H) as (T & K).
  assert (UP : forall a b, nigh (tol t) a b -> nigh (tol t + r) a b) by (intros a b; apply nigh_mono; lra).
  destruct (Qlt_le_dec (dist2 (xy s) (xy e)) (tol t * tol t)) as [S|B].
  - specialize (TT S). split; [|split; [|reflexivity]].
    + intros a O. exists (on_line 0 (xy s) (xy e)). split; [constructor; lra|]. apply UP.
      apply nigh_sym. eapply nigh_respects; [| |reflexivity|reflexivity|apply nigh_sym; eapply tiny_place; [exact T|exact TT|exact O]]; unfold on_line, line_at; cbn [fst snd]; ring.
    + intros b O. exists (on_cubic 0 (xy s) (xy c1) (xy c2) (xy e)). split; [constructor; lra|]. apply UP.
      assert (TL : tiny t (s, LineTo e)) by (intros q [<-|[]]; apply TT; cbn; auto).
      eapply nigh_respects; [reflexivity|reflexivity| | |eapply tiny_place; [exact T|exact TL|exact O]]; unfold on_cubic, cubic_at; cbn [fst snd]; ring.
  - destruct K as [K|[K1 K2]]; [exfalso; lra|]. destruct (TB B) as [B1 B2].
    assert (D : 0 < dist2 (xy s) (xy e)) by (assert (0 < tol t * tol t) by nra; lra).
    assert (K1' := Qlt_le_weak _ _ K1). assert (K2' := Qlt_le_weak _ _ K2). assert (T' := Qlt_le_weak _ _ T).
    split; [|split; [|reflexivity]].
    + intros a O. inversion O as [|c d q u U E]. subst. destruct (to_chord _ _ _ _ _ T' D K1' K2' B1 B2 u U) as (w & W & N).
      exists (on_line w (xy s) (xy e)). split; [constructor; exact W|apply UP; exact N].
    + intros b O. inversion O as [q u U E|]. subst. destruct (from_chord _ _ _ _ _ T' D K1' K2' B1 B2 u r U R) as (w & W & N).
      exists (on_cubic w (xy s) (xy c1) (xy c2) (xy e)). split; [constructor; exact W|apply nigh_sym; exact N].
Qed.
Lemma follows_cons : forall r s x y l m, follows r s x y -> alike r (places (end_point x) l) (places (end_point x) m) -> tip (end_point x) l = tip (end_point x) m ->
  alike r (places s (x :: l)) (places s (y :: m)) /\ tip s (x :: l) = tip s (y :: m).
Proof.
  intros r s x y l m (A & B & E) [C D] T. split; [|rewrite !tip_cons, E; exact T]. split.
  - intros a P. apply places_cons in P. destruct P as [O|P]; [destruct (A a O) as (b & O' & N)|destruct (C a P) as (b & O' & N)]; exists b; (split; [apply places_cons|exact N]); [left; exact O'|right; rewrite E; exact O'].
  - intros b P. apply places_cons in P. rewrite E in P. destruct P as [O|P]; [destruct (B b O) as (a & O' & N)|destruct (D b P) as (a & O' & N)]; exists a; (split; [apply places_cons|exact N]); [left; exact O'|right; exact O'].
Qed.
Lemma straight_places : forall t r l q k s, 0 < r -> (forall p, In p (pieces s l) -> tame t p) ->
  alike (tol t + r) (places s l) (places s (straight_data t q k s l)) /\ tip s l = tip s (straight_data t q k s l).
Proof.
  intros t r l. induction l as [|d l IH]; intros q k s R H; [split; [apply alike_refl|reflexivity]|].
  assert (H' : forall p, In p (pieces (end_point d) l) -> tame t p) by (intros p I; apply H; right; exact I).
  assert (Hd : tame t (s, d)) by (apply H; left; reflexivity).
  destruct d as [p|c1 c2 e|rx ry x large sw e]; cbn [straight_data].
  - destruct (IH false None p R H') as [A B]. apply follows_cons; [apply follows_refl|exact A|exact B].
  - cbv zeta. match goal with |- context [(if ?b then LineTo e else CurveTo c1 c2 e)] => destruct b eqn:St end.
    + apply andb_true_iff in St. destruct St as [_ St]. destruct (IH (negb true && match quad_control t c1 c2 e s with Some _ => true | None => false end) (quad_control t c1 c2 e s) e R H') as [A B].
      apply follows_cons; [apply straight_follows; assumption|exact A|exact B].
    + destruct (IH (negb false && match quad_control t c1 c2 e s with Some _ => true | None => false end) (quad_control t c1 c2 e s) e R H') as [A B].
      apply follows_cons; [apply follows_refl|exact A|exact B].
  - destruct (IH false None e R H') as [A B]. apply follows_cons; [apply follows_refl|exact A|exact B].
Qed.
Lemma straight_alike : forall t r gs, 0 < tol t -> 0 < r -> all_tame t gs -> alike (tol t + r) (stroked gs) (stroked (SimplifyModel.straight_curves t gs)).
Proof.
  intros t r gs T R H. unfold stroked. apply (alike_map _ s_closed). intros g I. specialize (H g). destruct g as [s l z]. cbn [with_data s_start s_data s_closed].
  destruct (straight_places t r l false None s R (fun p J => H p I J)) as [[A B] E]. apply traced_alike; [lra|reflexivity| | |].
  - intros a P. destruct (A a P) as (b & Pb & N). exists b. split; [right; exact Pb|exact N].
  - intros b P. destruct (B b P) as (a & Pa & N). exists a. split; [right; exact Pa|exact N].
  - cbn [s_start s_data]. rewrite <- E. apply nigh_refl.
Qed.
