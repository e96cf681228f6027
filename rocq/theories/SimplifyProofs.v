(** Distances between places. *)
From Coq Require Import List QArith Qcanon Bool Lia Lqa Setoid.
From Verif Require Import SegmentModel SimplifyModel SimplifySpec.
Import ListNotations.
Local Open Scope Q_scope.

Lemma square_pos : forall x : Q, 0 <= x * x.
Proof. intros. nra. Qed.
Lemma square_le : forall x y, 0 <= y -> x * x <= y * y -> x <= y.
Proof. intros x y Y H. destruct (Qlt_le_dec y x) as [L|L]; [exfalso; nra|exact L]. Qed.

(** Two vectors of lengths at most [r] and [s] have a product of at most [r * s]. *)
Lemma product : forall a b c d r s, 0 <= r -> 0 <= s -> a * a + b * b <= r * r -> c * c + d * d <= s * s -> a * c + b * d <= r * s.
Proof.
  intros a b c d r s R S A B. apply square_le; [nra|].
  assert (L : (a * c + b * d) * (a * c + b * d) <= (a * a + b * b) * (c * c + d * d)).
  { assert (0 <= (a * d - b * c) * (a * d - b * c)) by apply square_pos. nra. }
  assert (M : (a * a + b * b) * (c * c + d * d) <= (r * r) * (s * s)).
  { assert (0 <= c * c + d * d) by nra. assert (0 <= r * r) by nra. nra. }
  nra.
Qed.
Lemma nigh_trans : forall r s a b c, 0 <= r -> 0 <= s -> nigh r a b -> nigh s b c -> nigh (r + s) a c.
Proof.
  intros r s [a a'] [b b'] [c c'] R S. unfold nigh, dist2. cbn. intros A B.
  pose proof (product (a - b) (a' - b') (b - c) (b' - c') r s R S A B). nra.
Qed.
Lemma nigh_sym : forall r a b, nigh r a b -> nigh r b a.
Proof. intros r [a a'] [b b']. unfold nigh, dist2. cbn. intros H. nra. Qed.
Lemma nigh_refl : forall r a, nigh r a a.
Proof. intros r [a a']. unfold nigh, dist2. cbn. nra. Qed.
Lemma nigh_mono : forall r s a b, 0 <= r -> r <= s -> nigh r a b -> nigh s a b.
Proof. intros r s [a a'] [b b'] R S. unfold nigh. intros H. nra. Qed.
Lemma nigh_eq : forall r a b, fst a == fst b -> snd a == snd b -> nigh r a b.
Proof. intros r [a a'] [b b']. unfold nigh, dist2. cbn. intros A B. rewrite A, B. nra. Qed.

(** The sum of two vectors of length at most [r], with weights. *)
Lemma weighted : forall r a b c d u v, 0 <= u -> 0 <= v -> u + v <= 1 -> a * a + b * b <= r * r -> c * c + d * d <= r * r ->
  (u * a + v * c) * (u * a + v * c) + (u * b + v * d) * (u * b + v * d) <= r * r.
Proof.
  intros r a b c d u v U V W A B.
  assert (P : 2 * (a * c + b * d) <= 2 * (r * r)).
  { assert (0 <= (a - c) * (a - c)) by apply square_pos. assert (0 <= (b - d) * (b - d)) by apply square_pos. nra. }
  assert (E : (u * a + v * c) * (u * a + v * c) + (u * b + v * d) * (u * b + v * d) == u * u * (a * a + b * b) + u * v * (2 * (a * c + b * d)) + v * v * (c * c + d * d)) by ring.
  rewrite E. assert (UU : 0 <= u * u) by apply square_pos. assert (VV : 0 <= v * v) by apply square_pos. assert (UV : 0 <= u * v) by nra.
  assert (X1 : u * u * (a * a + b * b) <= u * u * (r * r)) by (apply Qmult_le_l_weak || nra; nra).
  assert (X2 : v * v * (c * c + d * d) <= v * v * (r * r)) by nra.
  assert (X3 : u * v * (2 * (a * c + b * d)) <= u * v * (2 * (r * r))) by nra.
  assert (Y : (u + v) * (u + v) <= 1) by nra. assert (0 <= r * r) by apply square_pos.
  assert (Z : (u + v) * (u + v) * (r * r) <= 1 * (r * r)) by nra. nra.
Qed.

(** The weights of a curve. *)
Lemma weights : forall t, 0 <= t <= 1 -> 0 <= (1 - t) * (1 - t) * (1 - t) /\ 0 <= 3 * ((1 - t) * (1 - t) * t) /\ 0 <= 3 * ((1 - t) * t * t) /\ 0 <= t * t * t.
Proof.
  intros t [A B]. assert (0 <= 1 - t) by lra. assert (0 <= (1 - t) * (1 - t)) by nra. assert (0 <= t * t) by nra.
  assert (0 <= (1 - t) * t) by nra. repeat split; nra.
Qed.
(** Curves with the same parameter are as far apart as their points. *)
Lemma cubic_nigh : forall r t a c d b a' c' d' b', 0 <= t <= 1 -> nigh r a a' -> nigh r c c' -> nigh r d d' -> nigh r b b' ->
  nigh r (on_cubic t a c d b) (on_cubic t a' c' d' b').
Proof.
  intros r t [a1 a2] [c1 c2] [d1 d2] [b1 b2] [a1' a2'] [c1' c2'] [d1' d2'] [b1' b2'] T. destruct (weights t T) as (W0 & W1 & W2 & W3).
  unfold nigh, dist2, on_cubic, cubic_at. cbn [fst snd]. intros A C D B.
  set (w0 := (1 - t) * (1 - t) * (1 - t)) in *. set (w1 := 3 * ((1 - t) * (1 - t) * t)) in *. set (w2 := 3 * ((1 - t) * t * t)) in *. set (w3 := t * t * t) in *.
  assert (S : w0 + w1 + w2 + w3 == 1) by (unfold w0, w1, w2, w3; ring). clearbody w0 w1 w2 w3.
  (* pairs of points with weights that are scaled to one *)
  assert (G : forall u v x y z w, 0 <= u -> 0 <= v -> x * x + y * y <= r * r -> z * z + w * w <= r * r ->
    (u * x + v * z) * (u * x + v * z) + (u * y + v * w) * (u * y + v * w) <= (u + v) * (u + v) * (r * r)).
  { intros u v x y z w U V X Z. assert (0 <= u * u) by apply square_pos. assert (0 <= v * v) by apply square_pos. assert (UV : 0 <= u * v) by nra.
    assert (P : 2 * (x * z + y * w) <= 2 * (r * r)).
    { assert (0 <= (x - z) * (x - z)) by apply square_pos. assert (0 <= (y - w) * (y - w)) by apply square_pos. nra. }
    assert (u * u * (x * x + y * y) <= u * u * (r * r)) by nra. assert (v * v * (z * z + w * w) <= v * v * (r * r)) by nra.
    assert (u * v * (2 * (x * z + y * w)) <= u * v * (2 * (r * r))) by nra. nra. }
  assert (R0 : 0 <= r * r) by apply square_pos.
  pose proof (G w0 w1 _ _ _ _ W0 W1 A C) as P. pose proof (G w2 w3 _ _ _ _ W2 W3 D B) as Q.
  set (x := w0 * (a1 - a1') + w1 * (c1 - c1')) in *. set (y := w0 * (a2 - a2') + w1 * (c2 - c2')) in *.
  set (z := w2 * (d1 - d1') + w3 * (b1 - b1')) in *. set (w := w2 * (d2 - d2') + w3 * (b2 - b2')) in *.
  assert (E1 : w0 * a1 + w1 * c1 + w2 * d1 + w3 * b1 - (w0 * a1' + w1 * c1' + w2 * d1' + w3 * b1') == x + z) by (unfold x, z; ring).
  assert (E2 : w0 * a2 + w1 * c2 + w2 * d2 + w3 * b2 - (w0 * a2' + w1 * c2' + w2 * d2' + w3 * b2') == y + w) by (unfold y, w; ring).
  rewrite E1, E2. clearbody x y z w.
  assert (r0 : exists q, 0 <= q /\ r * r == q * q).
  { destruct (Qlt_le_dec r 0); [exists (- r)|exists r]; split; try lra; ring. }
  destruct r0 as (q & Q0 & EQ). rewrite EQ in *.
  assert (P' : x * x + y * y <= ((w0 + w1) * q) * ((w0 + w1) * q)) by nra.
  assert (Q' : z * z + w * w <= ((w2 + w3) * q) * ((w2 + w3) * q)) by nra.
  pose proof (product x y z w ((w0 + w1) * q) ((w2 + w3) * q) ltac:(nra) ltac:(nra) P' Q') as M.
  assert (F : q * q == ((w0 + w1) * q + (w2 + w3) * q) * ((w0 + w1) * q + (w2 + w3) * q)).
  { assert (X : (w0 + w1) * q + (w2 + w3) * q == (w0 + w1 + w2 + w3) * q) by ring. rewrite X, S. ring. }
  rewrite F. nra.
Qed.
Lemma line_nigh : forall r t a b a' b', 0 <= t <= 1 -> nigh r a a' -> nigh r b b' -> nigh r (on_line t a b) (on_line t a' b').
Proof.
  intros r t [a1 a2] [b1 b2] [a1' a2'] [b1' b2'] T. unfold nigh, dist2, on_line, line_at. cbn [fst snd]. intros A B.
  pose proof (weighted r _ _ _ _ (1 - t) t ltac:(lra) ltac:(lra) ltac:(lra) A B) as W.
  assert (E1 : (1 - t) * a1 + t * b1 - ((1 - t) * a1' + t * b1') == (1 - t) * (a1 - a1') + t * (b1 - b1')) by ring.
  assert (E2 : (1 - t) * a2 + t * b2 - ((1 - t) * a2' + t * b2') == (1 - t) * (a2 - a2') + t * (b2 - b2')) by ring.
  rewrite E1, E2. exact W.
Qed.
Lemma line_still : forall t a, fst (on_line t a a) == fst a /\ snd (on_line t a a) == snd a.
Proof. intros t a. unfold on_line, line_at. cbn. split; ring. Qed.
Lemma cubic_still : forall t a, fst (on_cubic t a a a a) == fst a /\ snd (on_cubic t a a a a) == snd a.
Proof. intros t a. unfold on_cubic, cubic_at. cbn. split; ring. Qed.
Lemma line_start : forall r a b, nigh r (on_line 0 a b) a.
Proof. intros r a b. apply nigh_eq; unfold on_line, line_at; cbn; ring. Qed.
Lemma line_end : forall r a b, nigh r (on_line 1 a b) b.
Proof. intros r a b. apply nigh_eq; unfold on_line, line_at; cbn; ring. Qed.
Lemma nigh_respects : forall r a b a' b', fst a == fst a' -> snd a == snd a' -> fst b == fst b' -> snd b == snd b' -> nigh r a b -> nigh r a' b'.
Proof. intros r [a1 a2] [b1 b2] [c1 c2] [d1 d2]. unfold nigh, dist2. cbn. intros A B C D. rewrite A, B, C, D. exact (fun H => H). Qed.

(** From the numbers of the model. *)
Lemma this_plus : forall a b : Qc, this (a + b)%Qc == this a + this b.
Proof. intros. apply Qred_correct. Qed.
Lemma this_opp : forall a : Qc, this (- a)%Qc == - this a.
Proof. intros. apply Qred_correct. Qed.
Lemma this_minus : forall a b : Qc, this (a - b)%Qc == this a - this b.
Proof. intros. unfold Qcminus. rewrite this_plus, this_opp. reflexivity. Qed.
Lemma this_mult : forall a b : Qc, this (a * b)%Qc == this a * this b.
Proof. intros. apply Qred_correct. Qed.
Lemma this_inv : forall a : Qc, this (/ a)%Qc == / this a.
Proof. intros. apply Qred_correct. Qed.
Lemma ltb_true : forall a b, ltb a b = true <-> this a < this b.
Proof. intros a b. unfold ltb, Qccompare. destruct (this a ?= this b)%Q eqn:E; rewrite Qlt_alt; rewrite E; split; congruence. Qed.
Lemma ltb_false : forall a b, ltb a b = false <-> this b <= this a.
Proof.
  intros a b. destruct (ltb a b) eqn:E.
  - apply ltb_true in E. split; [discriminate|intros; lra].
  - split; [|reflexivity]. intros _. destruct (Qlt_le_dec (this a) (this b)) as [L|L]; [apply ltb_true in L; congruence|exact L].
Qed.
Lemma near_dist : forall t a b, SegmentModel.near t a b = true <-> dist2 (xy a) (xy b) < tol t * tol t.
Proof.
  intros t a b. unfold SegmentModel.near. rewrite ltb_true. unfold distance_squared, psub, dist2, xy, tol. cbn [px py fst snd].
  rewrite this_plus, !this_mult, !this_minus. reflexivity.
Qed.
Lemma near_nigh : forall t a b, SegmentModel.near t a b = true -> nigh (tol t) (xy a) (xy b).
Proof. intros t a b H. apply near_dist in H. unfold nigh. lra. Qed.
Definition crossq (a b c : vec) : Q := (fst b - fst a) * (snd c - snd a) - (snd b - snd a) * (fst c - fst a).
Lemma cross_xy : forall a b c, this (cross a b c) == crossq (xy a) (xy b) (xy c).
Proof. intros a b c. unfold cross, crossq, xy. cbn [fst snd]. rewrite this_minus, !this_mult, !this_minus. reflexivity. Qed.
Lemma dot_xy : forall a b c, this (dot (psub a b) (psub b c)) == (fst (xy a) - fst (xy b)) * (fst (xy b) - fst (xy c)) + (snd (xy a) - snd (xy b)) * (snd (xy b) - snd (xy c)).
Proof. intros a b c. unfold dot, psub, xy. cbn [px py fst snd]. rewrite this_plus, !this_mult, !this_minus. reflexivity. Qed.
