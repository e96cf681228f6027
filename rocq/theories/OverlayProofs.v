From Coq Require Import List NArith ZArith QArith Qcanon Bool Arith Lia Lqa.
From Verif Require Import SegmentModel SimplifyModel SimplifyProofs BezierModel BezierSpec BezierProofs BezierProofs2 OverlayModel OverlaySpec.
Import ListNotations.
Local Close Scope Q_scope.
Local Open Scope Qc_scope.

(** ** Boxes *)
Ltac cmp := repeat match goal with
  | H : context [ltb ?a ?b] |- _ => let E := fresh "E" in destruct (ltb a b) eqn:E; [apply ltb_true in E|apply ltb_false in E]
  | |- context [ltb ?a ?b] => let E := fresh "E" in destruct (ltb a b) eqn:E; [apply ltb_true in E|apply ltb_false in E]
  end.
Lemma low_spec : forall a b, low (Some a) b <= a /\ low (Some a) b <= b /\ (low (Some a) b = a \/ low (Some a) b = b).
Proof. intros a b. unfold low, Qcle. cmp; (split; [lra|split; [lra|tauto]]). Qed.
Lemma high_spec : forall a b, a <= high (Some a) b /\ b <= high (Some a) b /\ (high (Some a) b = a \/ high (Some a) b = b).
Proof. intros a b. unfold high, Qcle. cmp; (split; [lra|split; [lra|tauto]]). Qed.
Lemma low_none : forall b, low None b = b. Proof. reflexivity. Qed.

Lemma around_perm : forall l l' b, (forall p, In p l <-> In p l') -> around l b -> around l' b.
Proof.
  intros l l' b E (A & (p1 & I1 & X1) & (p2 & I2 & X2) & (p3 & I3 & X3) & p4 & I4 & X4). split; [intros p I; apply A, E, I|].
  split; [exists p1; split; [apply E|]; assumption|]. split; [exists p2; split; [apply E|]; assumption|]. split; [exists p3; split; [apply E|]; assumption|]. exists p4; split; [apply E|]; assumption.
Qed.
Lemma around_one : forall p, around [p] (Box p p).
Proof.
  intros p. split; [intros q [<-|[]]; unfold inside; cbn [b_min b_max]; repeat split; apply Qcle_refl|].
  cbn [b_min b_max]. repeat split; exists p; (split; [left; reflexivity|reflexivity]).
Qed.
Lemma around_grow : forall l b p, around l b ->
  around (p :: l) (Box (P (low (Some (px (b_min b))) (px p)) (low (Some (py (b_min b))) (py p))) (P (high (Some (px (b_max b))) (px p)) (high (Some (py (b_max b))) (py p)))).
Proof.
  intros l b p (A & (p1 & I1 & X1) & (p2 & I2 & X2) & (p3 & I3 & X3) & p4 & I4 & X4).
  destruct (low_spec (px (b_min b)) (px p)) as (a1 & a2 & a3). destruct (low_spec (py (b_min b)) (py p)) as (c1 & c2 & c3).
  destruct (high_spec (px (b_max b)) (px p)) as (d1 & d2 & d3). destruct (high_spec (py (b_max b)) (py p)) as (e1 & e2 & e3).
  set (w := low (Some (px (b_min b))) (px p)) in *. set (x := low (Some (py (b_min b))) (py p)) in *. set (y := high (Some (px (b_max b))) (px p)) in *. set (z := high (Some (py (b_max b))) (py p)) in *.
  split; [|split; [|split; [|split]]]; cbn [b_min b_max px py].
  - intros q [<-|I]; unfold inside; cbn [b_min b_max px py]; [repeat split; assumption|].
    destruct (A q I) as (B1 & B2 & B3 & B4). split; [exact (Qcle_trans _ _ _ a1 B1)|]. split; [exact (Qcle_trans _ _ _ B2 d1)|]. split; [exact (Qcle_trans _ _ _ c1 B3)|exact (Qcle_trans _ _ _ B4 e1)].
  - destruct a3 as [-> | ->]; [exists p1; split; [right; assumption|assumption]|exists p; split; [left; reflexivity|reflexivity]].
  - destruct d3 as [-> | ->]; [exists p2; split; [right; assumption|assumption]|exists p; split; [left; reflexivity|reflexivity]].
  - destruct c3 as [-> | ->]; [exists p3; split; [right; assumption|assumption]|exists p; split; [left; reflexivity|reflexivity]].
  - destruct e3 as [-> | ->]; [exists p4; split; [right; assumption|assumption]|exists p; split; [left; reflexivity|reflexivity]].
Qed.
Lemma grow_around : forall l seen b, around seen b -> exists b', grow (Some b) l = Some b' /\ around (rev l ++ seen) b'.
Proof.
  induction l as [|p l IH]; intros seen b A; [exists b; split; [reflexivity|exact A]|]. cbn [grow option_map].
  destruct (IH (p :: seen) _ (around_grow seen b p A)) as (b' & E & B). exists b'. split; [exact E|]. cbn [rev]. rewrite <- app_assoc. exact B.
Qed.
Lemma from_coords_around : forall l, match from_coords l with Some b => around l b | None => l = [] end.
Proof.
  intros [|p l]; [reflexivity|]. unfold from_coords. cbn [grow option_map]. rewrite !low_none. change (high None (px p)) with (px p). change (high None (py p)) with (py p).
  destruct p as [x y]. cbn [px py]. destruct (grow_around l [P x y] (Box (P x y) (P x y)) (around_one _)) as (b & -> & B). refine (around_perm _ _ _ _ B).
  intros q. rewrite in_app_iff, <- in_rev. cbn. tauto.
Qed.
Lemma around_proper : forall l b, around l b -> proper b.
Proof.
  intros l b (A & (p1 & I1 & X1) & _ & (p3 & I3 & X3) & _). destruct (A _ I1) as (a1 & a2 & _). destruct (A _ I3) as (_ & _ & a3 & a4). rewrite X1 in a2. rewrite X3 in a4. split; assumption.
Qed.
Lemma new_box_around : forall a b, around [a; b] (new_box a b).
Proof. intros a b. apply (around_perm [b; a]); [intros p; cbn; tauto|]. exact (around_grow [a] (Box a a) b (around_one a)). Qed.
Lemma contains_spec : forall b p, contains b p = true <-> inside b p.
Proof.
  intros b p. unfold contains, inside. rewrite negb_true_iff, !orb_false_iff, !ltb_false. unfold Qcle. tauto.
Qed.
Lemma intersects_spec : forall a b, proper a -> proper b -> (intersects a b = true <-> exists p, inside a p /\ inside b p).
Proof.
  intros a b [A1 A2] [B1 B2]. unfold intersects. rewrite negb_true_iff, !orb_false_iff, !ltb_false. unfold inside, Qcle in *. split.
  - intros [[[C1 C2] C3] C4].
    exists (P (if ltb (px (b_min a)) (px (b_min b)) then px (b_min b) else px (b_min a)) (if ltb (py (b_min a)) (py (b_min b)) then py (b_min b) else py (b_min a))).
    cbn [px py]. cmp; repeat split; lra.
  - intros (p & (D1 & D2 & D3 & D4) & E1 & E2 & E3 & E4). repeat split; lra.
Qed.
Lemma intersection_spec : forall a b, match intersection a b with
  | Some c => forall p, inside c p <-> inside a p /\ inside b p
  | None => forall p, ~ (inside a p /\ inside b p) end.
Proof.
  intros a b. unfold intersection.
  destruct (high_spec (px (b_min a)) (px (b_min b))) as (a1 & a2 & a3). destruct (high_spec (py (b_min a)) (py (b_min b))) as (b1 & b2 & b3).
  destruct (low_spec (px (b_max a)) (px (b_max b))) as (c1 & c2 & c3). destruct (low_spec (py (b_max a)) (py (b_max b))) as (d1 & d2 & d3).
  set (w := high (Some (px (b_min a))) (px (b_min b))) in *. set (x := high (Some (py (b_min a))) (py (b_min b))) in *.
  set (y := low (Some (px (b_max a))) (px (b_max b))) in *. set (z := low (Some (py (b_max a))) (py (b_max b))) in *. clearbody w x y z.
  destruct (ltb y w) eqn:E1; cbn [negb andb].
  - intros p [(A1 & A2 & A3 & A4) (B1 & B2 & B3 & B4)]. apply ltb_true in E1. unfold Qcle in *. destruct a3, c3; subst; lra.
  - destruct (ltb z x) eqn:E2; cbn [negb].
    + intros p [(A1 & A2 & A3 & A4) (B1 & B2 & B3 & B4)]. apply ltb_true in E2. unfold Qcle in *. destruct b3, d3; subst; lra.
    + intros p. apply ltb_false in E1. apply ltb_false in E2. unfold inside, new_box. cbn [b_min b_max px py].
      destruct (low_spec w y) as (f1 & f2 & f3). destruct (low_spec x z) as (g1 & g2 & g3). destruct (high_spec w y) as (h1 & h2 & h3). destruct (high_spec x z) as (i1 & i2 & i3).
      unfold Qcle in *. split.
      * intros (P1 & P2 & P3 & P4). destruct f3 as [F|F], g3 as [G|G], h3 as [H|H], i3 as [J|J]; rewrite F, G, H, J in *; repeat split; lra.
      * intros [(A1 & A2 & A3 & A4) (B1 & B2 & B3 & B4)]. destruct a3, b3, c3, d3; subst; repeat split; lra.
Qed.
Lemma clamp_spec : forall b p, proper b -> inside b (clamp_point b p) /\ (inside b p -> clamp_point b p = p) /\ (forall q, inside b q -> dist2 p (clamp_point b p) <= dist2 p q).
Proof.
  intros b p [A B]. split; [|split].
  - unfold inside, clamp_point. cbn [px py]. unfold Qcle in *. cmp; repeat split; lra.
  - intros (C1 & C2 & C3 & C4). destruct p as [x y]. unfold clamp_point. cbn [px py] in *. unfold Qcle in *. cmp; try lra; reflexivity.
  - intros q (C1 & C2 & C3 & C4). unfold dist2, clamp_point. cbn [px py Qcpower]. unfold Qcle in *.
    assert (S : forall u v w z : Qc, (this u * this u <= this w * this w)%Q -> (this v * this v <= this z * this z)%Q -> (this (u * (u * 1) + v * (v * 1))%Qc <= this (w * (w * 1) + z * (z * 1))%Qc)%Q).
    { intros u v w z U V. rewrite !this_plus, !this_mult. change (this 1) with 1%Q. lra. }
    assert (H1 : forall x y, (0 <= x)%Q -> (x <= y)%Q -> (x * x <= y * y)%Q) by (intros; nra).
    assert (K : forall u lo hi v : Qc, (this lo <= this v)%Q -> (this v <= this hi)%Q -> (this lo <= this hi)%Q ->
      (this (u - (if ltb u lo then lo else if ltb hi u then hi else u))%Qc * this (u - (if ltb u lo then lo else if ltb hi u then hi else u))%Qc <= this (u - v)%Qc * this (u - v)%Qc)%Q).
    { intros u lo hi v L H O. rewrite !this_minus. cmp.
      - pose proof (H1 (this lo - this u)%Q (this v - this u)%Q) as Y. nra.
      - pose proof (H1 (this u - this hi)%Q (this u - this v)%Q) as Y. nra.
      - pose proof (H1 0%Q (this u - this v)%Q) as Y. pose proof (H1 0%Q (this v - this u)%Q) as Y'. destruct (Qlt_le_dec (this u) (this v)); nra. }
    apply S; apply K; assumption.
Qed.
