From Coq Require Import List NArith ZArith QArith Qcanon Bool Lia Lqa.
From Verif Require Import SegmentModel SimplifyModel SimplifyProofs BezierModel BezierSpec.
Import ListNotations.
Local Close Scope Q_scope.
Local Open Scope Qc_scope.

Lemma point_at_bezier : forall start c t, point_at start c t = bezier start c t.
Proof. intros. unfold point_at, bezier, cubic, padd, pmul. cbn [px py Qcpower]. f_equal; ring. Qed.
Lemma bezier_ends : forall start c, bezier start c 0 = start /\ bezier start c 1 = curve_end c.
Proof. intros [x y] [a b [ex ey]]. unfold bezier, cubic. cbn [px py start_control end_control curve_end Qcpower]. split; f_equal; ring. Qed.
Lemma three : Q2Qc 3 = 1 + 1 + 1.
Proof. apply Qc_is_canon. vm_compute. reflexivity. Qed.
Lemma two : Q2Qc 2 = 1 + 1.
Proof. apply Qc_is_canon. vm_compute. reflexivity. Qed.

Lemma halves : forall start c t l m r, subdivide_t start c t = (l, m, r) ->
  m = bezier start c t /\ part_of start c 0 t start l /\ part_of start c t 1 m r.
Proof.
  intros start c t l m r H. unfold subdivide_t in H. injection H as <- <- <-.
  split; [|split].
  - unfold bezier, cubic, lerp, padd, pmul, psub. cbn [px py Qcpower]. rewrite three. f_equal; ring.
  - intros s. unfold bezier, cubic, lerp, padd, pmul, psub. cbn [px py start_control end_control curve_end Qcpower]. rewrite three. f_equal; ring.
  - intros s. unfold bezier, cubic, lerp, padd, pmul, psub. cbn [px py start_control end_control curve_end Qcpower]. rewrite three. f_equal; ring.
Qed.
Lemma reversed : forall start c s, bezier (curve_end c) (reverse start c) s = bezier start c (1 - s).
Proof. intros. unfold bezier, cubic, reverse. cbn [px py start_control end_control curve_end Qcpower]. f_equal; ring. Qed.

Lemma in_unit_spec : forall t, in_unit t = true <-> unit_ t.
Proof.
  intros t. unfold in_unit, unit_. rewrite andb_true_iff, !negb_true_iff, !ltb_false. unfold Qcle. reflexivity.
Qed.
Lemma order_spec : forall a b, negb (ltb b a) = true <-> a <= b.
Proof. intros. rewrite negb_true_iff, ltb_false. unfold Qcle. reflexivity. Qed.
Lemma part_part : forall start c t1 t2 s1 c1 k1 k2 s2 c2, part_of start c t1 t2 s1 c1 -> part_of s1 c1 k1 k2 s2 c2 ->
  part_of start c (t1 + (t2 - t1) * k1) (t1 + (t2 - t1) * k2) s2 c2.
Proof. intros start c t1 t2 s1 c1 k1 k2 s2 c2 A B s. rewrite B, A. f_equal. ring. Qed.
Lemma qabs_near : forall a e, ltb (qabs a) e = true -> - e < a /\ a < e.
Proof.
  intros a e H. unfold qabs in H. destruct (ltb a 0) eqn:S; apply ltb_true in H.
  - apply ltb_true in S. unfold Qclt. rewrite this_opp in *. change (this 0) with 0%Q in S. split; lra.
  - apply ltb_false in S. unfold Qclt. rewrite this_opp in *. change (this 0) with 0%Q in S. split; lra.
Qed.
Lemma qabs_zero : ltb (qabs 0) (Q2Qc (1 # 10000000000)) = true.
Proof. vm_compute. reflexivity. Qed.
(** A part, with the number it really goes to. *)
Lemma clamped : forall debug start c t1 t2 c', clamp_t debug start c t1 t2 = Some c' ->
  exists t2', part_of start c t1 t2' (bezier start c t1) c' /\ (t2' = t2 \/ (t2' = 1 /\ 1 - t1 < Q2Qc (1 # 10000000000))).
Proof.
  intros debug start c t1 t2 c' H. unfold clamp_t in H.
  destruct (debug && negb (in_unit t1 && in_unit t2 && negb (ltb t2 t1))); [discriminate|].
  destruct (subdivide_t start c t1) as [[l m] r] eqn:E. destruct (halves _ _ _ _ _ _ E) as (M & _ & R).
  destruct (ltb (qabs (1 - t1)) (Q2Qc (1 # 10000000000))) eqn:N.
  - destruct (subdivide_t m r 1) as [[l' m'] r'] eqn:E'. destruct (halves _ _ _ _ _ _ E') as (_ & L & _). cbn [fst] in H. injection H as <-.
    exists 1. split; [|right; split; [reflexivity|]]. { rewrite <- M. pose proof (part_part _ _ _ _ _ _ _ _ _ _ R L) as Q. intros s. rewrite Q. f_equal. ring. }
    exact (proj2 (qabs_near _ _ N)).
  - assert (K : 1 - t1 <> 0) by (intros K; rewrite K, qabs_zero in N; discriminate).
    destruct (subdivide_t m r ((t2 - t1) / (1 - t1))) as [[l' m'] r'] eqn:E'. destruct (halves _ _ _ _ _ _ E') as (_ & L & _). cbn [fst] in H. injection H as <-.
    exists t2. split; [|left; reflexivity]. rewrite <- M. pose proof (part_part _ _ _ _ _ _ _ _ _ _ R L) as Q. intros s. rewrite Q. f_equal. field. exact K.
Qed.
Lemma clamps : forall debug start c t1 t2, 0 <= t1 -> t1 <= t2 -> t2 <= 1 -> clamp_t debug start c t1 t2 <> None.
Proof.
  intros debug start c t1 t2 A B C H. unfold clamp_t in H.
  rewrite (proj2 (in_unit_spec t1)) in H by (split; [exact A|exact (Qcle_trans _ _ _ B C)]).
  rewrite (proj2 (in_unit_spec t2)) in H by (split; [exact (Qcle_trans _ _ _ A B)|exact C]).
  rewrite (proj2 (order_spec t1 t2) B) in H. cbn [andb negb] in H. rewrite andb_false_r in H.
  destruct (subdivide_t start c t1) as [[l m] r]. discriminate.
Qed.

(** ** Places *)
Lemma clamp_unit_unit : forall t, unit_ (clamp_unit t).
Proof.
  intros t. unfold clamp_unit, unit_. destruct (ltb t 0) eqn:A; [split; discriminate|]. destruct (ltb 1 t) eqn:B; [split; discriminate|].
  split; [exact (proj1 (ltb_false _ _) A)|exact (proj1 (ltb_false _ _) B)].
Qed.
Lemma newton_unit : forall rounded fuel start c at_ t, unit_ t -> unit_ (newton rounded fuel start c at_ t).
Proof.
  intros rounded fuel. induction fuel as [|f IH]; intros start c at_ t U; [exact U|]. cbn [newton].
  destruct (ltb (qabs _) (Q2Qc (1 # 1000000000000))); [exact U|].
  destruct (ltb (qabs _) (Q2Qc (1 # 10000000))); [apply clamp_unit_unit|]. apply IH. apply clamp_unit_unit.
Qed.
Lemma seeds_unit : Forall unit_ seeds.
Proof. unfold seeds. repeat (constructor; [split; vm_compute; discriminate|]). constructor. Qed.
Definition found (start : point) (c : curve) (at_ : point) (b : option (Qc * Qc)) : Prop :=
  match b with Some (t, d) => unit_ t /\ d = distance_squared (point_at start c t) at_ | None => True end.
Lemma best_found : forall rounded start c at_ l b, Forall unit_ l -> found start c at_ b -> found start c at_ (best rounded start c at_ l b).
Proof.
  intros rounded start c at_ l. induction l as [|s l IH]; intros b U B; [exact B|]. inversion U as [|x y U1 U2]; subst.
  cbn [best]. apply IH; [exact U2|].
  assert (K : found start c at_ (Some (newton rounded 8 start c at_ s, distance_squared (point_at start c (newton rounded 8 start c at_ s)) at_)))
    by (split; [apply newton_unit; exact U1|reflexivity]).
  destruct b as [[t d]|]; [|exact K]. destruct (ltb _ d); [exact K|exact B].
Qed.
Lemma distance_dist2 : forall a b, distance_squared a b = dist2 a b.
Proof. intros. unfold distance_squared, dist2, psub. cbn [px py Qcpower]. ring. Qed.
Lemma place : forall rounded start c at_ tol t, t_at rounded start c at_ tol = Some t -> unit_ t /\ dist2 (bezier start c t) at_ <= tol.
Proof.
  intros rounded start c at_ tol t.
  assert (G : forall b, found start c at_ b -> match b with Some (t, d) => if ltb tol d then None else Some t | None => None end = Some t -> unit_ t /\ dist2 (bezier start c t) at_ <= tol).
  { intros [[t' d]|] B H; [|discriminate]. destruct (ltb tol d) eqn:L; [discriminate|]. injection H as <-.
    destruct B as [U E]. split; [exact U|]. rewrite <- point_at_bezier, <- distance_dist2, <- E. exact (proj1 (ltb_false _ _) L). }
  assert (K : Forall unit_ seeds) by exact seeds_unit. unfold t_at. revert K. generalize seeds. intros l K. apply G. apply best_found; [exact K|exact Logic.I].
Qed.

(** ** Quadratic curves *)
Lemma two_thirds_eq : two_thirds * Q2Qc 3 = 1 + 1.
Proof. apply Qc_is_canon. vm_compute. reflexivity. Qed.
Lemma three_nz : Q2Qc 3 <> 0.
Proof. intros H. apply (f_equal this) in H. vm_compute in H. discriminate. Qed.
Lemma quad_coord : forall k w a q e t : Qc, k * w = 1 + 1 -> w = 1 + 1 + 1 ->
  (1 - t) * ((1 - t) * ((1 - t) * 1)) * a + w * ((1 - t) * ((1 - t) * 1)) * t * (a + (q - a) * k) + w * (1 - t) * (t * (t * 1)) * (e + (q - e) * k) + t * (t * (t * 1)) * e =
  (1 - t) * ((1 - t) * 1) * a + (1 + 1) * (1 - t) * t * q + t * (t * 1) * e.
Proof.
  intros k w a q e t E W.
  transitivity ((1 - t) * (1 - t) * (1 - t) * a + w * ((1 - t) * (1 - t) * t * a + (1 - t) * t * t * e) + (k * w) * ((1 - t) * (1 - t) * t * (q - a) + (1 - t) * t * t * (q - e)) + t * t * t * e); [ring|].
  rewrite E, W. ring.
Qed.
Lemma quad_points : forall q start e t, bezier start (new_quad_curve q start e) t = quadratic start q e t.
Proof.
  intros [qx qy] [sx sy] [ex ey] t. unfold bezier, quadratic, cubic, square, new_quad_curve, padd, pmul, psub. cbn [px py start_control end_control curve_end Qcpower].
  rewrite two. f_equal; apply quad_coord; first [exact two_thirds_eq|exact three].
Qed.
Lemma half_third : two_thirds * one_half = 1.
Proof. apply Qc_is_canon. vm_compute. reflexivity. Qed.
Lemma quad_back : forall q start e, quad_control_unchecked start (new_quad_curve q start e) = q.
Proof.
  intros [qx qy] [sx sy] [ex ey]. unfold quad_control_unchecked, new_quad_curve, padd, pmul, psub. cbn [px py start_control].
  f_equal; [transitivity (sx + (qx - sx) * (two_thirds * one_half)); [ring|]|transitivity (sy + (qy - sy) * (two_thirds * one_half)); [ring|]]; rewrite half_third; ring.
Qed.
Lemma quad_found : forall q start e tol, 0 < tol -> quad_control start (new_quad_curve q start e) tol = Some q.
Proof.
  intros q start e tol T. unfold quad_control. rewrite quad_back.
  assert (Z : distance_squared q (padd (curve_end (new_quad_curve q start e)) (pmul (psub (end_control (new_quad_curve q start e)) (curve_end (new_quad_curve q start e))) one_half)) = 0).
  { destruct q as [qx qy], e as [ex ey]. unfold new_quad_curve, distance_squared, padd, pmul, psub. cbn [px py end_control curve_end].
    replace ((ex + (qx - ex) * two_thirds - ex) * one_half) with ((qx - ex) * (two_thirds * one_half)) by ring.
    replace ((ey + (qy - ey) * two_thirds - ey) * one_half) with ((qy - ey) * (two_thirds * one_half)) by ring. rewrite half_third. ring. }
  rewrite Z. rewrite (proj2 (ltb_true 0 tol)); [reflexivity|exact T].
Qed.
(** How far from a quadratic curve a curve is that passes for one. *)
Lemma quad_coord_diff : forall k w h a b c e t : Qc, k * w = 1 + 1 -> w = 1 + 1 + 1 -> k * h = 1 ->
  (1 - t) * ((1 - t) * ((1 - t) * 1)) * a + w * ((1 - t) * ((1 - t) * 1)) * t * b + w * (1 - t) * (t * (t * 1)) * c + t * (t * (t * 1)) * e -
  ((1 - t) * ((1 - t) * 1) * a + (1 + 1) * (1 - t) * t * (a + (b - a) * h) + t * (t * 1) * e) =
  - (w * (1 - t) * (t * (t * 1)) * k) * (a + (b - a) * h - (e + (c - e) * h)).
Proof.
  intros k w h a b c e t E W H.
  assert (X : c = e + (c - e) * (k * h)) by (rewrite H; ring). assert (Y : b = a + (b - a) * (k * h)) by (rewrite H; ring).
  set (x := (c - e) * h) in *. set (y := (b - a) * h) in *.
  assert (X' : c = e + k * x) by (rewrite X at 1; unfold x; ring). assert (Y' : b = a + k * y) by (rewrite Y at 1; unfold y; ring).
  clearbody x y. rewrite X', Y'.
  transitivity ((1 - t) * (1 - t) * (1 - t) * a + w * ((1 - t) * (1 - t) * t * a + (1 - t) * t * t * e) + (k * w) * ((1 - t) * (1 - t) * t * y + (1 - t) * t * t * x) + t * t * t * e - ((1 - t) * (1 - t) * a + (1 + 1) * (1 - t) * t * (a + y) + t * t * e)); [ring|].
  transitivity (- (k * w) * ((1 - t) * (t * t)) * (a + y - (e + x))); [rewrite E, W; ring|ring].
Qed.
Lemma quad_diff : forall start c t, let q := quad_control_unchecked start c in
  dist2 (bezier start c t) (quadratic start q (curve_end c) t) =
  (Q2Qc 3 * (1 - t) * t ^ 2 * two_thirds) ^ 2 * distance_squared q (padd (curve_end c) (pmul (psub (end_control c) (curve_end c)) one_half)).
Proof.
  intros [sx sy] [[ax ay] [bx by_] [ex ey]] t. cbn zeta. unfold dist2, bezier, quadratic, cubic, square, quad_control_unchecked, distance_squared, padd, pmul, psub.
  cbn [px py start_control end_control curve_end Qcpower]. rewrite two.
  rewrite (quad_coord_diff two_thirds (Q2Qc 3) one_half sx ax bx ex t two_thirds_eq three half_third).
  rewrite (quad_coord_diff two_thirds (Q2Qc 3) one_half sy ay by_ ey t two_thirds_eq three half_third).
  generalize (Q2Qc 3) two_thirds one_half. intros w k h. ring.
Qed.
Lemma bump : forall t : Q, (0 <= t)%Q -> (t <= 1)%Q -> (0 <= 3 * (1 - t) * (t * t))%Q /\ (3 * (1 - t) * (t * t) <= 4 # 9)%Q.
Proof.
  intros t A B. split; [apply Qmult_le_0_compat; [lra|nra]|].
  assert (K : ((4 # 9) - 3 * (1 - t) * (t * t) == 3 * ((t - (2 # 3)) * (t - (2 # 3))) * (t + (1 # 3)))%Q) by ring.
  assert (Y : (0 <= 3 * ((t - (2 # 3)) * (t - (2 # 3))) * (t + (1 # 3)))%Q) by (apply Qmult_le_0_compat; [assert (W : forall x : Q, (0 <= 3 * (x * x))%Q) by (intros; nra); apply W|lra]). lra.
Qed.
Lemma dist_nonneg : forall a b, (0 <= this (distance_squared a b))%Q.
Proof. intros [ax ay] [bx by_]. unfold distance_squared, psub. cbn [px py]. rewrite this_plus, !this_mult. assert (H : forall x : Q, (0 <= x * x)%Q) by (intros; nra). pose proof (H (this (ax - bx))). pose proof (H (this (ay - by_))). lra. Qed.
Lemma quad_near : forall start c tol q t, quad_control start c tol = Some q -> unit_ t ->
  dist2 (bezier start c t) (quadratic start q (curve_end c) t) <= Q2Qc (64 # 729) * tol.
Proof.
  intros start c tol q t H [A B]. unfold quad_control in H. destruct (ltb _ tol) eqn:L; [|discriminate]. injection H as <-.
  apply ltb_true in L. rewrite quad_diff. set (d := distance_squared _ _) in *. pose proof (dist_nonneg (quad_control_unchecked start c) (padd (curve_end c) (pmul (psub (end_control c) (curve_end c)) one_half))) as D. fold d in D.
  unfold Qcle in *. change (this 0) with 0%Q in A. change (this 1) with 1%Q in B. destruct (bump (this t) A B) as [X Y].
  assert (E : (this ((Q2Qc 3 * (1 - t) * t ^ 2 * two_thirds) ^ 2 * d) == (3 * (1 - this t) * (this t * this t)) * (3 * (1 - this t) * (this t * this t)) * (4 # 9) * this d)%Q).
  { unfold Qcpower. rewrite ?this_mult, ?this_minus. change (this 1) with 1%Q. change (this (Q2Qc 3)) with 3%Q. change (this two_thirds) with (2 # 3)%Q. ring. }
  rewrite E. rewrite this_mult. change (this (Q2Qc (64 # 729))) with (64 # 729)%Q. set (u := (3 * (1 - this t) * (this t * this t))%Q) in *.
  assert (U : (u * u <= (16 # 81))%Q) by nra. assert (0 <= u * u)%Q by nra. assert (V : (u * u * (4 # 9) * this d <= (16 # 81) * (4 # 9) * this d)%Q) by nra. nra.
Qed.
