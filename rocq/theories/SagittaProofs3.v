From Coq Require Import Reals ZArith Bool Lra Lia.
From Verif Require Import EllipseModel ArcModel ArcSpec ArcProofs ArcProofs2 ArcProofs3 SagittaModel SagittaSpec SagittaProofs SagittaProofs2.
Open Scope R_scope.

Lemma written_radii fuel a positional precision : proper a ->
  positional * positional <= (px (radii a) * px (radii a) + py (radii a) * py (radii a)) * ((1 - sin (Rabs (sweep_angle a) / 2)) * (1 - sin (Rabs (sweep_angle a) / 2))) ->
  to_arc_to fuel a positional precision = Command (px (radii a)) (py (radii a)) (x_rotation a * 180 / PI) (large_flag a) (sweep_flag a) (end_point a).
Proof. intros H L. unfold to_arc_to. rewrite (not_more a H), (limit_at a H), (proj2 (less_false _ _) L). reflexivity. Qed.
Lemma svg_height fuel n smart a from tol r h y : proper a -> radii a = P r r -> Rabs (sweep_angle a) <= PI -> 0 < tol -> tol * tol <= 2 * (r * r) * ((1 - sin (Rabs (sweep_angle a) / 2)) * (1 - sin (Rabs (sweep_angle a) / 2))) ->
  4 * (h * h) = distance_squared (end_point a) from -> top r h false y ->
  exists r' e e' y', to_svg_arc fuel (S n) smart a from tol (10 ^ n) = Some (r', r', e, e') /\ top r' h false y' /\ Rabs (y - y') < tol.
Proof.
  intros H R S T L D Y. unfold to_svg_arc. rewrite written_radii; [|exact H|rewrite R; cbn [px py]; replace (r * r + r * r) with (2 * (r * r)) by lra; exact L].
  assert (R0 : 0 < r) by (destruct H as (A & _); rewrite R in A; exact A). rewrite R. cbn [px py]. unfold large_flag. rewrite (proj2 (less_false PI (Rabs (sweep_angle a))) S).
  destruct (smart_height n smart (px (end_point a) - px from) (py (end_point a) - py from) tol r y h T R0) as (r' & y' & E & Y' & C); [rewrite D; unfold distance_squared; try ring|exact Y|].
  rewrite E. exists r', (end_by (10 ^ n) a from), (end_to (10 ^ n) a from), y'. split; [reflexivity|]. split; assumption.
Qed.
Lemma svg_ends fuel n smart a from tol c : to_arc_to fuel a tol (10 ^ n) = c -> (c <> Endless /\ c <> Unfinished) -> 0 < px (radii a) -> 0 < py (radii a) ->
  let p := 10 ^ n in let q := end_point a in
  exists nx ny e e', to_svg_arc fuel (S n) smart a from tol p = Some (nx, ny, e, e') /\
    ((px e <> 0 \/ py e <> 0) /\ whole_units p (px e) /\ whole_units p (py e) /\ within (3 / 2) p (px e) (px q - px from) /\ within (3 / 2) p (py e) (py q - py from) /\
     (1 / 2 / p < Rabs (px q - px from) \/ 1 / 2 / p < Rabs (py q - py from) -> within (1 / 2) p (px e) (px q - px from) /\ within (1 / 2) p (py e) (py q - py from))) /\
    (whole_units p (px from) -> whole_units p (py from) ->
     (px e' <> px from \/ py e' <> py from) /\ whole_units p (px e') /\ whole_units p (py e') /\ within (3 / 2) p (px e') (px q) /\ within (3 / 2) p (py e') (py q) /\
     (1 / 2 / p < Rabs (px q - px from) \/ 1 / 2 / p < Rabs (py q - py from) -> within (1 / 2) p (px e') (px q) /\ within (1 / 2) p (py e') (py q))).
Proof.
  intros E [N1 N2] A B. cbv zeta. unfold to_svg_arc. rewrite E. destruct c as [rx ry dg lg sw to| |]; [|congruence|congruence].
  assert (P0 : 0 < 10 ^ n) by (apply pow_lt; lra).
  destruct (smart_ends n smart lg (px (end_point a) - px from) (py (end_point a) - py from) tol rx ry) as ((nx & ny) & ->).
  exists nx, ny, (end_by (10 ^ n) a from), (end_to (10 ^ n) a from). split; [reflexivity|]. split; [apply relative; assumption|]. intros FX FY. apply absolute; assumption.
Qed.
Lemma svg_direction fuel n smart a from tol c p q : to_arc_to fuel a tol (10 ^ n) = c -> (c <> Endless /\ c <> Unfinished) -> proper a -> Rabs (sweep_angle a) <> PI ->
  on (center a) (radii a) (x_rotation a) (start_angle a) p -> on (center a) (radii a) (x_rotation a) (start_angle a + sweep_angle a) q ->
  Rabs (px (end_point a) - px from) < 1 / 2 / 10 ^ n -> Rabs (py (end_point a) - py from) < 1 / 2 / 10 ^ n ->
  exists nx ny e e' d, to_svg_arc fuel (S n) smart a from tol (10 ^ n) = Some (nx, ny, e, e') /\
    px d * px d + py d * py d = 1 /\ leads a d p q /\ within (1 / 2) (10 ^ n) (px e) (px d / 10 ^ n) /\ within (1 / 2) (10 ^ n) (py e) (py d / 10 ^ n).
Proof.
  intros E C (A & B & S & K) N HP HQ X Y. destruct (svg_ends fuel n smart a from tol c E C A B) as (nx & ny & e & e' & V & _).
  assert (EE : e = end_by (10 ^ n) a from). { unfold to_svg_arc in V. destruct (to_arc_to _ _ _ _); try discriminate. destruct (smart_radii _ _ _ _ _ _ _ _ _) as [(? & ?)|]; [|discriminate]. injection V as _ _ <- _. reflexivity. }
  destruct (direction (10 ^ n) a from p q) as (d & D1 & D2 & D3 & D4); try assumption; [apply pow_lt; lra|]. exists nx, ny, e, e', d. rewrite EE at 2 3. split; [exact V|]. split; [exact D1|]. split; [exact D2|]. split; assumption.
Qed.

(** A sixth of a circle. *)
Definition sixth : arc := Arc (P 0 0) (P 1 1) 0 (PI / 3) 0 None.
Lemma sixth_proper : proper sixth.
Proof. unfold proper, kept, sixth. cbn. assert (G := PI_RGT_0). rewrite Rabs_right by lra. split; [lra|]. split; [lra|]. split; [lra|]. intros p D. discriminate. Qed.
Lemma sixth_fine : 1 / 100 * (1 / 100) <= 2 * (1 * 1) * ((1 - sin (Rabs (sweep_angle sixth) / 2)) * (1 - sin (Rabs (sweep_angle sixth) / 2))).
Proof. cbn [sweep_angle sixth]. assert (G := PI_RGT_0). rewrite Rabs_right by lra. replace (PI / 3 / 2) with (PI / 6) by field. rewrite sin_PI6. lra. Qed.
(** The end of the sixth is less than half a unit away from a point near it. *)
Lemma sixth_near : Rabs (px (end_point sixth) - px (P (4 / 10) (8 / 10))) < 1 / 2 / 10 ^ 0 /\ Rabs (py (end_point sixth) - py (P (4 / 10) (8 / 10))) < 1 / 2 / 10 ^ 0.
Proof.
  unfold end_point, sixth, point_at_angle. cbn. rewrite ?Rplus_0_l, ?cos_0, ?sin_0, ?cos_PI3, ?sin_PI3. assert (Q : 17 / 10 <= sqrt 3 <= 18 / 10) by (split; [rewrite <- (sqrt_square (17 / 10)) by lra|rewrite <- (sqrt_square (18 / 10)) by lra]; apply sqrt_le_1_alt; lra).
  split; unfold Rabs; destruct (Rcase_abs _); lra.
Qed.
