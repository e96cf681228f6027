From Coq Require Import Reals ZArith Bool Lra.
From Verif Require Import EllipseModel ArcModel ArcSpec ArcProofs SagittaModel SagittaSpec SagittaProofs SagittaProofs2 SagittaProofs3.
Open Scope R_scope.

Theorem C126_height_partial : forall fuel n smart a from tol r h y, proper a -> radii a = P r r -> Rabs (sweep_angle a) <= PI -> 0 < tol ->
  tol * tol <= 2 * (r * r) * ((1 - sin (Rabs (sweep_angle a) / 2)) * (1 - sin (Rabs (sweep_angle a) / 2))) ->
  4 * (h * h) = distance_squared (end_point a) from -> top r h false y ->
  exists r' e e' y', to_svg_arc fuel (S n) smart a from tol (10 ^ n) = Some (r', r', e, e') /\ top r' h false y' /\ Rabs (y - y') < tol.
Proof. exact svg_height. Qed.
Print Assumptions C126_height_partial.
Theorem C126_height_refuted : exists n r r' bx by_ tol h y y', 0 < tol /\ 0 < r /\ 4 * (h * h) = bx * bx + by_ * by_ /\
  smart_radii (S n) true (10 ^ n) 1 bx by_ tol r r = Some (r', r') /\ top r h true y /\ top r' h true y' /\ 400 * tol <= Rabs (y - y').
Proof. exact large_moved. Qed.
Print Assumptions C126_height_refuted.
Theorem C126_ends : forall fuel n smart a from tol c, to_arc_to fuel a tol (10 ^ n) = c -> (c <> Endless /\ c <> Unfinished) -> 0 < px (radii a) -> 0 < py (radii a) ->
  let p := 10 ^ n in let q := end_point a in
  exists nx ny e e', to_svg_arc fuel (S n) smart a from tol p = Some (nx, ny, e, e') /\
    ((px e <> 0 \/ py e <> 0) /\ whole_units p (px e) /\ whole_units p (py e) /\ within (3 / 2) p (px e) (px q - px from) /\ within (3 / 2) p (py e) (py q - py from) /\
     (1 / 2 / p < Rabs (px q - px from) \/ 1 / 2 / p < Rabs (py q - py from) -> within (1 / 2) p (px e) (px q - px from) /\ within (1 / 2) p (py e) (py q - py from))) /\
    (whole_units p (px from) -> whole_units p (py from) ->
     (px e' <> px from \/ py e' <> py from) /\ whole_units p (px e') /\ whole_units p (py e') /\ within (3 / 2) p (px e') (px q) /\ within (3 / 2) p (py e') (py q) /\
     (1 / 2 / p < Rabs (px q - px from) \/ 1 / 2 / p < Rabs (py q - py from) -> within (1 / 2) p (px e') (px q) /\ within (1 / 2) p (py e') (py q))).
Proof. exact svg_ends. Qed.
Print Assumptions C126_ends.
Theorem C126_direction : forall fuel n smart a from tol c p q, to_arc_to fuel a tol (10 ^ n) = c -> (c <> Endless /\ c <> Unfinished) -> proper a -> Rabs (sweep_angle a) <> PI ->
  on (center a) (radii a) (x_rotation a) (start_angle a) p -> on (center a) (radii a) (x_rotation a) (start_angle a + sweep_angle a) q ->
  Rabs (px (end_point a) - px from) < 1 / 2 / 10 ^ n -> Rabs (py (end_point a) - py from) < 1 / 2 / 10 ^ n ->
  exists nx ny e e' d, to_svg_arc fuel (S n) smart a from tol (10 ^ n) = Some (nx, ny, e, e') /\
    px d * px d + py d * py d = 1 /\ leads a d p q /\ within (1 / 2) (10 ^ n) (px e) (px d / 10 ^ n) /\ within (1 / 2) (10 ^ n) (py e) (py d / 10 ^ n).
Proof. exact svg_direction. Qed.
Print Assumptions C126_direction.
(** A sixth of a circle meets what is asked. *)
Example C126_proper : proper sixth. Proof. exact sixth_proper. Qed.
Example C126_fine : 1 / 100 * (1 / 100) <= 2 * (1 * 1) * ((1 - sin (Rabs (sweep_angle sixth) / 2)) * (1 - sin (Rabs (sweep_angle sixth) / 2))). Proof. exact sixth_fine. Qed.
Example C126_written : forall fuel, to_arc_to fuel sixth (1 / 100) 100 = Command 1 1 (0 * 180 / PI) (large_flag sixth) (sweep_flag sixth) (end_point sixth).
Proof. intros fuel. apply (written_radii fuel sixth); [exact sixth_proper|]. apply (Rle_trans _ _ _ sixth_fine). cbn [radii sixth px py]. lra. Qed.
Example C126_near : Rabs (px (end_point sixth) - px (P (4 / 10) (8 / 10))) < 1 / 2 / 10 ^ 0 /\ Rabs (py (end_point sixth) - py (P (4 / 10) (8 / 10))) < 1 / 2 / 10 ^ 0. Proof. exact sixth_near. Qed.
Example C126_top : top 5 3 false 1. Proof. exists (-4). split; [ring|]. split; ring || lra. Qed.
