From Coq Require Import Reals ZArith Bool Lra.
From Verif Require Import EllipseModel ArcModel ArcSpec ArcProofs ArcProofs2 ArcProofs3 ArcProofs4.
Open Scope R_scope.

Theorem C120_parsed_partial : forall rx ry degrees large sweep from to,
  1 / 100000 <= Rabs rx -> 1 / 100000 <= Rabs ry -> from <> to ->
  exists a, from_arc_to rx ry degrees (flag_value large) (flag_value sweep) to from = Some a /\ arc_of rx ry (degrees * PI / 180) large sweep from to a /\ kept a.
Proof. exact parsed. Qed.
Print Assumptions C120_parsed_partial.
Theorem C120_tiny_refuted : exists rx ry from to a p,
  0 < rx /\ 0 < ry /\ from <> to /\ arc_of rx ry 0 false true from to a /\ halfway a p /\ py from = 0 /\ py to = 0 /\ apart (9 / 10) p (P (px p) 0) /\ from_arc_to rx ry 0 0 1 to from = None.
Proof. exact tiny. Qed.
Print Assumptions C120_tiny_refuted.
Theorem C120_parts : forall a t, reparametrised a (fst (subdivide_t a t)) (fun s => t * s) /\ reparametrised a (snd (subdivide_t a t)) (fun s => t + (1 - t) * s).
Proof. exact parts. Qed.
Print Assumptions C120_parts.
Theorem C120_clamped : forall a t1 t2, reparametrised a (clamp_t a t1 t2) (fun s => t1 + (t2 - t1) * s).
Proof. exact clamped. Qed.
Print Assumptions C120_clamped.
Theorem C120_reversed : forall a, reparametrised a (reverse a) (fun s => 1 - s).
Proof. exact reversed. Qed.
Print Assumptions C120_reversed.
Theorem C120_kept : forall a t t1 t2, kept (fst (subdivide_t a t)) /\ kept (snd (subdivide_t a t)) /\ kept (clamp_t a t1 t2) /\ kept (reverse a).
Proof. exact parts_kept. Qed.
Print Assumptions C120_kept.
Theorem C120_ends : forall a, kept a ->
  on (center a) (radii a) (x_rotation a) (start_angle a) (start_point a) /\ on (center a) (radii a) (x_rotation a) (start_angle a + sweep_angle a) (end_point a).
Proof. exact ends. Qed.
Print Assumptions C120_ends.
Theorem C120_place_sound : forall a p tol t, t_at a p tol = Some t ->
  unit_ t /\ exists q, on (center a) (radii a) (x_rotation a) (start_angle a + sweep_angle a * t) q /\
    (px p - px q) * (px p - px q) + (py p - py q) * (py p - py q) <= tol * (1 + Rmax (px (radii a)) (py (radii a)) ^ 2).
Proof. exact place_sound. Qed.
Print Assumptions C120_place_sound.
Theorem C120_place_complete : forall a p tol t, 0 < px (radii a) -> 0 < py (radii a) -> Rabs (sweep_angle a) <= 2 * PI -> 0 <= tol -> unit_ t ->
  on (center a) (radii a) (x_rotation a) (start_angle a + sweep_angle a * t) p ->
  exists t', t_at a p tol = Some t' /\ unit_ t' /\ on (center a) (radii a) (x_rotation a) (start_angle a + sweep_angle a * t') p /\ (0 < Rabs (sweep_angle a) < 2 * PI -> t' = t).
Proof. exact place_complete. Qed.
Print Assumptions C120_place_complete.
(** The hypotheses hold of an arc of a command: half a circle above a line, although the radii given are too small. *)
Example C120_command : arc_of (1 / 2) (1 / 2) 0 false true (P (-1) 0) (P 1 0) semicircle.
Proof. exact (semicircle_of (1 / 2) ltac:(lra)). Qed.
Example C120_halfway : halfway semicircle (P 0 (-1)).
Proof. unfold halfway, on, semicircle. cbn [center radii start_angle sweep_angle x_rotation px py]. rewrite cos_plus, sin_plus, cos_PI, sin_PI, cos_PI2, sin_PI2, cos_0, sin_0. split; ring. Qed.

Theorem C121_exact_partial : forall fuel a positional precision, proper a ->
  positional * positional <= (px (radii a) * px (radii a) + py (radii a) * py (radii a)) * ((1 - sin (Rabs (sweep_angle a) / 2)) * (1 - sin (Rabs (sweep_angle a) / 2))) ->
  drawn (to_arc_to fuel a positional precision) (start_point a) a /\ forall b, drawn (to_arc_to fuel a positional precision) (start_point a) b -> same_arc a b.
Proof. exact written_exact. Qed.
Print Assumptions C121_exact_partial.
Theorem C121_half_partial : forall a positional precision, proper a -> 0 < precision -> 1 / 2 <= px (radii a) * precision \/ 1 / 2 <= py (radii a) * precision ->
  (px (radii a) * px (radii a) + py (radii a) * py (radii a)) * ((1 - sin (Rabs (sweep_angle a) / 2)) * (1 - sin (Rabs (sweep_angle a) / 2))) < positional * positional ->
  exists n rx ry, 0 < rx /\ 0 < ry /\ forall fuel, (n <= fuel)%nat ->
    to_arc_to fuel a positional precision = Command rx ry (x_rotation a * 180 / PI) (large_flag a) (sweep_flag a) (end_point a) /\
    (exists b, drawn (to_arc_to fuel a positional precision) (start_point a) b) /\
    forall b, drawn (to_arc_to fuel a positional precision) (start_point a) b ->
      Rabs (sweep_angle b) = PI /\ (0 < sweep_angle b <-> 0 < sweep_angle a) /\ radii b = P (px (radii a) * sin (Rabs (sweep_angle a) / 2)) (py (radii a) * sin (Rabs (sweep_angle a) / 2)) /\ ~ apart positional (radii a) (radii b).
Proof. exact written_half. Qed.
Print Assumptions C121_half_partial.
Theorem C121_read : forall a, proper a -> 1 / 100000 <= px (radii a) -> 1 / 100000 <= py (radii a) ->
  exists b, from_arc_to (px (radii a)) (py (radii a)) (x_rotation a * 180 / PI) (large_flag a) (sweep_flag a) (end_point a) (start_point a) = Some b /\ same_arc a b /\ kept b /\ end_point b = end_point a.
Proof. exact read_back. Qed.
Print Assumptions C121_read.
Theorem C121_moved_refuted : exists a positional precision n p, proper a /\ 0 < positional /\ 0 < precision /\ halfway a p /\
  (forall fuel, (n <= fuel)%nat -> exists b, drawn (to_arc_to fuel a positional precision) (start_point a) b) /\
  forall fuel b q, (n <= fuel)%nat -> drawn (to_arc_to fuel a positional precision) (start_point a) b -> halfway b q -> apart (190 * positional) p q.
Proof. exact moved. Qed.
Print Assumptions C121_moved_refuted.
Theorem C121_endless_refuted : exists a positional precision, proper a /\ 0 < positional /\ 0 < precision /\ forall fuel, to_arc_to fuel a positional precision = Endless.
Proof. exact endless. Qed.
Print Assumptions C121_endless_refuted.
Example C121_proper : proper bow. Proof. exact bow_proper. Qed.
