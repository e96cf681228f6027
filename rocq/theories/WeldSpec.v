(** What is asked of arcs that are made straight or joined. *)
From Coq Require Import Reals ZArith List.
From Verif Require Import ArcModel ArcSpec.
Open Scope R_scope.

(** A point of an arc. *)
Definition on_arc (a : arc) (p : point) : Prop := exists t, unit_ t /\ on (center a) (radii a) (x_rotation a) (start_angle a + sweep_angle a * t) p.
(** A point is so near a line through two points: the area that they span is no more than the distance times the length. *)
Definition near_line (d : R) (p q x : point) : Prop :=
  Rabs ((px q - px p) * (py x - py p) - (py q - py p) * (px x - px p)) <= d * sqrt ((px q - px p) * (px q - px p) + (py q - py p) * (py q - py p)).
(** An arc goes on where the other ends, on the same ellipse. *)
Definition goes_on (a b : arc) : Prop :=
  center b = center a /\ radii b = radii a /\ x_rotation b = x_rotation a /\ exists k, start_angle b = start_angle a + sweep_angle a + IZR k * (2 * PI).
(** An arc that is a circle, or not nearly one. *)
Definition definite (a : arc) (positional : R) : Prop := px (radii a) = py (radii a) \/ positional <= Rabs (px (radii a) - py (radii a)).
(** A point of the straight line from a point to another. *)
Definition between (p q x : point) : Prop := exists u, unit_ u /\ px x = px p + u * (px q - px p) /\ py x = py p + u * (py q - py p).
