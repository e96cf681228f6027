(** What is asked of a written arc, apart from the model's functions. *)
From Coq Require Import Reals ZArith.
From Verif Require Import ArcModel.
Open Scope R_scope.

(** The highest point above its chord, which goes from [-h,0] to [h,0], of an arc of a circle with radius [r]: the centre is on the line in the middle, above the
    chord if the arc is the larger one. *)
Definition top (r h : R) (large : bool) (y : R) : Prop :=
  exists k, k * k + h * h = r * r /\ (if large then 0 <= k else k <= 0) /\ y = k + r.
(** A number is a whole number of units. *)
Definition whole_units (precision x : R) : Prop := exists z, x = IZR z / precision.
(** Two numbers differ by no more than so many units. *)
Definition within (units precision x y : R) : Prop := Rabs (x - y) <= units / precision.
(** A direction, in units of the radii of an arc, leads to the side of the start where the end is. *)
Definition leads (a : arc) (d p q : point) : Prop :=
  let phi := x_rotation a in
  let cx := px q - px p in
  let cy := py q - py p in
  0 < (cos phi * px d + sin phi * py d) * (cos phi * cx + sin phi * cy) / (px (radii a) * px (radii a))
      + (cos phi * py d - sin phi * px d) * (cos phi * cy - sin phi * cx) / (py (radii a) * py (radii a)).
