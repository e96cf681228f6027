(** What an arc is (SVG 2, 9.5.1). *)
From Coq Require Import Reals.
From Verif Require Import ArcModel.
Open Scope R_scope.

(** The point of an ellipse at an angle: the ellipse is turned by its rotation about its centre. *)
Definition on (c r : point) (phi t : R) (p : point) : Prop :=
  px p = px c + cos phi * (px r * cos t) - sin phi * (py r * sin t) /\ py p = py c + sin phi * (px r * cos t) + cos phi * (py r * sin t).
(** The arc of a command: it goes from a point to another on an ellipse with the radii, which are made larger in proportion only if no ellipse is large enough,
    and then as little as possible, so that the points are opposite; the way round and the larger part are as the flags say. *)
Definition arc_of (rx ry phi : R) (large sweep : bool) (from to : point) (a : arc) : Prop :=
  on (center a) (radii a) phi (start_angle a) from /\ on (center a) (radii a) phi (start_angle a + sweep_angle a) to /\
  (exists s, 1 <= s /\ px (radii a) = Rabs rx * s /\ py (radii a) = Rabs ry * s /\ (s = 1 \/ Rabs (sweep_angle a) = PI)) /\
  (if sweep then 0 < sweep_angle a < 2 * PI else - (2 * PI) < sweep_angle a < 0) /\
  (if large then PI <= Rabs (sweep_angle a) else Rabs (sweep_angle a) <= PI) /\
  x_rotation a = phi.
(** The end that is kept is the end. *)
Definition kept (a : arc) : Prop := forall p, memo a = Some p -> on (center a) (radii a) (x_rotation a) (start_angle a + sweep_angle a) p.
(** A part of an arc: the point at [s] of it is the point at [f s] of the arc. *)
Definition reparametrised (a b : arc) (f : R -> R) : Prop :=
  forall s p, on (center b) (radii b) (x_rotation b) (start_angle b + sweep_angle b * s) p <-> on (center a) (radii a) (x_rotation a) (start_angle a + sweep_angle a * f s) p.
Definition unit_ (t : R) : Prop := 0 <= t <= 1.
(** The same arc, where whole turns of where it starts are left aside. *)
Definition same_arc (a b : arc) : Prop :=
  center b = center a /\ radii b = radii a /\ sweep_angle b = sweep_angle a /\ x_rotation b = x_rotation a /\ exists k, start_angle b = start_angle a + IZR k * (2 * PI).
(** A proper arc: it has an ellipse, and less than a whole turn of it. *)
Definition proper (a : arc) : Prop := 0 < px (radii a) /\ 0 < py (radii a) /\ 0 < Rabs (sweep_angle a) < 2 * PI /\ kept a.
(** The flags of a command. *)
Definition flag_value (b : bool) : R := if b then 1 else 0.
(** The arcs of a command that starts at a point. *)
Definition drawn (w : written) (from : point) (a : arc) : Prop :=
  match w with
  | Command rx ry degrees large sweep to => exists l s, large = flag_value l /\ sweep = flag_value s /\ arc_of rx ry (degrees * PI / 180) l s from to a
  | _ => False
  end.
(** Two points are further apart than a distance. *)
Definition apart (d : R) (p q : point) : Prop := d * d < (px p - px q) * (px p - px q) + (py p - py q) * (py p - py q).
(** The point halfway. *)
Definition halfway (a : arc) (p : point) : Prop := on (center a) (radii a) (x_rotation a) (start_angle a + sweep_angle a / 2) p.
