(** Model of when arcs count as straight and how neighbouring arcs are joined: crates/oxvg_path/src/geometry/arc.rs:497-582, 698-707 and
    crates/oxvg_path/src/paths/segment/simplify.rs:85-89, 293-341.  Simplifications: those of ArcModel; the length of an arc (simplify.rs:298-299) is any function;
    builds without debug assertions. *)
From Coq Require Import Reals ZArith Bool List.
From Verif Require Import EllipseModel ArcModel.
Import ListNotations.
Open Scope R_scope.

(** [Point::cross] (crates/oxvg_path/src/geometry/point.rs:581-584). *)
Definition cross (a b c : point) : R := (px b - px a) * (py c - py a) - (py b - py a) * (px c - px a).
(** [Point::distance] (crates/oxvg_path/src/geometry/point.rs:376-378). *)
Definition distance (p q : point) : R := sqrt (distance_squared p q).
(** [mid_point] (arc.rs:149-151). *)
Definition mid_point (a : arc) : point := point_at_angle a (start_angle a + sweep_angle a * (1 / 2)).
(** [is_straight] (arc.rs:698-707). *)
Definition is_straight (a : arc) (positional : R) : bool :=
  (less (px (radii a)) positional || less (py (radii a)) positional
   || less (Rabs (cross (start_point a) (end_point a) (mid_point a)) / Rmax (distance (start_point a) (end_point a)) 1) positional)%bool.

(** [f64::signum], which is 1 for 0 (arc.rs:504). *)
Definition signum (x : R) : R := if less x 0 then -1 else 1.
(** [tangent_t] (arc.rs:497-508). *)
Definition tangent_t (a : arc) (t : R) : point :=
  let angle := start_angle a + t * sweep_angle a in
  let rotated := rotate_radian (P (- px (radii a) * sin angle) (py (radii a) * cos angle)) (x_rotation a) in
  let len := sqrt (px rotated * px rotated + py rotated * py rotated) in
  if less (1 / 1000000000000) len then P (px rotated * (signum (sweep_angle a) / len)) (py rotated * (signum (sweep_angle a) / len)) else P 0 0.
(** [Point::angle_radians] (crates/oxvg_path/src/geometry/point.rs:288-290). *)
Definition angle_radians (p : point) : R := atan2 (py p) (px p).
(** The part of [is_connected] that looks at the ends (arc.rs:516-541). *)
Definition is_invariant_broken (a b : arc) : bool :=
  let self_chord_sq := distance_squared (start_point a) (end_point a) in
  let other_chord_sq := distance_squared (start_point b) (end_point b) in
  if less self_chord_sq other_chord_sq then
    let scale := (px (radii a) + py (radii a)) / Rmax (px (radii b) + py (radii b)) (1 / 1000000000) in
    less (1 / 100) (distance_squared (point_at_angle b (start_angle b - sweep_angle a * scale)) (start_point a))
  else
    let scale := (px (radii b) + py (radii b)) / Rmax (px (radii a) + py (radii a)) (1 / 1000000000) in
    less (1 / 100) (distance_squared (point_at_angle a (start_angle a + sweep_angle a + sweep_angle b * scale)) (end_point b)).
(** [min_sweep] and the scaled tolerance (arc.rs:548-550); [None] is infinity. *)
Definition tolerance_scaled (a b : arc) (positional : R) : option R :=
  let min_sweep := Rmin (Rabs (sweep_angle a)) (Rabs (sweep_angle b)) in
  if same min_sweep 0 then None
  else Some (positional * positional * Rmax (/ min_sweep) (40 * sqrt (px (radii a) * px (radii a) + py (radii a) * py (radii a)))).
(** A comparison with it (arc.rs:551-552). *)
Definition below (x : R) (y : option R) : bool := match y with Some y => less x y | None => true end.
(** Case 1 (arc.rs:547-560). *)
Definition is_similar (a b : arc) (positional angular : R) : bool :=
  (below (distance_squared (center a) (center b)) (tolerance_scaled a b positional)
   && below (distance_squared (radii a) (radii b)) (tolerance_scaled a b positional)
   && (less (Rabs (px (radii a) - py (radii a))) (positional * positional) || less (Rabs (x_rotation a - x_rotation b)) angular))%bool.
(** [is_connected] (arc.rs:510-582). *)
Definition is_connected (a b : arc) (positional angular : R) : bool :=
  if is_invariant_broken a b then false else
  if is_similar a b positional angular then true else
  let lenient := positional * 30 in
  let turn := Rabs (angle_radians (tangent_t a 1) - angle_radians (tangent_t b 0)) in
  let tiny (a : arc) := (less (Rabs (sweep_angle a)) (PI / 8) && less (distance_squared (start_point a) (end_point a)) lenient)%bool in
  if ((tiny a || tiny b) && less turn (angular * 80))%bool then true else
  (less (distance_squared (center a) (center b)) lenient && less (distance_squared (radii a) (radii b)) lenient && less turn (Rmin (angular * 8) 100))%bool.

(** [set_radii] (arc.rs:89-92) and [set_end_point_memo] (arc.rs:202-213). *)
Definition set_radii (a : arc) (r : point) : arc := Arc (center a) r (start_angle a) (sweep_angle a) (x_rotation a) None.
(** arc.rs:202-213. *)
Definition set_end_point_memo (a : arc) (p : point) : arc := Arc (center a) (radii a) (start_angle a) (sweep_angle a) (x_rotation a) (Some p).
(** [is_circle] (arc.rs:457-459; crates/oxvg_path/src/geometry/ellipses.rs:63-65). *)
Definition is_circle (a : arc) (positional : R) : bool := less (Rabs (px (radii a) - py (radii a))) positional.
(** The radius of a circle is that to its ends (simplify.rs:306-311, 321-326). *)
Definition refit (a : arc) (positional : R) (start finish : point) : arc :=
  if is_circle a positional then let r := (distance (center a) start + distance (center a) finish) / 2 in set_radii a (P r r) else a.
(** [midpoint] of the radii (simplify.rs:300-301). *)
Definition mean_radius (a : arc) : R := (px (radii a) + py (radii a)) / 2.

Section Join.
  Variable len : arc -> R.
  (** The longer arc takes the other in (simplify.rs:302-329). *)
  Definition merge (positional : R) (start : point) (previous current : arc) : arc :=
    if less (len previous) (len current) then
      let converted := sweep_angle previous * (mean_radius previous / Rmax (mean_radius current) (1 / 1000000000)) in
      let c := with_angles current (start_angle current - converted) (sweep_angle current + converted) in
      set_end_point_memo (refit c positional start (end_point current)) (end_point current)
    else
      let converted := sweep_angle current * (mean_radius current / Rmax (mean_radius previous) (1 / 1000000000)) in
      let p := with_angles previous (start_angle previous) (sweep_angle previous + converted) in
      set_end_point_memo (refit p positional start (end_point current)) (end_point current).
  (** Equality of points (simplify.rs:331). *)
  Definition same_point (p q : point) : bool := (same (px p) (px q) && same (py p) (py q))%bool.
  (** What two arcs are replaced with, if anything (simplify.rs:293-341): whole turns are two halves. *)
  Definition join (positional angular : R) (start : point) (previous current : arc) : option (list arc) :=
    if is_connected previous current positional angular then
      let m := merge positional start previous current in
      if (less (2 * PI - angular) (Rabs (sweep_angle m)) || same_point (end_point m) start)%bool then
        let delta := signum (sweep_angle m) * PI in
        let half := with_angles m (start_angle m) delta in
        let next := set_end_point_memo (with_angles half (start_angle half + delta) delta) (end_point current) in
        Some [set_end_point_memo half (end_point half); next]
      else Some [m]
    else None.
End Join.
