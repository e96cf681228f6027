(** Model of the last step of writing an arc: crates/oxvg_path/src/paths/segment/convert.rs:474-536, 588-612 (lines without a file are of this one), with
    crates/oxvg_path/src/math.rs:13-28.  Simplifications: those of ArcModel; the choice between the two commands and their rounding (538-576) are those of C17. *)
From Coq Require Import Reals ZArith Bool.
From Verif Require Import EllipseModel ArcModel.
Open Scope R_scope.

(** [TolerancePrecision::round] (crates/oxvg_path/src/geometry.rs:92-104). *)
Definition round_to (precision x : R) : R := IZR (round (x * precision)) / precision.
(** [saggita] (crates/oxvg_path/src/math.rs:13-28) of an arc with radii, flag, and chord. *)
Definition saggita (rx ry large bx by_ error : R) : option R :=
  if less error (Rabs (rx - ry)) then None else
  let chord_squared := bx * bx + by_ * by_ in
  if less ((rx * 2) ^ 2) chord_squared then None else
  let s := rx - sqrt (rx * rx - 1 / 4 * chord_squared) in
  if same large 1 then Some (Rmin (2 * rx - s) rx) else Some s.
(** The loop over the precisions (495-508); [None] when there is not enough fuel. *)
Fixpoint coarser (fuel : nat) (p s large bx by_ tolerance rx ry : R) {struct fuel} : option (R * R) :=
  if less p 1 then Some (rx, ry) else
  match fuel with
  | O => None
  | S fuel =>
    let nx := round_to p rx in
    let ny := round_to p ry in
    match saggita nx ny large bx by_ tolerance with
    | None => Some (rx, ry)
    | Some n => if less (Rabs (s - n)) tolerance then coarser fuel (p / 10) s large bx by_ tolerance nx ny else Some (rx, ry)
    end
  end.
(** The radii that are written (491-511). *)
Definition smart_radii (fuel : nat) (smart : bool) (precision large bx by_ tolerance rx ry : R) : option (R * R) :=
  if smart then
    match saggita rx ry large bx by_ tolerance with
    | None => Some (rx, ry)
    | Some s => coarser fuel precision s large bx by_ tolerance rx ry
    end
  else Some (rx, ry).

(** [f64::rem_euclid] (593). *)
Definition rem_euclid (x m : R) : R := x - IZR (Int_part (x / m)) * m.
(** [start_tangent_unit] (588-612). *)
Definition start_tangent_unit (a : arc) : point :=
  let tx := - px (radii a) * sin (start_angle a) in
  let ty := py (radii a) * cos (start_angle a) in
  let effective := rem_euclid (sweep_angle a) (2 * PI) in
  let effective := if less PI effective then effective - 2 * PI else effective in
  let tx' := if less effective 0 then - tx else tx in
  let ty' := if less effective 0 then - ty else ty in
  let rx := tx' * cos (x_rotation a) - ty' * sin (x_rotation a) in
  let ry := tx' * sin (x_rotation a) + ty' * cos (x_rotation a) in
  let len := sqrt (rx * rx + ry * ry) in
  if same len 0 then P 0 0 else P (rx / len) (ry / len).
(** The smallest step (514-517). *)
Definition min_by (precision : R) (a : arc) : point :=
  let t := start_tangent_unit a in P (round_to precision (px t / precision)) (round_to precision (py t / precision)).
(** The end of the relative command (518-524). *)
Definition end_by (precision : R) (a : arc) (from : point) : point :=
  let x := round_to precision (px (end_point a) - px from) in
  let y := round_to precision (py (end_point a) - py from) in
  if (same x 0 && same y 0)%bool then min_by precision a else P x y.
(** The end of the absolute command (525-532). *)
Definition end_to (precision : R) (a : arc) (from : point) : point :=
  let sx := round_to precision (px from) in
  let sy := round_to precision (py from) in
  let x := round_to precision (px (end_point a)) in
  let y := round_to precision (py (end_point a)) in
  if (same x sx && same y sy)%bool then P (sx + px (min_by precision a)) (sy + py (min_by precision a)) else P x y.
(** [Path::to_svg_arc] (474-536): the radii, and the ends of the relative and the absolute command. *)
Definition to_svg_arc (fuel fuel' : nat) (smart : bool) (a : arc) (from : point) (tolerance precision : R) : option (R * R * point * point) :=
  match to_arc_to fuel a tolerance precision with
  | Command rx ry _ large _ _ =>
    match smart_radii fuel' smart precision large (px (end_point a) - px from) (py (end_point a) - py from) tolerance rx ry with
    | Some (nx, ny) => Some (nx, ny, end_by precision a from, end_to precision a from)
    | None => None
    end
  | _ => None
  end.
