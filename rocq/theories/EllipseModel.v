(** Model of how applyTransforms transforms the ellipse of an arc: [transform_arc], [rotated_ellipse] and [multiply_transform_matrices]
    (crates/oxvg_optimiser/src/jobs/apply_transforms.rs:336-359, 386-459).

    Simplifications: numbers are reals; the cosine of a quotient by 0, which is NaN, is [None]. *)
From Coq Require Import Reals Bool.
Open Scope R_scope.

(** The linear part of the matrix: [matrix[0]] to [matrix[3]] (apply_transforms.rs:248-257, 450-455). *)
Record lin := Lin { l0 : R; l1 : R; l2 : R; l3 : R }.
(** [args[0]], [args[1]], [args[2]]: radii and rotation in degrees (apply_transforms.rs:386-389). *)
Record shape := Shape { rx : R; ry : R; deg : R }.
(** [f64::hypot] (Rust [std]; used at apply_transforms.rs:395, 396, 422). *)
Definition hypot (x y : R) : R := sqrt (x * x + y * y).
(** Degrees as radians (apply_transforms.rs:432). *)
Definition radians (d : R) : R := d * PI / 180.
(** Comparisons as booleans (apply_transforms.rs:398, 405, 417, 438, 441). *)
Definition less (x y : R) : bool := if Rlt_dec x y then true else false.
(** apply_transforms.rs:431-448 [rotated_ellipse]: radii that are too short for the chord are made longer. *)
Definition rotated_ellipse (s : shape) (x y : R) : R * R * R * R :=
  let rotation := radians (deg s) in
  let cos := cos rotation in
  let sin := sin rotation in
  let a := rx s in
  let b := ry s in
  let h := (x * cos + y * sin) ^ 2 / (4 * a * a) + (y * cos - x * sin) ^ 2 / (4 * b * b) in
  if less 0 a && less 0 b && less 1 h
  then (a * sqrt h, b * sqrt h, cos, sin)
  else (a, b, cos, sin).
(** apply_transforms.rs:450-459 [multiply_transform_matrices], the linear part. *)
Definition multiply (m e : lin) : lin :=
  Lin (l0 m * l0 e + l2 m * l1 e) (l1 m * l0 e + l3 m * l1 e) (l0 m * l2 e + l2 m * l3 e) (l1 m * l2 e + l3 m * l3 e).
(** apply_transforms.rs:393-424: radii and rotation from the matrix that makes the ellipse from a circle. *)
Definition axes (n : lin) : option shape :=
  let last_col := l2 n * l2 n + l3 n * l3 n in
  let square_sum := l0 n * l0 n + l1 n * l1 n + last_col in
  let root := hypot (l0 n - l3 n) (l1 n + l2 n) * hypot (l0 n + l3 n) (l1 n - l2 n) in
  if Req_EM_T root 0 then Some (Shape (sqrt (square_sum / 2)) (sqrt (square_sum / 2)) 0)
  else
    let major_axis_square := (square_sum + root) / 2 in
    let minor_axis_square := (square_sum - root) / 2 in
    let major := less (1 / 1000000) (Rabs (major_axis_square - last_col)) in
    let sub := (if major then major_axis_square else minor_axis_square) - last_col in
    let rows_sum := l0 n * l2 n + l1 n * l3 n in
    let term_1 := l0 n * sub + l2 n * rows_sum in
    let term_2 := l1 n * sub + l3 n * rows_sum in
    let term := if major then term_1 else term_2 in
    let term_sign := if (major && less term_2 0) || (negb major && less 0 term_1) then -1 else 1 in
    if Req_EM_T (hypot term_1 term_2) 0 then None
    else Some (Shape (sqrt major_axis_square) (sqrt minor_axis_square) (term_sign * acos (term / hypot term_1 term_2) * 180 / PI)).
(** apply_transforms.rs:340-343, 352-355: rotations of more than 80 degrees. *)
Definition upright (s : shape) : shape :=
  if less 80 (Rabs (deg s)) then Shape (ry s) (rx s) (deg s + (if less 0 (deg s) then -90 else 90)) else s.
(** apply_transforms.rs:336-343, 386-424: the new radii and rotation; [x], [y]: the chord. *)
Definition transform_shape (m : lin) (x y : R) (s : shape) : option shape :=
  let '(a, b, cos, sin) := rotated_ellipse s x y in
  option_map upright (axes (multiply m (Lin (a * cos) (a * sin) (- b * sin) (b * cos)))).
