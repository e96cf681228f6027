(** The ellipse of an arc (SVG 2, 9.5 and B.2.5), about its centre, and its image under a linear map. *)
From Coq Require Import Reals.
From Verif Require Import EllipseModel.
Open Scope R_scope.

Definition angle (s : shape) : R := deg s * PI / 180.
(** Points in the directions of the axes. *)
Definition along (s : shape) (x y : R) : R := cos (angle s) * x + sin (angle s) * y.
Definition across (s : shape) (x y : R) : R := - sin (angle s) * x + cos (angle s) * y.
(** How far the chord is from fitting in: more than 1 if it is too long. *)
Definition strain (s : shape) (x y : R) : R := (along s x y / 2) ^ 2 / rx s ^ 2 + (across s x y / 2) ^ 2 / ry s ^ 2.
(** Radii that are too short are made longer by the same factor, as much as is needed. *)
Definition growth (s : shape) (x y : R) : R := if Rlt_dec 1 (strain s x y) then sqrt (strain s x y) else 1.
(** Points of the ellipse an arc with the chord [(cx, cy)] is on. *)
Definition on_ellipse (s : shape) (cx cy : R) (x y : R) : Prop :=
  exists u v, u ^ 2 + v ^ 2 = 1 /\
    x = growth s cx cy * (cos (angle s) * rx s * u - sin (angle s) * ry s * v) /\
    y = growth s cx cy * (sin (angle s) * rx s * u + cos (angle s) * ry s * v).
Definition move_x (m : lin) (x y : R) : R := l0 m * x + l2 m * y.
Definition move_y (m : lin) (x y : R) : R := l1 m * x + l3 m * y.
Definition det (m : lin) : R := l0 m * l3 m - l1 m * l2 m.
