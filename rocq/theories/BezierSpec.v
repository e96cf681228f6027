(** What is asked of curves: the points of a Bezier curve, and when a curve is a part of another. *)
From Coq Require Import List NArith ZArith QArith Qcanon Bool.
From Verif Require Import SegmentModel BezierModel.
Import ListNotations.
Local Close Scope Q_scope.
Local Open Scope Qc_scope.

(** A coordinate of a cubic Bezier curve. *)
Definition cubic (a b c d t : Qc) : Qc := (1 - t) ^ 3 * a + Q2Qc 3 * (1 - t) ^ 2 * t * b + Q2Qc 3 * (1 - t) * t ^ 2 * c + t ^ 3 * d.
(** The point of a curve at a number. *)
Definition bezier (start : point) (c : curve) (t : Qc) : point :=
  P (cubic (px start) (px (start_control c)) (px (end_control c)) (px (curve_end c)) t)
    (cubic (py start) (py (start_control c)) (py (end_control c)) (py (curve_end c)) t).
(** A coordinate and a point of a quadratic Bezier curve. *)
Definition square (a b c t : Qc) : Qc := (1 - t) ^ 2 * a + Q2Qc 2 * (1 - t) * t * b + t ^ 2 * c.
Definition quadratic (start q e : point) (t : Qc) : point := P (square (px start) (px q) (px e) t) (square (py start) (py q) (py e) t).

(** [c'] from [start'] runs through [c] from [start], from [t1] to [t2]. *)
Definition part_of (start : point) (c : curve) (t1 t2 : Qc) (start' : point) (c' : curve) : Prop :=
  forall s, bezier start' c' s = bezier start c (t1 + (t2 - t1) * s).
(** A number between 0 and 1. *)
Definition unit_ (t : Qc) : Prop := 0 <= t /\ t <= 1.
(** The square of the distance of two points. *)
Definition dist2 (a b : point) : Qc := (px a - px b) ^ 2 + (py a - py b) ^ 2.
(** The [k]th of [n] parts. *)
Definition frac (k : nat) (n : positive) : Qc := Q2Qc (Z.of_nat k # n).
(** Lines that go on from each other, from a point to a point. *)
Inductive joined : point -> list (point * point) -> point -> Prop :=
| joined_nil a : joined a [] a
| joined_cons a b l e : joined b l e -> joined a ((a, b) :: l) e.
(** To the nearest of the numbers a double has near 1: multiples of 2^-52. *)
Definition to_double (q : Qc) : Qc := Q2Qc (round_half (this q * inject_Z (2 ^ 52)) # Z.to_pos (2 ^ 52)).
