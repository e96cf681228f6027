(** Model of applyTransforms on path data: [apply_matrix_to_path_data] (crates/oxvg_optimiser/src/jobs/apply_transforms.rs:259-384), on the commands of SegmentModel.

    Simplifications: numbers are rationals, and arithmetic is exact; [Data::Implicit] is a flag beside the command; the flags of an arc are booleans;
    the new radii and rotation of an arc are an argument here (they are modelled in EllipseModel). *)
From Coq Require Import List QArith Qcanon Bool Arith.
From Verif Require Import SegmentModel.
Import ListNotations.
Local Close Scope Q_scope.
Local Open Scope nat_scope.

(** The matrix as a slice of six numbers (apply_transforms.rs:248-257). *)
Record matrix6 := M6 { m0 : Qc; m1 : Qc; m2 : Qc; m3 : Qc; m4 : Qc; m5 : Qc }.
(** apply_transforms.rs:375-380 [transform_absolute_point]. *)
Definition absolute (m : matrix6) (p : point) : point :=
  P (m0 m * px p + m2 m * py p + m4 m)%Qc (m1 m * px p + m3 m * py p + m5 m)%Qc.
(** apply_transforms.rs:382-384 [transform_relative_point]. *)
Definition relative (m : matrix6) (p : point) : point :=
  P (m0 m * px p + m2 m * py p)%Qc (m1 m * px p + m3 m * py p)%Qc.
(** Which of both (apply_transforms.rs:282-335, 344, 356). *)
Definition moved (m : matrix6) (rel : bool) (p : point) : point := if rel then relative m p else absolute m p.
(** apply_transforms.rs:426-428: whether the sweep flag is turned. *)
Definition turned (m : matrix6) : bool := xorb (ltb (m0 m) 0%Qc) (ltb (m3 m) 0%Qc).

Section Apply.
  (** Radii and rotation of a transformed arc, from the matrix, the chord, and the radii and rotation there were (apply_transforms.rs:386-424, 340-343, 352-355). *)
  Variable ellipse : matrix6 -> point -> Qc * Qc * Qc -> Qc * Qc * Qc.
  (** [cursor] and [start] (apply_transforms.rs:262-263). *)
  Definition cursors : Type := (point * point)%type.
  (** A cursor moved by a command (apply_transforms.rs:283-284, 290-291 and so on). *)
  Definition next (rel : bool) (cursor p : point) : point := if rel then padd cursor p else p.
  (** apply_transforms.rs:274-371: one command, horizontal and vertical lines as lines first. *)
  Definition apply_cmd (m : matrix6) (s : cursors) (c : cmd) : cmd * cursors :=
    let (cursor, start) := s in
    let c := match c with
             | Hor false x => Line false (P x (py cursor))
             | Hor true x => Line true (P x 0%Qc)
             | Ver false y => Line false (P (px cursor) y)
             | Ver true y => Line true (P 0%Qc y)
             | c => c
             end in
    match c with
    | Move rel p => let n := next rel cursor p in (Move rel (moved m rel p), (n, n))
    | Line rel p => (Line rel (moved m rel p), (next rel cursor p, start))
    | SmoothQuad rel p => (SmoothQuad rel (moved m rel p), (next rel cursor p, start))
    | Cubic rel c1 c2 p => (Cubic rel (moved m rel c1) (moved m rel c2) (moved m rel p), (next rel cursor p, start))
    | Smooth rel c2 p => (Smooth rel (moved m rel c2) (moved m rel p), (next rel cursor p, start))
    | Quad rel c1 p => (Quad rel (moved m rel c1) (moved m rel p), (next rel cursor p, start))
    | Arc rel rx ry rot large sweep p =>
        let chord := if rel then p else psub p cursor in
        let '(rx', ry', rot') := ellipse m chord (rx, ry, rot) in
        (Arc rel rx' ry' rot' large (if turned m then negb sweep else sweep) (moved m rel p), (next rel cursor p, start))
    | Close => (Close, (start, start))
    | Hor _ _ | Ver _ _ => (c, s)  (* [unreachable!] (apply_transforms.rs:364-370): made lines above *)
    end.
  (** apply_transforms.rs:270-273: the commands in turn, implicit ones made explicit. *)
  Fixpoint apply_all (m : matrix6) (s : cursors) (l : list out) : list out :=
    match l with
    | [] => []
    | (_, c) :: l => let (c', s') := apply_cmd m s c in (false, c') :: apply_all m s' l
    end.
  (** apply_transforms.rs:260-373 [apply_matrix_to_path_data]; a relative move at the start is made absolute (264-268). *)
  Definition apply_matrix (m : matrix6) (l : list out) : list out :=
    let zero := P 0%Qc 0%Qc in
    apply_all m (zero, zero) match l with (false, Move true p) :: l => (false, Move false p) :: l | l => l end.
End Apply.
