(** Where a path is drawn, and how far two drawings are apart. *)
From Coq Require Import List QArith Qcanon Bool.
From Verif Require Import SegmentModel.
Import ListNotations.
Local Open Scope Q_scope.

(** Places in the plane. *)
Definition vec : Type := (Q * Q)%type.
Definition xy (p : point) : vec := (this (px p), this (py p)).
Definition dist2 (a b : vec) : Q := (fst a - fst b) * (fst a - fst b) + (snd a - snd b) * (snd a - snd b).
(** Two places are at most [r] apart. *)
Definition nigh (r : Q) (a b : vec) : Prop := dist2 a b <= r * r.

(** The places on a line and on a Bezier curve. *)
Definition line_at (t a b : Q) : Q := (1 - t) * a + t * b.
Definition cubic_at (t a c d b : Q) : Q :=
  (1 - t) * (1 - t) * (1 - t) * a + 3 * ((1 - t) * (1 - t) * t) * c + 3 * ((1 - t) * t * t) * d + t * t * t * b.
Definition on_line (t : Q) (a b : vec) : vec := (line_at t (fst a) (fst b), line_at t (snd a) (snd b)).
Definition on_cubic (t : Q) (a c d b : vec) : vec := (cubic_at t (fst a) (fst c) (fst d) (fst b), cubic_at t (snd a) (snd c) (snd d) (snd b)).
(** The places of a piece that begins at a point. *)
Inductive on (s : point) : sdata -> vec -> Prop :=
| on_a_line p t : 0 <= t <= 1 -> on s (LineTo p) (on_line t (xy s) (xy p))
| on_a_curve c d p t : 0 <= t <= 1 -> on s (CurveTo c d p) (on_cubic t (xy s) (xy c) (xy d) (xy p)).
(** The pieces of a segment, each with its start. *)
Fixpoint pieces (s : point) (l : list sdata) : list (point * sdata) :=
  match l with
  | [] => []
  | d :: l => (s, d) :: pieces (end_point d) l
  end.
Definition parts (g : segment) : list (point * sdata) := pieces (s_start g) (s_data g).
(** The end of a list of pieces. *)
Definition tip (s : point) (l : list sdata) : point := last (map end_point l) s.
(** The places of a segment, with or without the line that closes it. *)
Definition traced (closing : bool) (g : segment) (a : vec) : Prop :=
  a = xy (s_start g) \/ (exists s d, In (s, d) (parts g) /\ on s d a) \/ (closing = true /\ on (tip (s_start g) (s_data g)) (LineTo (s_start g)) a).
(** The places of the stroke of a path; the places of the outline that is filled, where every segment is closed. *)
Definition stroked (gs : list segment) (a : vec) : Prop := exists g, In g gs /\ traced (s_closed g) g a.
Definition outlined (gs : list segment) (a : vec) : Prop := exists g, In g gs /\ traced true g a.
(** No place of the one drawing is further than [r] from the other drawing. *)
Definition within (r : Q) (A B : vec -> Prop) : Prop := forall a, A a -> exists b, B b /\ nigh r a b.
Definition alike (r : Q) (A B : vec -> Prop) : Prop := within r A B /\ within r B A.

(** Without arcs, which are not modelled. *)
Definition is_arc (d : sdata) : Prop := match d with ArcTo _ _ _ _ _ _ => True | _ => False end.
Definition no_arcs (gs : list segment) : Prop := forall g d, In g gs -> In d (s_data g) -> ~ is_arc d.
Definition tol (t : tolerance) : Q := this (positional t).

(** A piece is tiny if all of its points are closer to its start than the tolerance. *)
Definition points (d : sdata) : list point := match d with LineTo p => [p] | CurveTo c1 c2 p => [c1; c2; p] | ArcTo _ _ _ _ _ p => [p] end.
Definition tiny (t : tolerance) (p : point * sdata) : Prop := forall q, In q (points (snd p)) -> dist2 (xy q) (xy (fst p)) < tol t * tol t.
(** There are at most [n] tiny pieces in a row. *)
Definition tiny_runs (t : tolerance) (n : nat) (gs : list segment) : Prop :=
  forall g a b c, In g gs -> parts g = a ++ b ++ c -> (forall p, In p b -> tiny t p) -> (List.length b <= n)%nat.

(** A curve is tame if it is tiny where its ends meet, and otherwise its control points are beside its chord and not beyond the ends of it. *)
Definition along (s c e : vec) : Q := (fst c - fst s) * (fst e - fst s) + (snd c - snd s) * (snd e - snd s).
Definition beside (s e c : vec) : Prop := 0 <= along s c e <= dist2 s e.
Definition tame (t : tolerance) (p : point * sdata) : Prop :=
  match snd p with
  | CurveTo c1 c2 e =>
      (dist2 (xy (fst p)) (xy e) < tol t * tol t -> tiny t p) /\
      (tol t * tol t <= dist2 (xy (fst p)) (xy e) -> beside (xy (fst p)) (xy e) (xy c1) /\ beside (xy (fst p)) (xy e) (xy c2))
  | _ => True
  end.
Definition all_tame (t : tolerance) (gs : list segment) : Prop := forall g p, In g gs -> In p (parts g) -> tame t p.

(** Points on a grid. *)
Definition on_grid (h : Q) (p : point) : Prop := exists m n, this (px p) == inject_Z m * h /\ this (py p) == inject_Z n * h.
Definition gridded (h : Q) (gs : list segment) : Prop :=
  forall g, In g gs -> on_grid h (s_start g) /\ (forall d, In d (s_data g) -> on_grid h (end_point d)).
Definition is_curve (d : sdata) : bool := match d with CurveTo _ _ _ => true | _ => false end.
Definition curves_at_most (n : nat) (gs : list segment) : Prop := forall g, In g gs -> (List.length (filter is_curve (s_data g)) <= n)%nat.

(** Paths of lines; a segment goes somewhere if one of its pieces does not end where it starts. *)
Definition only_lines (gs : list segment) : Prop := forall g d, In g gs -> In d (s_data g) -> exists p, d = LineTo p.
Definition goes (g : segment) : Prop := exists s d, In (s, d) (parts g) /\ end_point d <> s.
