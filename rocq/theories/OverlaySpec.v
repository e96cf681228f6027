(** What is asked of the way between paths and polygons. *)
From Coq Require Import List NArith ZArith QArith Qcanon Bool.
From Verif Require Import SegmentModel BezierModel BezierSpec OverlayModel.
Import ListNotations.
Local Close Scope Q_scope.
Local Open Scope Qc_scope.

(** The points of a box, and of two. *)
Definition inside (b : box) (p : point) : Prop := px (b_min b) <= px p /\ px p <= px (b_max b) /\ py (b_min b) <= py p /\ py p <= py (b_max b).
(** A box that is not turned over. *)
Definition proper (b : box) : Prop := px (b_min b) <= px (b_max b) /\ py (b_min b) <= py (b_max b).

(** A box is the smallest around points. *)
Definition around (l : list point) (b : box) : Prop :=
  (forall p, In p l -> inside b p) /\
  (exists p, In p l /\ px p = px (b_min b)) /\ (exists p, In p l /\ px p = px (b_max b)) /\ (exists p, In p l /\ py p = py (b_min b)) /\ (exists p, In p l /\ py p = py (b_max b)).

(** The point a piece ends at. *)
Definition ends_at (d : data) : point := match d with LineTo p => p | CurveTo c => curve_end c end.
(** The contour of a piece: a line, or points at equal steps of a curve. *)
Definition outline (start : point) (d : data) (l : list point) : Prop :=
  match d with
  | LineTo p => l = [start; p]
  | CurveTo c => exists n, In n [1; 2; 4; 8; 16; 32; 64; 128]%positive /\ l = map (fun i => bezier start c (frac i n)) (seq 0 (S (Pos.to_nat n)))
  end.
(** Pieces that go on from each other, with what is kept of them, numbered from a number on. *)
Inductive pieces : nat -> point -> list data -> list source -> Prop :=
| pieces_nil id p : pieces id p [] []
| pieces_cons id p d ds l ss : outline p d l -> pieces (S id) (ends_at d) ds ss -> pieces id p (d :: ds) (Source id d p l :: ss).

(** A point is within a distance (squared) of a line between two neighbours. *)
Definition on_line (a b q : point) : Prop := exists t, unit_ t /\ q = P (px a + (px b - px a) * t) (py a + (py b - py a) * t).
Definition near_contour (e : Qc) (l : list point) (p : point) : Prop :=
  exists a b q, In (a, b) (windows l) /\ on_line a b q /\ dist2 p q < e.
(** An edge that goes along a contour: its ends and its middle are near. *)
Definition along (e : Qc) (l : list point) (x : point * point) : Prop :=
  near_contour e l (fst x) /\ near_contour e l (snd x) /\ near_contour e l (midpoint (fst x) (snd x)).

(** A piece made for a source between two points: a line, or a part of the curve of the source that starts and ends near to them. *)
Definition made_of (e : Qc) (s : source) (a b : point) (d : data) : Prop :=
  match s_data s with
  | LineTo _ => d = LineTo b
  | CurveTo c => exists c' t1 t2 t2', d = CurveTo c' /\ unit_ t1 /\ unit_ t2 /\ dist2 (bezier (s_start s) c t1) a <= e /\ dist2 (bezier (s_start s) c t2) b <= e /\
      part_of (s_start s) c t1 t2' (bezier (s_start s) c t1) c' /\
      (t2' = t2 \/ (t2' = 1 /\ 1 - t1 < Q2Qc (1 # 10000000000)) \/ (t2' = 0 /\ t1 < Q2Qc (1 # 10000000000)))
  end.
(** Pieces follow a ring: each goes along edges of it, either as the line of one edge, or as a piece made for a source along which the edges go. *)
Inductive follows (e : Qc) (reg : list source) : list point -> list data -> Prop :=
| follows_end a : follows e reg [a] []
| follows_line a b l d : follows e reg (b :: l) d -> follows e reg (a :: b :: l) (LineTo b :: d)
| follows_piece s a m b l x d : In s reg -> Forall (along e (s_contour s)) (windows (a :: m ++ [b])) -> made_of e s a b x -> follows e reg (b :: l) d ->
    follows e reg (a :: m ++ b :: l) (x :: d).
(** A curve of the registry along which a point of the ring goes, and whose place is not found. *)
Definition lost (rounded : Qc -> Qc) (reg : list source) (ring : list point) : Prop :=
  exists s c p, In s reg /\ s_data s = CurveTo c /\ In p ring /\ near_contour matching (s_contour s) p /\ t_at rounded (s_start s) c p matching = None.
(** Different data have different numbers. *)
Definition numbered (reg : list source) : Prop := forall s s', In s reg -> In s' reg -> s_id s = s_id s' -> s = s'.
(** What a ring of the result becomes. *)
Definition made_from (reg : list source) (ring : list point) (g : segment) : Prop :=
  match ring with
  | [] => g = Seg (P 0 0) [] false
  | a :: _ => g_start g = a /\ g_closed g = true /\ follows matching reg ring (g_data g)
  end.
(** A point of a contour. *)
Definition on_contour (l : list point) (p : point) : Prop := exists a b, In (a, b) (windows l) /\ on_line a b p.
