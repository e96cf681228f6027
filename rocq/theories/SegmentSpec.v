(** What path commands draw, after SVG 2 (chapter 9.3), and what a list of segments draws.
    Used to state that reading and writing segments keeps the drawing. *)
From Coq Require Import List NArith ZArith QArith Qcanon Bool Arith.
From Verif Require Import SegmentModel.
Import ListNotations.
Local Close Scope Q_scope.
Local Open Scope nat_scope.

(** A drawn stretch of a path. *)
Inductive edge :=
| ELine (a b : point)
| EQuad (a c b : point)
| ECubic (a c1 c2 b : point)
| EArc (rx ry rot : Qc) (large sweep : bool) (a b : point).

(** The point at parameter [t] of a line or Bézier stretch, one coordinate at a time. *)
Definition line_at (a b t : Qc) : Qc := ((1 - t) * a + t * b)%Qc.
Definition quad_at (a c b t : Qc) : Qc := ((1 - t) * (1 - t) * a + (1 + 1) * ((1 - t) * t) * c + t * t * b)%Qc.
Definition cubic_at (a c d b t : Qc) : Qc :=
  ((1 - t) * (1 - t) * (1 - t) * a + (1 + 1 + 1) * ((1 - t) * (1 - t) * t) * c
   + (1 + 1 + 1) * ((1 - t) * t * t) * d + t * t * t * b)%Qc.
Definition at_ (e : edge) (t : Qc) : option point :=
  match e with
  | ELine a b => Some (P (line_at (px a) (px b) t) (line_at (py a) (py b) t))
  | EQuad a c b => Some (P (quad_at (px a) (px c) (px b) t) (quad_at (py a) (py c) (py b) t))
  | ECubic a c d b => Some (P (cubic_at (px a) (px c) (px d) (px b) t) (cubic_at (py a) (py c) (py d) (py b) t))
  | EArc _ _ _ _ _ _ _ => None
  end.

(** Two stretches are the same if they pass the same points at the same parameter; arcs if they
    have the same arguments and ends. *)
Definition same_edge (e f : edge) : Prop :=
  e = f \/ (at_ e 0%Qc <> None /\ at_ f 0%Qc <> None /\ forall t, at_ e t = at_ f t).

(** Lines of no length are not seen (apart from line caps, which this leaves out). *)
Definition seen (e : edge) : bool := match e with ELine a b => negb (point_eqb a b) | _ => true end.
Definition same_drawing (l m : list edge) : Prop := Forall2 same_edge (filter seen l) (filter seen m).

(** The pen: current point, start of the subpath, and the control point the next smooth command
    may reflect, with the kind of curve it belongs to. *)
Inductive handle := NoHandle | CubicHandle (c : point) | QuadHandle (c : point).
Record pen := Pen { cur : point; sub : point; hand : handle }.

Definition origin : point := P 0%Qc 0%Qc.
Definition rest : pen := Pen origin origin NoHandle.

Definition to_ (rel : bool) (a p : point) : point :=
  if rel then P (px a + px p)%Qc (py a + py p)%Qc else p.
(** The reflection of a control point about the current point. *)
Definition mirror (c a : point) : point := P (px a + (px a - px c))%Qc (py a + (py a - py c))%Qc.

(** One command: what it draws and where it leaves the pen. *)
Definition step (c : cmd) (s : pen) : list edge * pen :=
  let a := cur s in
  match c with
  | Move rel p => let b := to_ rel a p in ([], Pen b b NoHandle)
  | Close => ([ELine a (sub s)], Pen (sub s) (sub s) NoHandle)
  | Line rel p => let b := to_ rel a p in ([ELine a b], Pen b (sub s) NoHandle)
  | Hor rel x => let b := P (if rel then (px a + x)%Qc else x) (py a) in ([ELine a b], Pen b (sub s) NoHandle)
  | Ver rel y => let b := P (px a) (if rel then (py a + y)%Qc else y) in ([ELine a b], Pen b (sub s) NoHandle)
  | Cubic rel c1 c2 p =>
      let b := to_ rel a p in
      ([ECubic a (to_ rel a c1) (to_ rel a c2) b], Pen b (sub s) (CubicHandle (to_ rel a c2)))
  | Smooth rel c2 p =>
      let b := to_ rel a p in
      let c1 := match hand s with CubicHandle c => mirror c a | _ => a end in
      ([ECubic a c1 (to_ rel a c2) b], Pen b (sub s) (CubicHandle (to_ rel a c2)))
  | Quad rel c p =>
      let b := to_ rel a p in
      ([EQuad a (to_ rel a c) b], Pen b (sub s) (QuadHandle (to_ rel a c)))
  | SmoothQuad rel p =>
      let b := to_ rel a p in
      let c := match hand s with QuadHandle c => mirror c a | _ => a end in
      ([EQuad a c b], Pen b (sub s) (QuadHandle c))
  | Arc rel rx ry rot large sweep p =>
      let b := to_ rel a p in
      ([if Qc_eq_bool rx 0 || Qc_eq_bool ry 0 || point_eqb a b then ELine a b else EArc rx ry rot large sweep a b],
       Pen b (sub s) NoHandle)
  end.
Fixpoint run (s : pen) (l : list cmd) : list edge :=
  match l with [] => [] | c :: l => fst (step c s) ++ run (snd (step c s)) l end.
Fixpoint pen_after (s : pen) (l : list cmd) : pen :=
  match l with [] => s | c :: l => pen_after (snd (step c s)) l end.
Definition drawing (l : list cmd) : list edge := run rest l.

(** What segments draw: their data in order, and the line back to the start if closed. *)
Definition data_edge (a : point) (d : sdata) : edge :=
  match d with
  | LineTo b => ELine a b
  | CurveTo c1 c2 b => ECubic a c1 c2 b
  | ArcTo rx ry rot l s b => EArc rx ry rot l s a b
  end.
Fixpoint data_edges (a : point) (l : list sdata) : list edge :=
  match l with [] => [] | d :: l => data_edge a d :: data_edges (end_point d) l end.
Fixpoint data_end (a : point) (l : list sdata) : point :=
  match l with [] => a | d :: l => data_end (end_point d) l end.
Definition segment_edges (g : segment) : list edge :=
  data_edges (s_start g) (s_data g) ++
  (if s_closed g then [ELine (data_end (s_start g) (s_data g)) (s_start g)] else []).
Definition segments_drawing (l : list segment) : list edge := concat (map segment_edges l).

(** ** Conditions on commands *)

Definition is_move (c : cmd) : bool := match c with Move _ _ => true | _ => false end.
Definition draws (c : cmd) : bool := match c with Move _ _ | Close => false | _ => true end.
Definition is_quad (c : cmd) : bool := match c with Quad _ _ _ | SmoothQuad _ _ => true | _ => false end.
Definition is_cubic (c : cmd) : bool := match c with Cubic _ _ _ _ | Smooth _ _ _ => true | _ => false end.

(** No smooth command straight after a curve of the other kind. *)
Definition smooth_matches (l : list cmd) : Prop :=
  forall pre a b post, l = pre ++ a :: b :: post ->
    match b with
    | Smooth _ _ _ => is_quad a = false
    | SmoothQuad _ _ => is_cubic a = false
    | _ => True
    end.

(** Radii are zero, or not tiny. *)
Definition radius_ok (r : Qc) : Prop := r = 0%Qc \/ (Q2Qc (1 # 100000) <= r)%Qc \/ (r <= - Q2Qc (1 # 100000))%Qc.
Definition arcs_ok (l : list cmd) : Prop :=
  forall rel rx ry rot la sw p, In (Arc rel rx ry rot la sw p) l -> radius_ok rx /\ radius_ok ry.

(** A stretch left open ends away from where the pen goes next — the target of the following
    moveto, or the start of the stretch at the end of the path — unless it ends on its start. *)
Definition ends_apart (t : tolerance) (l : list cmd) : Prop :=
  forall pre d post, l = pre ++ d :: post -> draws d = true ->
    let s := pen_after rest (pre ++ [d]) in
    match post with
    | [] => near t (sub s) (cur s) = true -> cur s = sub s
    | Move rel p :: _ => near t (to_ rel (cur s) p) (cur s) = true -> cur s = sub s
    | _ => True
    end.

(** ** Pieces of a path: what is drawn between two movetos or closepaths *)
Record piece := Piece { p_start : point; p_end : point; p_closed : bool; p_next : point }.
(** [drawn]: something has been drawn since the last moveto or closepath. *)
Fixpoint pieces (s : pen) (drawn : bool) (l : list cmd) : list piece :=
  match l with
  | [] => if drawn then [Piece (sub s) (cur s) false (sub s)] else []
  | c :: l =>
    let s' := snd (step c s) in
    match c with
    | Move _ _ => (if drawn then [Piece (sub s) (cur s) false (cur s')] else []) ++ pieces s' false l
    | Close => (if drawn then [Piece (sub s) (cur s) true (sub s)] else []) ++ pieces s' false l
    | _ => pieces s' true l
    end
  end.

(** Segments with data: where they start and end and whether they are closed. *)
Definition nonempty (g : segment) : bool := match s_data g with [] => false | _ => true end.
Definition summary (g : segment) : point * point * bool := (s_start g, data_end (s_start g) (s_data g), s_closed g).
(** A piece is closed if it ends in a closepath or comes back to its start. *)
Definition truly_closed (t : tolerance) (q : piece) : point * point * bool :=
  (p_start q, p_end q, p_closed q || near t (p_start q) (p_end q)).
(** A piece is taken as closed if it ends in a closepath or where the next one begins. *)
Definition piece_of (t : tolerance) (q : piece) : point * point * bool :=
  (p_start q, p_end q, p_closed q || near t (p_next q) (p_end q)).

(** ** Conditions on segments *)

(** A multiple of [10^-p]. *)
Definition on_grid (p : nat) (x : Qc) : Prop := exists n : Z, x = Q2Qc (Qmake n (pow10 p)).
Definition grid_point (p : nat) (a : point) : Prop := on_grid p (px a) /\ on_grid p (py a).

(** What came before a piece of segment data, as far as control points go. *)
Inductive ahead := Fresh | AfterCubic (c : point) | AfterQuad (c : point) | AfterSegment (c : point).

(** The control point of a quadratic curve written as a cubic one, seen from each end. *)
Definition quad_from_start (a c1 : point) : point := padd a (pmul (psub c1 a) one_half).
Definition quad_from_end (b c2 : point) : point := padd b (pmul (psub c2 b) one_half).
Definition looks_quad (t : tolerance) (a c1 c2 b : point) : bool := near t (quad_from_start a c1) (quad_from_end b c2).

(** Within the tolerance only if exactly so. *)
Definition exactly (t : tolerance) (a b : point) : Prop := near t a b = true -> a = b.
Definition apart (t : tolerance) (a b : point) : Prop := near t a b = false.

Definition curve_ok (t : tolerance) (w : ahead) (a c1 c2 b : point) : Prop :=
  let p := precision t in
  let q := quad_from_start a c1 in
  let quad := looks_quad t a c1 c2 b in
  grid_point p c1 /\ grid_point p c2 /\ grid_point p b /\
  (quad = true -> q = quad_from_end b c2 /\ grid_point p q) /\
  match w with
  | Fresh => exactly t c1 a
  | AfterCubic k => exactly t c1 (mirror k a) /\ (quad = true -> apart t q (mirror k a))
  | AfterQuad k => apart t c1 (mirror k a) /\ (quad = true -> exactly t q (mirror k a))
  | AfterSegment k => apart t c1 (mirror k a) /\ (quad = true -> apart t q (mirror k a))
  end.
Definition after_data (t : tolerance) (a : point) (d : sdata) : ahead :=
  match d with
  | CurveTo c1 c2 b => if looks_quad t a c1 c2 b then AfterQuad (quad_from_start a c1) else AfterCubic c2
  | _ => Fresh
  end.
(** No arcs; coordinates on the grid; no line of no length away from the start of the segment;
    curves that look smooth or quadratic are exactly so, and not after a curve of the other kind
    or of another segment. *)
Fixpoint data_ok (t : tolerance) (start : point) (w : ahead) (a : point) (l : list sdata) {struct l} : Prop :=
  match l with
  | [] => True
  | d :: l =>
    match d with
    | LineTo b => grid_point (precision t) b /\ (a = b -> a = start)
    | CurveTo c1 c2 b => curve_ok t w a c1 c2 b
    | ArcTo _ _ _ _ _ _ => False
    end /\ data_ok t start (after_data t a d) (end_point d) l
  end.
Fixpoint after_all (t : tolerance) (w : ahead) (a : point) (l : list sdata) {struct l} : ahead :=
  match l with [] => w | d :: l => after_all t (after_data t a d) (end_point d) l end.
(** A control point that outlives its segment. *)
Definition outlive (w : ahead) : ahead :=
  match w with Fresh => Fresh | AfterCubic k | AfterQuad k | AfterSegment k => AfterSegment k end.
Fixpoint segments_ok (t : tolerance) (w : ahead) (l : list segment) {struct l} : Prop :=
  match l with
  | [] => True
  | g :: l =>
    grid_point (precision t) (s_start g) /\ data_ok t (s_start g) w (s_start g) (s_data g) /\
    segments_ok t (match s_data g with
                   | [] => Fresh
                   | _ => outlive (after_all t w (s_start g) (s_data g))
                   end) l
  end.
Definition writable (t : tolerance) (l : list segment) : Prop := segments_ok t Fresh l.
