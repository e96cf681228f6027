(** The simplification of segments (crates/oxvg_path/src/paths/segment/simplify.rs; lines without a file are of this one).

    Simplifications beside those of SegmentModel: [arc_curves] is not modelled and taken to be off; arcs are never straight and never joined; an arc
    sweeps less than half a turn if its large flag is not set (211); lengths are compared by their squares. *)
From Coq Require Import List NArith QArith Qcanon Bool.
From Verif Require Import SegmentModel OptionsModel.
Import ListNotations.
Local Close Scope Q_scope.

(** [Point::cross] (crates/oxvg_path/src/geometry/point.rs:581-584), which is [cross_prod] of geo-types. *)
Definition cross (a b c : point) : Qc := ((px b - px a) * (py c - py a) - (py b - py a) * (px c - px a))%Qc.
(** [Point::dot] (crates/oxvg_path/src/geometry/point.rs:514-516). *)
Definition dot (a b : point) : Qc := (px a * px b + py a * py b)%Qc.
(** [is_parallel] (crates/oxvg_path/src/geometry/point.rs:600-602). *)
Definition is_parallel (t : tolerance) (a b c : point) : bool :=
  ltb (cross a b c) (positional t) && ltb (- cross a b c)%Qc (positional t).
(** [is_continuous_parallel] (crates/oxvg_path/src/geometry/point.rs:625-633). *)
Definition is_continuous_parallel (t : tolerance) (start middle last : point) : bool :=
  is_parallel t start middle last && negb (ltb (dot (psub start middle) (psub middle last)) 0%Qc).
(** [lerp] (crates/oxvg_path/src/geometry/point.rs:671-673). *)
Definition lerp (a b : point) (k : Qc) : point := padd a (pmul (psub b a) k).
(** [Curve::is_straight] (crates/oxvg_path/src/geometry/curve.rs:289-297).  The chord is a square root: [chord < p] and [|c| < p * chord] are compared as squares,
    and are false where [p] is not positive. *)
Definition is_straight (t : tolerance) (start c1 c2 e : point) : bool :=
  let p := positional t in
  let chord2 := distance_squared start e in
  ltb 0%Qc p &&
  (ltb chord2 (p * p)%Qc
   || ltb (cross start e c1 * cross start e c1)%Qc (p * p * chord2)%Qc && ltb (cross start e c2 * cross start e c2)%Qc (p * p * chord2)%Qc).

(** The loop of [straight_curves] within a segment (47-92); it starts anew with every segment (58, crates/oxvg_path/src/paths/segment.rs:277-279). *)
Fixpoint straight_data (t : tolerance) (quadratic : bool) (control : option point) (start : point) (l : list sdata) : list sdata :=
  match l with
  | [] => []
  | CurveTo c1 c2 e :: l =>
      let quad := quad_control t c1 c2 e start in
      let optimal := negb quadratic || match quad with Some q => negb (smooth_quad t start control q) | None => true end in
      let straight := optimal && is_straight t start c1 c2 e in
      (if straight then LineTo e else CurveTo c1 c2 e)
        :: straight_data t (negb straight && match quad with Some _ => true | None => false end) quad e l
  | d :: l => d :: straight_data t false None (end_point d) l
  end.
(** The data of a segment is replaced (43-93). *)
Definition with_data (f : point -> list sdata -> list sdata) (g : segment) : segment := Seg (s_start g) (f (s_start g) (s_data g)) (s_closed g).
(** [straight_curves] (43-93). *)
Definition straight_curves (t : tolerance) : list segment -> list segment := map (with_data (straight_data t false None)).

(** [is_zero] (203-214). *)
Definition is_zero (t : tolerance) (start : point) (d : sdata) : bool :=
  match d with
  | LineTo p => near t p start
  | CurveTo c1 c2 e => near t c1 start && near t c2 start && near t e start
  | ArcTo _ _ _ large _ e => negb large && near t e start
  end.
(** The [retain] of [remove_noop_commands] (201-217). *)
Fixpoint noop_data (t : tolerance) (start : point) (l : list sdata) : list sdata :=
  match l with
  | [] => []
  | d :: l => if is_zero t start d then noop_data t (end_point d) l else d :: noop_data t (end_point d) l
  end.
(** [pop_if] of a line to near the start (222-225). *)
Fixpoint pop_line (t : tolerance) (start : point) (l : list sdata) : list sdata :=
  match l with
  | [] => []
  | [LineTo p] => if near t p start then [] else l
  | d :: l => d :: pop_line t start l
  end.
(** The change of the last segment (219-226). *)
Fixpoint pop_last (t : tolerance) (gs : list segment) : list segment :=
  match gs with
  | [] => []
  | [g] => [if s_closed g then with_data (pop_line t) g else g]
  | g :: gs => g :: pop_last t gs
  end.
(** [remove_noop_commands] (199-227). *)
Definition remove_noop_commands (t : tolerance) (gs : list segment) : list segment :=
  pop_last t (map (with_data (noop_data t)) gs).

(** [d1 / sum] or what takes its place (254-269), for the start, the curve before and the curve now; it has square roots and is an argument of the model. *)
Definition ratio_of : Type := point -> point -> point -> point -> point -> Qc.
(** The joining of two curves (247-291).  With [t] zero or one the division gives infinities or what is not a number, and the comparisons are false. *)
Definition join_curves (t : tolerance) (ratio : ratio_of) (start a1 a2 a b1 b2 b : point) : option sdata :=
  if is_continuous_parallel t a2 a b1 then
    let k := ratio start a2 a b1 b in
    if Qc_eq_bool k 0%Qc || Qc_eq_bool k 1%Qc then None else
    let p1 := pmul (psub a1 (pmul start (1 - k)%Qc)) (/ k)%Qc in
    let p2 := pmul (psub b2 (pmul b k)) (/ (1 - k))%Qc in
    (* [subdivide_t] (crates/oxvg_path/src/geometry/curve.rs:427-443) *)
    let p01 := lerp start p1 k in
    let p12 := lerp p1 p2 k in
    let p23 := lerp p2 b k in
    let p012 := lerp p01 p12 k in
    let p123 := lerp p12 p23 k in
    let p0123 := lerp p012 p123 k in
    if near t p0123 a && near t p012 a2 && near t p123 b1 then Some (CurveTo p1 p2 b) else None
  else None.
(** The loop of [join_nodes] in a segment (232-351); [done] is the new data from its end.  Of arcs see the top of this file. *)
Fixpoint join_loop (t : tolerance) (ratio : ratio_of) (start : point) (done l : list sdata) : list sdata :=
  match l with
  | [] => rev done
  | command :: l =>
    match done with
    | [] => join_loop t ratio start [command] l
    | previous :: before =>
      match
        match previous, command with
        | LineTo p, LineTo c => if is_continuous_parallel t start p c then Some (LineTo c) else None
        | CurveTo a1 a2 a, CurveTo b1 b2 b => join_curves t ratio start a1 a2 a b1 b2 b
        | _, _ => None
        end
      with
      | Some d => join_loop t ratio start (d :: before) l
      | None => join_loop t ratio (end_point previous) (command :: done) l
      end
    end
  end.
(** [join_nodes] (230-354). *)
Definition join_nodes (t : tolerance) (ratio : ratio_of) : list segment -> list segment :=
  map (with_data (fun start l => join_loop t ratio start [] l)).

(** [remove_close_line] for a segment (357-376). *)
Definition close_line (t : tolerance) (g : segment) : segment :=
  if s_closed g then
    match s_data g with
    | [] => Seg (s_start g) [] false
    | l =>
      match last l (LineTo (s_start g)) with
      | LineTo e => if near t (s_start g) e then Seg (s_start g) (removelast l) true else Seg (s_start g) l false
      | _ => Seg (s_start g) l false
      end
    end
  else g.
(** [remove_close_line] (356-377). *)
Definition remove_close_line (t : tolerance) : list segment -> list segment := map (close_line t).
(** [remove_empty_segments] (379-381). *)
Definition remove_empty_segments : list segment -> list segment :=
  filter (fun g => match s_data g with [] => false | _ => true end).
(** [close_segments] (crates/oxvg_path/src/paths/segment.rs:162-167). *)
Definition close_segments : list segment -> list segment :=
  map (fun g => if s_closed g then g else Seg (s_start g) (s_data g ++ [LineTo (s_start g)]) true).

(** [simplify] (14-41). *)
Definition simplify (o : N) (t : tolerance) (ratio : ratio_of) (gs : list segment) : list segment :=
  let gs := if has o StraightCurves then straight_curves t gs else gs in
  let gs := if has o RemoveNoopCommands then remove_noop_commands t gs else gs in
  let gs := if has o JoinNodes then join_nodes t ratio gs else gs in
  let gs := if has o RemoveCloseLine then remove_close_line t gs else gs in
  if has o RemoveEmptySegments then remove_empty_segments gs else gs.
(** [Path::optimize] (crates/oxvg_path/src/optimize.rs:127-137). *)
Definition optimize_with (o : N) (t : tolerance) (ratio : ratio_of) (l : list cmd) : option (list out) :=
  match from_svg t l with
  | Some gs => to_svg t (simplify o t ratio (if has o CloseSegments then close_segments gs else gs))
  | None => None
  end.
