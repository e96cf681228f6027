(** Curves of the geometry (crates/oxvg_path/src/geometry/curve.rs; lines without a file are of this one): points of a curve, its parts, its reverse, the
    place of a point on it, and quadratic curves.

    Simplifications: coordinates are rational numbers instead of doubles, so the arithmetic is exact, except that the place found on a curve is rounded by
    a given function after each step ([Rounded]); a curve without its start and [CurveWithStart] (16-25) share their functions (663-874 call those of 85-632). *)
From Coq Require Import List NArith ZArith QArith Qcanon Bool.
From Verif Require Import SegmentModel SimplifyModel.
Import ListNotations.
Local Close Scope Q_scope.
Local Open Scope Qc_scope.

(** [Curve] (5-13). *)
Record curve := Curve { start_control : point; end_control : point; curve_end : point }.

(** [point_at_from] (461-472) and [CurveWithStart::point_at] (806-808). *)
Definition point_at (start : point) (c : curve) (t : Qc) : point :=
  let t2 := t * t in
  let t3 := t2 * t in
  let mt := 1 - t in
  let mt2 := mt * mt in
  let mt3 := mt2 * mt in
  padd (padd (padd (pmul start mt3) (pmul (pmul (pmul (start_control c) (Q2Qc 3)) mt2) t))
             (pmul (pmul (pmul (end_control c) (Q2Qc 3)) mt) t2))
       (pmul (curve_end c) t3).

(** [subdivide_t] (427-443, 777-789). *)
Definition subdivide_t (start : point) (c : curve) (t : Qc) : curve * point * curve :=
  let p0 := start in
  let p1 := start_control c in
  let p2 := end_control c in
  let p3 := curve_end c in
  let p01 := lerp p0 p1 t in
  let p12 := lerp p1 p2 t in
  let p23 := lerp p2 p3 t in
  let p012 := lerp p01 p12 t in
  let p123 := lerp p12 p23 t in
  let p0123 := lerp p012 p123 t in
  (Curve p01 p012 p0123, p0123, Curve p123 p23 p3).
(** [subdivide] (373-375, 730-732). *)
Definition subdivide (start : point) (c : curve) : curve * point * curve := subdivide_t start c (Q2Qc (1 # 2)).

(** [reverse] (568-570, 845-850): the new start is the old end. *)
Definition reverse (start : point) (c : curve) : curve := Curve (end_control c) (start_control c) start.

(** [f64::abs]. *)
Definition qabs (a : Qc) : Qc := if ltb a 0 then - a else a.
(** [(0.0..=1.0).contains] (590-591). *)
Definition in_unit (t : Qc) : bool := negb (ltb t 0) && negb (ltb 1 t).
(** [clamp_t] (589-600, 868-873).  [None] is a failed assertion, which only builds with debug assertions check. *)
Definition clamp_t (debug : bool) (start : point) (c : curve) (t1 t2 : Qc) : option curve :=
  if debug && negb (in_unit t1 && in_unit t2 && negb (ltb t2 t1)) then None else
  let '(_, start', rest) := subdivide_t start c t1 in
  let k := if ltb (qabs (1 - t1)) (Q2Qc (1 # 10000000000)) then 1 else (t2 - t1) / (1 - t1) in
  Some (fst (fst (subdivide_t start' rest k))).

Section Rounded.
(** The rounding of the place after each step (518-519): doubles round each operation. *)
Variable rounded : Qc -> Qc.

(** [f64::clamp] to 0 and 1 (519). *)
Definition clamp_unit (t : Qc) : Qc := if ltb t 0 then 0 else if ltb 1 t then 1 else t.
(** The steps from a seed (502-525). *)
Fixpoint newton (fuel : nat) (start : point) (c : curve) (at_ : point) (t : Qc) : Qc :=
  match fuel with
  | O => t
  | S f =>
      let p0 := start in
      let p1 := start_control c in
      let p2 := end_control c in
      let p3 := curve_end c in
      let three := Q2Qc 3 in
      let two := Q2Qc 2 in
      let da := padd (psub p3 p0) (pmul (psub p1 p2) three) in
      let db := pmul (padd (psub p0 (pmul p1 two)) p2) two in
      let dc := psub p1 p0 in
      let diff := psub (point_at start c t) at_ in
      let bp := pmul (padd (padd (pmul da (t * t)) (pmul db t)) dc) three in
      let bp2 := pmul (padd (pmul da (two * t)) db) three in
      let f1 := dot diff bp in
      let f2 := dot bp bp + dot diff bp2 in
      if ltb (qabs f2) (Q2Qc (1 # 1000000000000)) then t else
      let step := f1 / f2 in
      let t' := clamp_unit (rounded (t - step)) in
      if ltb (qabs step) (Q2Qc (1 # 10000000)) then t' else newton f start c at_ t'
  end.
(** The seeds (512). *)
Definition seeds : list Qc := [0; Q2Qc (1 # 4); Q2Qc (1 # 2); Q2Qc (3 # 4); 1].
(** The best of the seeds (513-533): the first of the nearest. *)
Fixpoint best (start : point) (c : curve) (at_ : point) (l : list Qc) (b : option (Qc * Qc)) : option (Qc * Qc) :=
  match l with
  | [] => b
  | seed :: r =>
      let t := newton 8 start c at_ seed in
      let d := distance_squared (point_at start c t) at_ in
      best start c at_ r (match b with Some (_, bd) => if ltb d bd then Some (t, d) else b | None => Some (t, d) end)
  end.
(** [t_at] (491-552, 825-827). *)
Definition t_at (start : point) (c : curve) (at_ : point) (tolerance_squared : Qc) : option Qc :=
  match best start c at_ seeds None with
  | Some (t, d) => if ltb tolerance_squared d then None else Some t
  | None => None
  end.
(** [subdivide_at] (396-404, 753-756). *)
Definition subdivide_at (start : point) (c : curve) (at_ : point) (tolerance_squared : Qc) : option (curve * point * curve) :=
  match t_at start c at_ tolerance_squared with Some t => Some (subdivide_t start c t) | None => None end.
(** [clamp_at] (620-632).  The outer [None] is a failed assertion. *)
Definition clamp_at (debug : bool) (start : point) (c : curve) (a b : point) (tolerance_squared : Qc) : option (option curve) :=
  match t_at start c a tolerance_squared with
  | None => Some None
  | Some t1 => match t_at start c b tolerance_squared with
               | None => Some None
               | Some t2 => match clamp_t debug start c t1 t2 with Some x => Some (Some x) | None => None end
               end
  end.
End Rounded.

(** [Curve::new_quad] (87-91). *)
Definition new_quad_curve (quad start e : point) : curve :=
  Curve (padd start (pmul (psub quad start) two_thirds)) (padd e (pmul (psub quad e) two_thirds)) e.
(** [quad_control_unchecked] (140-142). *)
Definition quad_control_unchecked (start : point) (c : curve) : point := padd start (pmul (psub (start_control c) start) one_half).
(** [quad_control] (111-120). *)
Definition quad_control (start : point) (c : curve) (tolerance_squared : Qc) : option point :=
  let quad := quad_control_unchecked start c in
  if ltb (distance_squared quad (padd (curve_end c) (pmul (psub (end_control c) (curve_end c)) one_half))) tolerance_squared then Some quad else None.

(** ** Points along a curve (crates/oxvg_path/src/algorithm/coords_iter.rs) *)
(** The step (coords_iter.rs:34-42) from the distances of the points it meets; [f64::EPSILON] is smaller than any of them. *)
Fixpoint halve (fuel : nat) (start : point) (c : curve) (tolerance_squared : Qc) (step : Qc) : Qc :=
  match fuel with
  | O => step
  | S f => if ltb (distance_squared start (point_at start c step)) tolerance_squared then step else halve f start c tolerance_squared (step * Q2Qc (1 # 2))
  end.
(** [CurveCoordsIter::new_with_tolerance] (coords_iter.rs:29-49): [t] and [t_step]. *)
Record iter := Iter { i_t : Qc; i_step : Qc }.
(** coords_iter.rs:29-49. *)
Definition new_iter (start : point) (c : curve) (tolerance_squared : Qc) : iter := Iter 0 (halve 7 start c tolerance_squared 1).
(** [next] (coords_iter.rs:91-102). *)
Definition next (start : point) (c : curve) (i : iter) : option (point * iter) :=
  let '(Iter t s) := i in
  if ltb 1 t then None else
  Some (if Qc_eq_bool t 1 || ltb 1 (t + s) then curve_end c else point_at start c t, Iter (t + s) s).
(** Going on to the end with [next] (coords_iter.rs:91-102), as [collect] does; [None] if that takes more than the fuel. *)
Fixpoint collect (fuel : nat) (start : point) (c : curve) (i : iter) : option (list point) :=
  match next start c i with
  | None => Some []
  | Some (p, j) => match fuel with
                   | O => None
                   | S f => match collect f start c j with Some l => Some (p :: l) | None => None end
                   end
  end.
(** [as usize] of a number: the part before the point, nothing for negative numbers (coords_iter.rs:138). *)
Definition as_usize (q : Qc) : nat := Z.to_nat (Qnum (this q) / Zpos (Qden (this q))).
(** [len] (coords_iter.rs:133-139). *)
Definition len (i : iter) : nat := as_usize (/ i_step i - i_t i / i_step i).
(** [CurveWithStart::coords_count] (coords_iter.rs:150-152) and the points of [coords_iter] (146-148). *)
Definition coords_count (tolerance_squared : Qc) (start : point) (c : curve) : nat := len (new_iter start c tolerance_squared).
(** coords_iter.rs:146-148. *)
Definition coords (tolerance_squared : Qc) (start : point) (c : curve) : option (list point) := collect 130 start c (new_iter start c tolerance_squared).
(** [lines_iter] (crates/oxvg_path/src/algorithm/lines_iter.rs:22-28): pairs of neighbours. *)
Fixpoint windows {A} (l : list A) : list (A * A) :=
  match l with
  | a :: (b :: _) as r => (a, b) :: windows r
  | _ => []
  end.
