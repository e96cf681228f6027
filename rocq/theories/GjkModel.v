(** Whether two paths meet: the convex hulls of their segments are compared with the algorithm of Gilbert, Johnson and Keerthi
    (crates/oxvg_path/src/gjk_intersection.rs).  Numbers are rational and arithmetic is exact. *)
From Coq Require Import List QArith Qminmax Bool Arith.
Import ListNotations.
Local Open Scope Q_scope.

(** [Point] (geometry/point.rs:9-11, crates/oxvg_path/src). *)
Record pt : Type := P { px : Q; py : Q }.
(** geometry/point.rs:514-516 [dot]. *)
Definition dot (a b : pt) : Q := px a * px b + py a * py b.
(** Subtraction of points (gjk_intersection.rs:122, 290, 305-306). *)
Definition sub (a b : pt) : pt := P (px a - px b) (py a - py b).
(** Negation of points (gjk_intersection.rs:69, 122, 289, 307). *)
Definition neg (a : pt) : pt := P (- px a) (- py a).
(** geometry/point.rs:581-584 [cross]: [cross_prod] of the geo crate. *)
Definition cross (a b c : pt) : Q := (px b - px a) * (py c - py a) - (py b - py a) * (px c - px a).
(** geometry/point.rs:648-655 [orth]. *)
Definition orth (a from : pt) : pt := let o := P (- py a) (px a) in if Qle_bool 0 (dot o (neg from)) then o else neg o.

(** paths/segment.rs:17-24 [Data]; of an arc there are the points that gjk_intersection.rs:248-277 makes of it. *)
Inductive data : Type := LineTo (p : pt) | CurveTo (start_control end_control end_point : pt) | ArcTo (points : list pt).
(** paths/segment.rs:38-42 [Segment]; whether it is closed is not looked at. *)
Record segment : Type := mkSegment { start : pt; items : list data }.
(** gjk_intersection.rs:244-280 [hull_nest]. *)
Definition hull_nest (s : segment) : list pt :=
  start s :: flat_map (fun d => match d with LineTo p => [p] | CurveTo a b c => [a; b; c] | ArcTo l => l end) (items s).

(** gjk_intersection.rs:157-163: the order for sorting. *)
Definition lex_leb (a b : pt) : bool := if Qeq_bool (px a) (px b) then Qle_bool (py a) (py b) else Qle_bool (px a) (px b).
(** gjk_intersection.rs:156: a stable sort. *)
Fixpoint insert (p : pt) (l : list pt) : list pt :=
  match l with
  | [] => [p]
  | q :: r => if lex_leb p q then p :: l else q :: insert p r
  end.
(** gjk_intersection.rs:156. *)
Fixpoint sort (l : list pt) : list pt := match l with [] => [] | p :: r => insert p (sort r) end.
(** gjk_intersection.rs:170-174 and 187-191; the last point comes first. *)
Fixpoint pop (l : list pt) (p : pt) : list pt :=
  match l with
  | b :: ((a :: _) as r) => if Qle_bool (cross a b p) 0 then pop r p else l
  | _ => l
  end.
(** gjk_intersection.rs:165-180 and 182-197: a chain, the last point first, with the height that is lowest or highest, and its index. *)
Definition chain_step (better : Q -> Q -> bool) (s : list pt * Q * nat) (p : pt) : list pt * Q * nat :=
  let '(c, m, i) := s in
  let c' := pop c p in
  if better (py p) m then (p :: c', py p, length c') else (p :: c', m, i).
(** [x < y] (gjk_intersection.rs:175, 192). *)
Definition Qltb (x y : Q) : bool := negb (Qle_bool y x).
(** gjk_intersection.rs:165-180 and 182-197; [l] is not empty. *)
Definition chain (better : Q -> Q -> bool) (l : list pt) : list pt * Q * nat :=
  fold_left (chain_step better) l ([], match l with p :: _ => py p | [] => 0 end, O).
(** gjk_intersection.rs:7-13 [IndexBounds]. *)
Record bounds : Type := mkBounds { source : list pt; min_x : nat; min_y : nat; max_x : nat; max_y : nat }.
(** gjk_intersection.rs:155-217 [convex_hull]; the bounds that [new] (88-114) finds are not used. *)
Definition convex_hull (l : list pt) : bounds :=
  let s := sort l in
  let '(lower, _, bottom) := chain Qltb s in
  let '(upper, _, top) := chain (fun x y => Qltb y x) (rev s) in
  let lo := rev (tl lower) in
  let src := lo ++ rev (tl upper) in
  mkBounds src 0 bottom (length lo) (match src with [] => 0%nat | _ => ((length lo + top) mod length src)%nat end).
(** gjk_intersection.rs:139-146: the search; [None] is an index out of bounds, or a search without an end. *)
Fixpoint climb (fuel : nat) (src : list pt) (d : pt) (index : nat) (max : option Q) : option nat :=
  match fuel with
  | O => None
  | S f => match nth_error src index with
           | None => None
           | Some p =>
               let v := dot p d in
               if match max with Some m => Qle_bool v m | None => false end then Some index
               else climb f src d ((index + 1) mod length src)%nat (Some v)
           end
  end.
(** gjk_intersection.rs:126-152 [support_point]. *)
Definition support_point (h : bounds) (d : pt) : option pt :=
  let index := if Qle_bool 0 (py d) then if Qltb (px d) 0 then max_y h else max_x h else if Qltb (px d) 0 then min_x h else min_y h in
  match climb (2 + length (source h)) (source h) d index None with
  | Some i => nth_error (source h) (match i with O => length (source h) - 1 | S j => j end)%nat
  | None => None
  end.
(** gjk_intersection.rs:121-123 [get_support]. *)
Definition get_support (g h : bounds) (d : pt) : option pt :=
  match support_point g d, support_point h (neg d) with Some a, Some b => Some (sub a b) | _, _ => None end.
(** gjk_intersection.rs:284-336 [process_simplex]: [None] if the origin is inside, else the next simplex and direction.  With fewer than two
    points it panics, which is left out: a point is added before (72). *)
Definition process_simplex (simplex : list pt) (direction : pt) : option (list pt * pt) :=
  match simplex with
  | [b; a] =>
      let ao := neg a in
      let ab := sub b a in
      if Qltb 0 (dot ao ab) then Some ([b; a], orth ab a) else Some ([a], ao)
  | [c; b; a] =>
      let ab := sub b a in
      let ac := sub c a in
      let ao := neg a in
      let acb := orth ab ac in
      let abc := orth ac ab in
      if Qltb 0 (dot acb ao) then if Qltb 0 (dot ab ao) then Some ([b; a], acb) else Some ([a], ao)
      else if Qltb 0 (dot abc ao) then if Qltb 0 (dot ac ao) then Some ([c; a], abc) else Some ([a], ao)
      else None
  | _ => Some (simplex, direction)
  end.
(** What comes of the comparison of two hulls (gjk_intersection.rs:71-81). *)
Inductive outcome : Type := Apart | Meet | Exhausted | Panic.
(** gjk_intersection.rs:71-81: the loop. *)
Fixpoint search (fuel : nat) (g h : bounds) (simplex : list pt) (direction : pt) : outcome :=
  match fuel with
  | O => Exhausted
  | S f => match get_support g h direction with
           | None => Panic
           | Some p =>
               if Qle_bool (dot direction p) 0 then Apart
               else match process_simplex (simplex ++ [p]) direction with
                    | None => Meet
                    | Some (s, d) => search f g h s d
                    end
           end
  end.
(** gjk_intersection.rs:68-81; there are 10000 rounds. *)
Definition compare (g h : bounds) : outcome :=
  match get_support g h (P 1 0) with
  | None => Panic
  | Some p => search (100 * 100) g h [p] (neg p)
  end.

(** gjk_intersection.rs:220-239 [build_bbox]: the least and greatest coordinates; [None] stands for NaN. *)
Definition grow (b : option (pt * pt)) (p : pt) : option (pt * pt) :=
  match b with
  | None => Some (p, p)
  | Some (lo, hi) => Some (P (Qmin (px lo) (px p)) (Qmin (py lo) (py p)), P (Qmax (px hi) (px p)) (Qmax (py hi) (py p)))
  end.
(** gjk_intersection.rs:224-237. *)
Definition bbox (l : list pt) : option (pt * pt) := fold_left grow l None.
(** gjk_intersection.rs:41-44, 47-50; comparisons with NaN do not hold. *)
Definition box_apart (a b : option (pt * pt)) : bool :=
  match a, b with
  | Some (l, h), Some (l', h') => Qle_bool (px h) (px l') || Qle_bool (px h') (px l) || Qle_bool (py h) (py l') || Qle_bool (py h') (py l)
  | _, _ => false
  end.
(** [any] (gjk_intersection.rs:66-67), up to a panic; [None] is one. *)
Fixpoint any {A : Type} (f : A -> option bool) (l : list A) : option bool :=
  match l with
  | [] => Some false
  | x :: r => match f x with Some false => any f r | o => o end
  end.
(** What the outcome says (gjk_intersection.rs:74, 77, 80-81). *)
Definition verdict (o : outcome) : option bool := match o with Apart => Some false | Meet | Exhausted => Some true | Panic => None end.
(** gjk_intersection.rs:24-37: the points of the segments that have data. *)
Definition hulls (l : list segment) : list (list pt) := map hull_nest (filter (fun s => match items s with [] => false | _ => true end) l).
(** gjk_intersection.rs:23-84 [intersects]. *)
Definition intersects (a b : list segment) : option bool :=
  let ha := hulls a in
  let hb := hulls b in
  if box_apart (bbox (concat ha)) (bbox (concat hb)) || forallb (fun x => forallb (fun y => box_apart (bbox x) (bbox y)) hb) ha then Some false
  else
    let '(lh, rh) := if (length ha <? length hb)%nat then (hb, ha) else (ha, hb) in
    any (fun x => any (fun y => verdict (compare (convex_hull x) (convex_hull y))) rh) lh.
