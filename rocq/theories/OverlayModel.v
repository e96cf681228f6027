(** Boolean operations on paths: paths become polygons, and the polygons that come out become paths again
    (crates/oxvg_path/src/algorithm/bool_ops/i_overlay_integration.rs; lines without a file are of this one).

    Simplifications: coordinates are rational numbers as in BezierModel; arcs are not modelled (103-106, 154-203, 277-285); the operations on polygons
    of i_overlay are parameters; distances are compared by their squares, and the comparison of sums of distances (323-324) is a parameter; the search
    tree (129-140, 312) is a list in the order in which it is searched, without its first look at boxes made larger (307-310). *)
From Coq Require Import List NArith ZArith QArith Qcanon Bool Arith.
From Verif Require Import SegmentModel SimplifyModel BezierModel.
Import ListNotations.
Local Close Scope Q_scope.
Local Open Scope Qc_scope.

(** [segment::Data] (crates/oxvg_path/src/paths/segment.rs:16-23) without arcs. *)
Inductive data :=
| LineTo (p : point)
| CurveTo (c : curve).
(** [segment::Segment] (crates/oxvg_path/src/paths/segment.rs:38-42). *)
Record segment := Seg { g_start : point; g_data : list data; g_closed : bool }.
(** [Source] (13-18), with a number in place of the address of its data. *)
Record source := Source { s_id : nat; s_data : data; s_start : point; s_contour : list point }.

(** ** Boxes (crates/oxvg_path/src/geometry/rectangle.rs) *)
(** [f64::min] and [f64::max], where the first may not be a number yet (rectangle.rs:37-46). *)
Definition low (a : option Qc) (b : Qc) : Qc := match a with Some a => if ltb a b then a else b | None => b end.
(** rectangle.rs:43-46. *)
Definition high (a : option Qc) (b : Qc) : Qc := match a with Some a => if ltb b a then a else b | None => b end.
(** [Rectangle] (rectangle.rs:9): its least and greatest corner. *)
Record box := Box { b_min : point; b_max : point }.
(** The loop of [from_coords] (rectangle.rs:42-47). *)
Fixpoint grow (b : option box) (l : list point) : option box :=
  match l with
  | [] => b
  | p :: r => grow (Some (Box (P (low (option_map (fun b => px (b_min b)) b) (px p)) (low (option_map (fun b => py (b_min b)) b) (py p)))
                              (P (high (option_map (fun b => px (b_max b)) b) (px p)) (high (option_map (fun b => py (b_max b)) b) (py p))))) r
  end.
(** [from_coords] (rectangle.rs:36-52); [None] is a box of what is not a number. *)
Definition from_coords (l : list point) : option box := grow None l.
(** [Rectangle::new] (rectangle.rs:26-28). *)
Definition new_box (a b : point) : box :=
  Box (P (low (Some (px a)) (px b)) (low (Some (py a)) (py b))) (P (high (Some (px a)) (px b)) (high (Some (py a)) (py b))).
(** [intersects] of geo (rectangle.rs:72-74): boxes that touch do. *)
Definition intersects (a b : box) : bool :=
  negb (ltb (px (b_max a)) (px (b_min b)) || ltb (py (b_max a)) (py (b_min b)) || ltb (px (b_max b)) (px (b_min a)) || ltb (py (b_max b)) (py (b_min a))).
(** [intersection] (rectangle.rs:55-69). *)
Definition intersection (a b : box) : option box :=
  let min_x := high (Some (px (b_min a))) (px (b_min b)) in
  let min_y := high (Some (py (b_min a))) (py (b_min b)) in
  let max_x := low (Some (px (b_max a))) (px (b_max b)) in
  let max_y := low (Some (py (b_max a))) (py (b_max b)) in
  if negb (ltb max_x min_x) && negb (ltb max_y min_y) then Some (new_box (P min_x min_y) (P max_x max_y)) else None.
(** [contains] (rectangle.rs:77-79). *)
Definition contains (b : box) (p : point) : bool :=
  negb (ltb (px p) (px (b_min b)) || ltb (py p) (py (b_min b)) || ltb (px (b_max b)) (px p) || ltb (py (b_max b)) (py p)).
(** [clamp] (rectangle.rs:82-87). *)
Definition clamp_point (b : box) (p : point) : point :=
  P (if ltb (px p) (px (b_min b)) then px (b_min b) else if ltb (px (b_max b)) (px p) then px (b_max b) else px p)
    (if ltb (py p) (py (b_min b)) then py (b_min b) else if ltb (py (b_max b)) (py p) then py (b_max b) else py p).

(** ** Paths to polygons *)
(** [Tolerance::default().square()] (crates/oxvg_path/src/algorithm/coords_iter.rs:25; geometry.rs:42-44, 65-67). *)
Definition usual : Qc := Q2Qc (1 # 1000000).
(** What a piece adds (91-107) and the point after it: the points along a curve without the first. *)
Definition piece_coords (start : point) (d : data) : option (point * list point) :=
  match d with
  | LineTo p => Some (p, [p])
  | CurveTo c => match coords usual start c with Some l => Some (curve_end c, tl l) | None => None end
  end.
(** The loop of [flatten_segment] (90-120); [id] is the length of the registry.  [None] does not occur: see [coords]. *)
Fixpoint flatten_loop (id : nat) (cursor : point) (l : list data) : option (list point * list source) :=
  match l with
  | [] => Some ([], [])
  | d :: r =>
      match piece_coords cursor d with
      | None => None
      | Some (next, pts) =>
          match flatten_loop (S id) next r with
          | None => None
          | Some (ps, reg) => Some (pts ++ ps, Source id d cursor (cursor :: pts) :: reg)
          end
      end
  end.
(** [flatten_segment] (78-123). *)
Definition flatten_segment (id : nat) (g : segment) : option (list point * list source) :=
  match g_data g with
  | [] => Some ([], [])
  | l => match flatten_loop id (g_start g) l with Some (ps, reg) => Some (g_start g :: ps, reg) | None => None end
  end.
(** The rings of a path, one after the other (crates/oxvg_path/src/algorithm/bool_ops.rs:101-106). *)
Fixpoint flatten_path (id : nat) (l : list segment) : option (list (list point) * list source) :=
  match l with
  | [] => Some ([], [])
  | g :: r => match flatten_segment id g with
              | None => None
              | Some (ps, reg) => match flatten_path (id + List.length reg) r with
                                  | None => None
                                  | Some (rings, reg') => Some (ps :: rings, reg ++ reg')
                                  end
              end
  end.

(** ** Polygons to paths *)
(** [Line::distance_squared] (crates/oxvg_path/src/geometry/line.rs:207-210): of rstar, from a point to the nearest point of the line. *)
Definition line_distance (a b p : point) : Qc :=
  let d := psub b a in
  let l := dot d d in
  if Qc_eq_bool l 0 then distance_squared p a else
  let t := clamp_unit (dot (psub p a) d / l) in
  distance_squared p (padd a (pmul d t)).
(** [project_on_polyline] (333-346), squared; [None] is [f64::MAX]. *)
Fixpoint project (p : point) (l : list (point * point)) (best : option Qc) : option Qc :=
  match l with
  | [] => best
  | (a, b) :: r =>
      let d := line_distance a b p in
      project p r (match best with Some m => if ltb d m then Some d else best | None => Some d end)
  end.
(** [Point::midpoint] (crates/oxvg_path/src/geometry/point.rs:413-415). *)
Definition midpoint (a b : point) : point := P ((px a + px b) * Q2Qc (1 # 2)) ((py a + py b) * Q2Qc (1 # 2)).
(** [dist < tolerance] (305, 322). *)
Definition matching : Qc := Q2Qc (1 # 1000000).

Section Search.
(** The comparison of two sums of three distances, given by their squares (323-324). *)
Variable closer : Qc * Qc * Qc -> Qc * Qc * Qc -> bool.
(** The rounding of BezierModel. *)
Variable rounded : Qc -> Qc.

(** The loop of [find_matching_segment] (312-329). *)
Fixpoint find_loop (a b : point) (l : list source) (found : option (source * (Qc * Qc * Qc))) : option source :=
  match l with
  | [] => option_map fst found
  | s :: r =>
      match from_coords (s_contour s) with
      | Some bx =>
          if intersects bx (new_box a b) then
            match project a (windows (s_contour s)) None, project b (windows (s_contour s)) None, project (midpoint a b) (windows (s_contour s)) None with
            | Some da, Some db, Some dm =>
                if ltb da matching && ltb db matching && ltb dm matching
                then match found with
                     | Some (_, best) => if closer (da, db, dm) best then find_loop a b r (Some (s, (da, db, dm))) else find_loop a b r found
                     | None => find_loop a b r (Some (s, (da, db, dm)))
                     end
                else find_loop a b r found
            | _, _, _ => find_loop a b r found
            end
          else find_loop a b r found
      | None => find_loop a b r found
      end
  end.
(** [find_matching_segment] (296-331). *)
Definition find_matching (reg : list source) (a b : point) : option source := find_loop a b reg None.

(** [Action] (206-215), with points in place of places of the ring. *)
Inductive action :=
| Original (s : source) (from to : point)
| Straight (to : point).
(** The first loop of [segment_from_ring] (229-251); the actions are in the order of [done], the last first. *)
Fixpoint actions (reg : list source) (l : list (point * point)) (done : list action) : list action :=
  match l with
  | [] => rev done
  | (a, b) :: r =>
      match find_matching reg a b with
      | Some s =>
          match done with
          | Original s' from _ :: d => if (s_id s =? s_id s')%nat then actions reg r (Original s' from b :: d) else actions reg r (Original s a b :: done)
          | _ => actions reg r (Original s a b :: done)
          end
      | None => actions reg r (Straight b :: done)
      end
  end.
(** The second loop (253-291); [None] is a place that is not found, which panics (267-268). *)
Definition data_of (debug : bool) (a : action) : option data :=
  match a with
  | Straight to => Some (LineTo to)
  | Original s from to =>
      match s_data s with
      | LineTo _ => Some (LineTo to)
      | CurveTo c =>
          match t_at rounded (s_start s) c from matching, t_at rounded (s_start s) c to matching with
          | Some t1, Some t2 =>
              if ltb t2 t1 then option_map CurveTo (clamp_t debug (curve_end c) (reverse (s_start s) c) (1 - t1) (1 - t2))
              else option_map CurveTo (clamp_t debug (s_start s) c t1 t2)
          | _, _ => None
          end
      end
  end.
(** All or nothing (253-291): a panic ends the loop. *)
Fixpoint all_some {A} (l : list (option A)) : option (list A) :=
  match l with
  | [] => Some []
  | Some a :: r => match all_some r with Some x => Some (a :: x) | None => None end
  | None :: _ => None
  end.
(** [segment_from_ring] (205-294); [Segment::empty] (crates/oxvg_path/src/paths/segment.rs:100-106). *)
Definition segment_from_ring (debug : bool) (reg : list source) (ring : list point) : option segment :=
  match ring with
  | [] => Some (Seg (P 0 0) [] false)
  | first :: _ => match all_some (map (data_of debug) (actions reg (windows ring) [])) with Some d => Some (Seg first d true) | None => None end
  end.
(** [segment_path_from_shapes] (125-152): the rings of all shapes. *)
Definition path_from_shapes (debug : bool) (reg : list source) (shapes : list (list (list point))) : option (list segment) :=
  all_some (map (segment_from_ring debug reg) (concat shapes)).

(** [boolean_op] (crates/oxvg_path/src/algorithm/bool_ops.rs:95-121): [simplify] gets whether the rule is evenodd.  The map over the paths is lazy, but the
    loop goes through all of it (117-119) before the registry is used. *)
Variable simplify : bool -> list (list point) -> list (list (list point)).
(** bool_ops.rs:118. *)
Variable overlay : list (list (list point)) -> list (list (list point)) -> list (list (list point)).
(** bool_ops.rs:99-112. *)
Fixpoint flatten_all (id : nat) (l : list (list segment * bool)) : option (list (list (list (list point))) * list source) :=
  match l with
  | [] => Some ([], [])
  | (g, evenodd) :: r =>
      match flatten_path id g with
      | None => None
      | Some (rings, reg) => match flatten_all (id + List.length reg) r with
                             | None => None
                             | Some (shapes, reg') => Some (simplify evenodd rings :: shapes, reg ++ reg')
                             end
      end
  end.
(** bool_ops.rs:95-121. *)
Definition boolean_op (debug : bool) (paths : list (list segment * bool)) : option (list segment) :=
  match flatten_all 0 paths with
  | None => None
  | Some ([], _) => Some []
  | Some (first :: rest, reg) => path_from_shapes debug reg (fold_left overlay rest first)
  end.
End Search.
