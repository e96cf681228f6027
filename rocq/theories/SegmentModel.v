(** Model of path segments: reading path commands into segments ([Data::take], [Segment::take],
    [Path::from_svg] in crates/oxvg_path/src/paths/segment/convert.rs) and writing segments as
    path commands again ([Path::to_svg]), which together are [Path::optimize] without options
    (crates/oxvg_path/src/optimize.rs:115-129).

    Simplifications: coordinates are rational numbers instead of doubles, so that the arithmetic
    is exact apart from the rounding the code asks for; an arc keeps its end point arguments
    instead of being turned into a centre and two angles (geometry/arc.rs:354-439), and writing an
    arc is not modelled ([None]); [Data::Implicit] is a flag beside the command, which reading
    ignores (convert.rs:169-172); an x/y pair of arguments is a point; the precision is a natural
    number of decimal places. *)
From Coq Require Import String List NArith ZArith QArith Qcanon Bool Arith Lia.
From Verif Require Import Chars ParseModel PathModel.
Import ListNotations.
Local Close Scope Q_scope.
Local Open Scope nat_scope.

(** [Point] (geometry/point.rs:8-10). *)
Record point := P { px : Qc; py : Qc }.
(** Derived [PartialEq] (point.rs:8). *)
Definition point_eqb (a b : point) : bool := Qc_eq_bool (px a) (px b) && Qc_eq_bool (py a) (py b).
(** [Add], [Sub] and [Mul<f64>] (point.rs:43-49, 116-122, 97-103). *)
Definition padd (a b : point) : point := P (px a + px b)%Qc (py a + py b)%Qc.
(** [Sub] (geometry/point.rs:116-122). *)
Definition psub (a b : point) : point := P (px a - px b)%Qc (py a - py b)%Qc.
(** [Mul<f64>] (geometry/point.rs:97-103). *)
Definition pmul (a : point) (k : Qc) : point := P (px a * k)%Qc (py a * k)%Qc.
(** [Point::reflect] (point.rs:485-487). *)
Definition reflect (a base : point) : point := P ((1 + 1) * px base - px a)%Qc ((1 + 1) * py base - py a)%Qc.
(** [Point::distance_squared] (point.rs:396-398) with [len_squared] (point.rs:256-258). *)
Definition distance_squared (a b : point) : Qc :=
  let d := psub a b in (px d * px d + py d * py d)%Qc.
(** [<] on numbers (convert.rs:205-207 and so on). *)
Definition ltb (a b : Qc) : bool := match (a ?= b)%Qc with Lt => true | _ => false end.

(** [Tolerance] (geometry.rs:28-40): the fields used here. *)
Record tolerance := Tol { positional : Qc; precision : nat }.
(** [distance_squared < tolerance_squared], as in convert.rs:205-207 and curve.rs:112-115, 227, 342-344;
    [Tolerance::square] (geometry.rs:65-67). *)
Definition near (t : tolerance) (a b : point) : bool :=
  ltb (distance_squared a b) (positional t * positional t)%Qc.

(** [f64::round]: to the nearest whole number, halves away from zero. *)
Definition round_half (q : Q) : Z :=
  if (0 <=? Qnum q)%Z then ((2 * Qnum q + Zpos (Qden q)) / (2 * Zpos (Qden q)))%Z
  else (- ((- (2 * Qnum q) + Zpos (Qden q)) / (2 * Zpos (Qden q))))%Z.
(** The scale of [Tolerance::precision] (geometry.rs:70-72). *)
Definition pow10 (p : nat) : positive := Z.to_pos (10 ^ Z.of_nat p).
(** [TolerancePrecision::scale] (geometry.rs:92-94). *)
Definition scale (p : nat) (x : Qc) : Z := round_half (this x * inject_Z (Zpos (pow10 p))).
(** [TolerancePrecision::round] (geometry.rs:102-104). *)
Definition rnd (p : nat) (x : Qc) : Qc := Q2Qc (Qmake (scale p x) (pow10 p)).

(** ** Commands (paths/svg/command.rs:14-57); the flag [rel] tells [..By] from [..To]. *)
Inductive cmd :=
| Move (rel : bool) (p : point)
| Close
| Line (rel : bool) (p : point)
| Hor (rel : bool) (x : Qc)
| Ver (rel : bool) (y : Qc)
| Cubic (rel : bool) (c1 c2 p : point)
| Smooth (rel : bool) (c2 p : point)
| Quad (rel : bool) (c p : point)
| SmoothQuad (rel : bool) (p : point)
| Arc (rel : bool) (rx ry rot : Qc) (large sweep : bool) (p : point).

(** Segment data (segment.rs:14-22) and [Curve] (geometry/curve.rs:4-13). *)
Inductive sdata :=
| LineTo (p : point)
| CurveTo (c1 c2 p : point)
| ArcTo (rx ry rot : Qc) (large sweep : bool) (p : point).
(** [Data::end_point] (segment.rs:50-56). *)
Definition end_point (d : sdata) : point :=
  match d with LineTo p | CurveTo _ _ p | ArcTo _ _ _ _ _ p => p end.

(** [Segment] (segment.rs:35-41). *)
Record segment := Seg { s_start : point; s_data : list sdata; s_closed : bool }.

(** [2.0 / 3.0] (curve.rs:88-89). *)
Definition two_thirds : Qc := Q2Qc (2 # 3).
(** [1.5] (curve.rs:113, 141). *)
Definition one_half : Qc := Q2Qc (3 # 2).
(** [Curve::new_quad] (curve.rs:87-91). *)
Definition new_quad (quad_control start e : point) : sdata :=
  CurveTo (padd start (pmul (psub quad_control start) two_thirds))
          (padd e (pmul (psub quad_control e) two_thirds)) e.

(** [is_arc_to_line] (geometry/arc.rs:988-990). *)
Definition is_arc_to_line (rx ry : Qc) (to cursor : point) : bool :=
  let small x := ltb x (Q2Qc (1 # 100000)) && ltb (- Q2Qc (1 # 100000))%Qc x in
  small rx || small ry || point_eqb cursor to.

(** What [Data::take] reads and writes besides its result (convert.rs:15-21). *)
Record tstate := TS { t_start : point; t_cursor : point; t_control : option point; t_z : bool }.

(** A relative or absolute argument pair (convert.rs:24-95). *)
Definition resolve (rel : bool) (cursor p : point) : point := if rel then padd cursor p else p.
(** The reflected control of the smooth commands (convert.rs:98-102, 111-115, 124-128, 137-141). *)
Definition smooth_control (last : option point) (cursor : point) : point :=
  match last with Some c => reflect c cursor | None => cursor end.

(** [Data::take] (convert.rs:15-175). *)
Definition take (c : cmd) (s : tstate) : option sdata * tstate :=
  let '(TS start cursor last z) := s in
  match c with
  | Move rel a => let p := resolve rel cursor a in (None, TS p p None z)
  | Line rel a => let p := resolve rel cursor a in (Some (LineTo p), TS start p None z)
  | Hor rel x => let p := P (if rel then (px cursor + x)%Qc else x) (py cursor) in (Some (LineTo p), TS start p None z)
  | Ver rel y => let p := P (px cursor) (if rel then (py cursor + y)%Qc else y) in (Some (LineTo p), TS start p None z)
  | Cubic rel a b e =>
      let c1 := resolve rel cursor a in let c2 := resolve rel cursor b in let p := resolve rel cursor e in
      (Some (CurveTo c1 c2 p), TS start p (Some c2) z)
  | Quad rel a e =>
      let q := resolve rel cursor a in let p := resolve rel cursor e in
      (Some (new_quad q cursor p), TS start p (Some q) z)
  | Smooth rel b e =>
      let c1 := smooth_control last cursor in
      let c2 := resolve rel cursor b in let p := resolve rel cursor e in
      (Some (CurveTo c1 c2 p), TS start p (Some c2) z)
  | SmoothQuad rel e =>
      let q := smooth_control last cursor in
      let p := resolve rel cursor e in
      (Some (new_quad q cursor p), TS start p (Some q) z)
  | Arc rel rx ry rot large sweep e =>
      let p := resolve rel cursor e in
      (Some (if is_arc_to_line rx ry p cursor then LineTo p else ArcTo rx ry rot large sweep p), TS start p None z)
  | Close => (None, TS start cursor None true)
  end.

(** The [for] loop of [Segment::take] (convert.rs:191-197), giving the data, the state and the
    commands left. *)
Fixpoint take_loop (l : list cmd) (s : tstate) (acc : list sdata) : list sdata * tstate * list cmd :=
  match l with
  | [] => (rev acc, s, [])
  | c :: l => match take c s with
              | (Some d, s') => take_loop l s' (d :: acc)
              | (None, s') => (rev acc, s', l)
              end
  end.

(** [Segment::take] (convert.rs:178-209), giving the segment, [start], [cursor] and the commands
    left. *)
Definition take_segment (t : tolerance) (l : list cmd) (start cursor : point) : segment * point * point * list cmd :=
  let '(data, s, rest) := take_loop l (TS start cursor None false) [] in
  match data with
  | [] => (Seg start [] false, t_start s, t_cursor s, rest)
  | _ =>
    if t_z s then (Seg start data true, t_start s, start, rest)
    else (Seg start data (near t (t_start s) (end_point (last data (LineTo start)))), t_start s, t_cursor s, rest)
  end.

(** The [while] loop of [Path::from_svg] (convert.rs:225-228). Every turn uses up a command, so
    the length of the list is enough fuel. *)
Fixpoint from_loop (t : tolerance) (fuel : nat) (l : list cmd) (start cursor : point) : list segment :=
  match fuel, l with
  | S fuel, _ :: _ =>
      let '(g, start, cursor, rest) := take_segment t l start cursor in
      g :: from_loop t fuel rest start cursor
  | _, _ => []
  end.

(** [Path::from_svg] (convert.rs:216-237); [None] for the [unreachable!] of line 222. *)
Definition from_svg (t : tolerance) (l : list cmd) : option (list segment) :=
  match l with
  | [] => Some []
  | Move _ p :: l =>
      Some (match from_loop t (List.length l) l p p with
            | [] => [Seg p [] false]
            | r => r
            end)
  | _ => None
  end.

(** ** Writing *)

(** [Data::id] (command.rs:121-144) without the flag. *)
Definition id_of (c : cmd) : id :=
  match c with
  | Move false _ => PathModel.MoveTo | Move true _ => PathModel.MoveBy
  | Close => PathModel.ClosePath
  | Line false _ => PathModel.LineTo | Line true _ => PathModel.LineBy
  | Hor false _ => PathModel.HorTo | Hor true _ => PathModel.HorBy
  | Ver false _ => PathModel.VerTo | Ver true _ => PathModel.VerBy
  | Cubic false _ _ _ => PathModel.CubicTo | Cubic true _ _ _ => PathModel.CubicBy
  | Smooth false _ _ => PathModel.SmoothTo | Smooth true _ _ => PathModel.SmoothBy
  | Quad false _ _ => PathModel.QuadTo | Quad true _ _ => PathModel.QuadBy
  | SmoothQuad false _ => PathModel.SmoothQuadTo | SmoothQuad true _ => PathModel.SmoothQuadBy
  | Arc false _ _ _ _ _ _ => PathModel.ArcTo | Arc true _ _ _ _ _ _ => PathModel.ArcBy
  end.

(** [Data::args] (command.rs:147-171). *)
Definition args (c : cmd) : list Qc :=
  match c with
  | Close => []
  | Move _ p | Line _ p | SmoothQuad _ p => [px p; py p]
  | Hor _ x => [x]
  | Ver _ y => [y]
  | Smooth _ c p | Quad _ c p => [px c; py c; px p; py p]
  | Cubic _ c1 c2 p => [px c1; py c1; px c2; py c2; px p; py p]
  | Arc _ rx ry rot l s p => [rx; ry; rot; if l then 1%Qc else 0%Qc; if s then 1%Qc else 0%Qc; px p; py p]
  end.

(** [Data::round] (command.rs:198-207); the end point of an arc is left alone. *)
Definition round_point (p : nat) (a : point) : point := P (rnd p (px a)) (rnd p (py a)).
(** [Data::round] (command.rs:198-207). *)
Definition round_cmd (p : nat) (c : cmd) : cmd :=
  let r := round_point p in
  match c with
  | Close => Close
  | Move b a => Move b (r a)
  | Line b a => Line b (r a)
  | Hor b x => Hor b (rnd p x)
  | Ver b y => Ver b (rnd p y)
  | Cubic b c1 c2 a => Cubic b (r c1) (r c2) (r a)
  | Smooth b c a => Smooth b (r c) (r a)
  | Quad b c a => Quad b (r c) (r a)
  | SmoothQuad b a => SmoothQuad b (r a)
  | Arc b rx ry rot l s a => Arc b (rnd p rx) (rnd p ry) (rnd p rot) l s a
  end.

(** The decimal a rounded argument is printed as: the shortest decimal of [scale x / 10^p]. *)
Fixpoint uint_digits (u : Decimal.uint) : list N :=
  match u with
  | Decimal.Nil => []
  | Decimal.D0 u => 0%N :: uint_digits u | Decimal.D1 u => 1%N :: uint_digits u
  | Decimal.D2 u => 2%N :: uint_digits u | Decimal.D3 u => 3%N :: uint_digits u
  | Decimal.D4 u => 4%N :: uint_digits u | Decimal.D5 u => 5%N :: uint_digits u
  | Decimal.D6 u => 6%N :: uint_digits u | Decimal.D7 u => 7%N :: uint_digits u
  | Decimal.D8 u => 8%N :: uint_digits u | Decimal.D9 u => 9%N :: uint_digits u
  end.
(** (command.rs:198-207, 485). *)
Definition to_dec (p : nat) (x : Qc) : dec :=
  let n := scale p x in
  shortest (n <? 0)%Z (uint_digits (N.to_uint (Z.to_N (Z.abs n)))) (- Z.of_nat p).

(** A written command: the flag of [Data::Implicit] and the command (command.rs:14-57, 293-302). *)
Definition out := (bool * cmd)%type.
(** The command as path data (PathModel), for printing; its arguments are rounded already (command.rs:293-302). *)
Definition to_data (p : nat) (o : out) : data :=
  D (fst o) (id_of (snd o)) (map (to_dec p) (args (snd o))).

(** The length [compactest_vec] compares (convert.rs:557-569), with [size_hint_with_args]
    (command.rs:274-284). *)
Definition cost (p : nat) (previous : option out) (o : out) : nat :=
  let d := to_data p o in
  let len := List.length (format_single d) in
  let negative := d_implicit d && match d_args d with a :: _ => lt a zero | [] => false end in
  match previous with
  | Some q =>
    match d_args (to_data p q), d_args d with
    | _ :: _, _ :: _ =>
      if d_implicit d && is_space_needed (d_args d) (d_args (to_data p q)) && negb negative then S len else len
    | _, _ => len
    end
  | None => len
  end.

(** The order of [min_by] (convert.rs:570-573): [a] is strictly before [b]. *)
Definition before (p : nat) (previous : option out) (a b : out) : bool :=
  let ca := cost p previous a in let cb := cost p previous b in
  (ca <? cb) || (ca =? cb) && (fst a && negb (fst b)).
(** [Iterator::min_by]: the first of the smallest (convert.rs:570). *)
Fixpoint min_by (lt : out -> out -> bool) (best : out) (l : list out) : out :=
  match l with
  | [] => best
  | a :: l => min_by lt (if lt a best then a else best) l
  end.
(** [compactest_vec] (convert.rs:538-576); [None] for the [unwrap] of nothing. *)
Definition compactest (t : tolerance) (previous : option out) (l : list cmd) (implicit : option id) : option out :=
  let p := precision t in
  let l := map (fun d => (match implicit with Some i => id_eqb i (id_of d) | None => false end, round_cmd p d)) l in
  match l with
  | [] => None
  | a :: l => Some (min_by (before p previous) a l)
  end.

(** [to_svg_line] (convert.rs:332-358). *)
Definition to_svg_line (t : tolerance) (previous : option out) (segment_start start to : point) (implicit : option id) : option out :=
  let by_ := psub to start in
  let r := rnd (precision t) in
  if point_eqb start to then Some (false, Close)
  else if Qc_eq_bool (r (px to)) (r (px start)) then compactest t previous [Ver true (py by_); Ver false (py to)] implicit
  else if Qc_eq_bool (r (py to)) (r (py start)) then compactest t previous [Hor true (px by_); Hor false (px to)] implicit
  else if point_eqb to segment_start then Some (false, Close)
  else compactest t previous [Line true by_; Line false to] implicit.

(** [Curve::quad_control_unchecked] (curve.rs:140-142) and [Curve::quad_control]
    (curve.rs:111-120). *)
Definition quad_control_unchecked (c1 start : point) : point := padd start (pmul (psub c1 start) one_half).
(** [Curve::quad_control] (curve.rs:111-120). *)
Definition quad_control (t : tolerance) (c1 c2 e start : point) : option point :=
  let q := quad_control_unchecked c1 start in
  if near t q (padd e (pmul (psub c2 e) one_half)) then Some q else None.
(** [Curve::is_smooth] (curve.rs:336-345). *)
Definition is_smooth (t : tolerance) (c1 start : point) (control : option point) : bool :=
  near t c1 (match control with Some c => reflect c start | None => start end).
(** [smooth_quadratic_bezier_unchecked_quad] (curve.rs:222-234). *)
Definition smooth_quad (t : tolerance) (start : point) (control : option point) (q : point) : bool :=
  match control with Some c => near t q (reflect c start) | None => false end.

(** [to_svg_curve] (convert.rs:361-472), with [Curve::types] (curve.rs:300-333). *)
Definition to_svg_curve (t : tolerance) (previous : option out) (control : option point) (start : point)
    (c1 c2 to : point) (next : option sdata) (implicit : option id) : option (out * option point) :=
  let by_ := psub to start in
  let quad := quad_control t c1 c2 to start in
  let squad := match quad with Some q => smooth_quad t start control q | None => false end in
  let cubics :=
    if is_smooth t c1 start control
    then [Smooth true (psub c2 start) by_; Smooth false c2 to]
    else [Cubic true (psub c1 start) (psub c2 start) by_; Cubic false c1 c2 to] in
  let next_is_smooth :=
    match quad, next with
    | Some q, Some (CurveTo n1 n2 np) =>
        match quad_control t n1 n2 np to with
        | Some c => smooth_quad t to (Some q) c
        | None => false
        end
    | _, _ => false
    end in
  let cubics := if next_is_smooth then [] else cubics in
  let quads :=
    if squad then [SmoothQuad true by_; SmoothQuad false to]
    else match quad with
         | Some q => [Quad true (psub q start) by_; Quad false q to]
         | None => []
         end in
  match compactest t previous (cubics ++ quads) implicit with
  | None => None
  | Some o =>
    let control := match snd o with
                   | Quad _ _ _ => quad
                   | SmoothQuad _ _ => match control with Some c => Some (reflect c start) | None => None end
                   | Cubic _ _ _ _ | Smooth _ _ _ => Some (match quad with Some q => q | None => c2 end)
                   | _ => None
                   end in
    Some (o, control)
  end.

(** [Segment::end_point] (segment.rs:149-157). *)
Definition segment_end (g : segment) : point :=
  if s_closed g then s_start g else end_point (last (s_data g) (LineTo (s_start g))).

(** The command written before the first command of a segment, and that command again, which may
    have become implicit (convert.rs:302-317). *)
Definition with_move (t : tolerance) (start start_by : point) (o : out) : list out :=
  let r := round_point (precision t) in
  match snd o with
  | Line true _ => [(false, Move true (r start_by)); (true, snd o)]
  | Line false _ => [(false, Move false (r start)); (true, snd o)]
  | _ => [(false, Move false (r start)); o]
  end.

(** The loop of [to_svg] over the data of one segment (convert.rs:252-326, segment.rs:226-266):
    [prev] is [None] for the first command. Gives what is written and the control left over. *)
Fixpoint to_svg_data (t : tolerance) (g : segment) (start_by : point) (l : list sdata)
    (prev : option out) (cursor : point) (control : option point) : option (list out * option point) :=
  match l with
  | [] => Some ([], control)
  | d :: l =>
    let implicit := match prev with Some o => Some (next_implicit (id_of (snd o))) | None => None end in
    match
      match d with
      | LineTo to => match to_svg_line t prev (s_start g) cursor to implicit with
                     | Some o => Some (o, None)
                     | None => None
                     end
      | ArcTo _ _ _ _ _ _ => None
      | CurveTo c1 c2 to => to_svg_curve t prev control cursor c1 c2 to (hd_error l) implicit
      end
    with
    | None => None
    | Some (o, control) =>
      let written := match prev with None => with_move t (s_start g) start_by o | Some _ => [o] end in
      let close := s_closed g && (match l with [] => true | _ => false end)
                   && negb (id_eqb (id_of (snd o)) PathModel.ClosePath) in
      let written := if close then written ++ [(false, Close)] else written in
      match to_svg_data t g start_by l (Some o) (end_point d) control with
      | None => None
      | Some (rest, control) => Some (written ++ rest, control)
      end
    end
  end.

(** [to_svg] (convert.rs:242-329). [prev_end] is the end of the segment before
    (segment.rs:230-234); the control point carries over between segments (convert.rs:251,264). *)
Fixpoint to_svg_loop (t : tolerance) (path : list segment) (prev_end : option point) (control : option point) : option (list out) :=
  match path with
  | [] => Some []
  | g :: path =>
    let start_by := match prev_end with Some e => psub (s_start g) e | None => s_start g end in
    match
      match s_data g with
      | [] => Some ([(false, Move false (round_point (precision t) (s_start g)))], None)
      | l => to_svg_data t g start_by l None (s_start g) control
      end
    with
    | None => None
    | Some (o, control) =>
      match to_svg_loop t path (Some (segment_end g)) control with
      | None => None
      | Some rest => Some (o ++ rest)
      end
    end
  end.
(** [to_svg] from its start (convert.rs:242-329). *)
Definition to_svg (t : tolerance) (path : list segment) : option (list out) := to_svg_loop t path None None.

(** [Path::optimize] with no options (optimize.rs:115-129; [simplify] then changes nothing,
    simplify.rs:14-41). *)
Definition optimize (t : tolerance) (l : list cmd) : option (list out) :=
  match from_svg t l with
  | Some path => to_svg t path
  | None => None
  end.
