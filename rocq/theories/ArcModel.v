(** Model of elliptical arcs: crates/oxvg_path/src/geometry/arc.rs (lines without a file are of this one) and geometry/ellipses.rs.

    Simplifications: numbers are reals, so that nothing is rounded. *)
From Coq Require Import Reals ZArith Bool.
From Verif Require Import EllipseModel.
Open Scope R_scope.

(** [Point] (crates/oxvg_path/src/geometry/point.rs:443-446). *)
Record point := P { px : R; py : R }.
(** [Point::rotate_radian] (geometry/point.rs:443-446). *)
Definition rotate_radian (p : point) (angle : R) : point := P (px p * cos angle - py p * sin angle) (px p * sin angle + py p * cos angle).
(** [distance_squared] (195; geometry/ellipses.rs:116). *)
Definition distance_squared (p q : point) : R := (px q - px p) * (px q - px p) + (py q - py p) * (py q - py p).
(** [Arc] (15-32). *)
Record arc := Arc { center : point; radii : point; start_angle : R; sweep_angle : R; x_rotation : R; memo : option point }.

(** [f64::atan2] ([Point::angle_radians], geometry/point.rs:288-290). *)
Definition atan2 (y x : R) : R :=
  if less 0 x then atan (y / x)
  else if less x 0 then (if less y 0 then atan (y / x) - PI else atan (y / x) + PI)
  else if less 0 y then PI / 2 else if less y 0 then - (PI / 2) else 0.
(** The whole part of a number towards zero, for the remainder [%] (371, 429). *)
Definition trunc (x : R) : Z := if less x 0 then (- Int_part (- x))%Z else Int_part x.
(** [f64 % f64] (371, 429). *)
Definition fmod (x m : R) : R := x - IZR (trunc (x / m)) * m.
(** [f64::round] (757): halves away from zero. *)
Definition round (x : R) : Z := if less x 0 then (- Int_part (- x + 1 / 2))%Z else Int_part (x + 1 / 2).
(** Equality of numbers (409, 437, 439, 747, 988). *)
Definition same (x y : R) : bool := if Req_EM_T x y then true else false.

(** [Ellipses::point_at_angle] (geometry/ellipses.rs:82-87), [Arc::point_at_angle] (292-294). *)
Definition ellipse_at (c r : point) (rotation angle : R) : point :=
  let q := rotate_radian (P (px r * cos angle) (py r * sin angle)) rotation in P (px c + px q) (py c + py q).
(** 292-294. *)
Definition point_at_angle (a : arc) (angle : R) : point := ellipse_at (center a) (radii a) (x_rotation a) angle.
(** [point_at] (273-275). *)
Definition point_at (a : arc) (t : R) : point := point_at_angle a (start_angle a + sweep_angle a * t).
(** [start_point] (125-127). *)
Definition start_point (a : arc) : point := point_at_angle a (start_angle a).
(** [end_point] (164-172). *)
Definition end_point (a : arc) : point := match memo a with Some p => p | None => point_at_angle a (start_angle a + sweep_angle a) end.

(** [is_arc_to_line] (987-989). *)
Definition is_arc_to_line (rx ry : R) (from to : point) : bool :=
  (less (Rabs rx) (1 / 100000) || less (Rabs ry) (1 / 100000) || (same (px from) (px to) && same (py from) (py to)))%bool.
(** [from_arc_to] (354-453); [None] means a line.  The arc is given with its memo, which [with_end_point_memo] (233-236) sets. *)
Definition from_arc_to (rx ry degrees large sweep : R) (to from : point) : option arc :=
  if is_arc_to_line rx ry from to then None else
  let x_rotation := radians degrees in
  let rx := Rabs rx in
  let ry := Rabs ry in
  let xr := fmod x_rotation (2 * PI) in
  let sin_phi := sin xr in
  let cos_phi := cos xr in
  let hd_x := (px from - px to) * (1 / 2) in
  let hd_y := (py from - py to) * (1 / 2) in
  let hs_x := (px from + px to) / 2 in
  let hs_y := (py from + py to) / 2 in
  let p_x := cos_phi * hd_x + sin_phi * hd_y in
  let p_y := - sin_phi * hd_x + cos_phi * hd_y in
  let rf := p_x * p_x / (rx * rx) + p_y * p_y / (ry * ry) in
  let scale := if less 1 rf then sqrt rf else 1 in
  let rx := rx * scale in
  let ry := ry * scale in
  let rxry := rx * ry in
  let rxpy := rx * p_y in
  let rypx := ry * p_x in
  let sum_of_sq := rxpy * rxpy + rypx * rypx in
  let sign_coe := if same large sweep then -1 else 1 in
  let coe := sign_coe * sqrt (Rabs ((rxry * rxry - sum_of_sq) / sum_of_sq)) in
  let cx := coe * rxpy / ry in
  let cy := - coe * rypx / rx in
  let center := P (cos_phi * cx - sin_phi * cy + hs_x) (sin_phi * cx + cos_phi * cy + hs_y) in
  let start_angle := atan2 ((p_y - cy) / ry) ((p_x - cx) / rx) in
  let end_angle := atan2 ((- p_y - cy) / ry) ((- p_x - cx) / rx) in
  let swept := fmod (end_angle - start_angle) (2 * PI) in
  let sweep_angle :=
    if (negb (same sweep 0) && less swept 0)%bool then swept + 2 * PI
    else if (same sweep 0 && less 0 swept)%bool then swept - 2 * PI else swept in
  Some (Arc center (P rx ry) start_angle sweep_angle x_rotation (Some to)).

(** [set_start_angle] and [set_sweep_angle] (91-100) forget the end point. *)
Definition with_angles (a : arc) (start sweep : R) : arc := Arc (center a) (radii a) start sweep (x_rotation a) None.
(** [subdivide_t] (841-852). *)
Definition subdivide_t (a : arc) (t : R) : arc * arc :=
  (with_angles a (start_angle a) (t * sweep_angle a), with_angles a (start_angle a + t * sweep_angle a) (sweep_angle a * (1 - t))).
(** [clamp_t] (878-886), where its assertions hold. *)
Definition clamp_t (a : arc) (t1 t2 : R) : arc := with_angles a (start_angle a + t1 * sweep_angle a) ((t2 - t1) * sweep_angle a).
(** [reverse] (937-945). *)
Definition reverse (a : arc) : arc := Arc (center a) (radii a) (start_angle a + sweep_angle a) (- sweep_angle a) (x_rotation a) None.

(** [ellipse_tolerance] (geometry/ellipses.rs:90-92). *)
Definition ellipse_tolerance (a : arc) (tolerance : R) : R := tolerance * (1 + Rmax (px (radii a)) (py (radii a)) ^ 2).
(** [angle_at_point] (geometry/ellipses.rs:111-121). *)
Definition angle_at_point (a : arc) (p : point) (tolerance : R) : option R :=
  let unrotated := rotate_radian (P (px p - px (center a)) (py p - py (center a))) (- x_rotation a) in
  let angle := atan2 (py unrotated / py (radii a)) (px unrotated / px (radii a)) in
  if Rle_dec (distance_squared (point_at_angle a angle) p) tolerance then Some angle else None.
(** [f64::clamp] (760). *)
Definition clamp_unit (t : R) : R := if less t 0 then 0 else if less 1 t then 1 else t.
(** [t_at] (740-769). *)
Definition t_at (a : arc) (p : point) (tolerance : R) : option R :=
  let tolerance := ellipse_tolerance a tolerance in
  match angle_at_point a p tolerance with
  | None => None
  | Some angle =>
      if same (sweep_angle a) 0 then (if Rle_dec (distance_squared (start_point a) p) tolerance then Some 0 else None) else
      let target := start_angle a + 1 / 2 * sweep_angle a in
      let k := round ((target - angle) / (2 * PI)) in
      let adjusted := angle + IZR k * (2 * PI) in
      let t := clamp_unit ((adjusted - start_angle a) / sweep_angle a) in
      if Rle_dec (distance_squared (point_at_angle a (start_angle a + t * sweep_angle a)) p) tolerance then Some t else None
  end.
(** The flags of [to_arc_to] (636-648). *)
Definition large_flag (a : arc) : R := if less PI (Rabs (sweep_angle a)) then 1 else 0.
(** 644. *)
Definition sweep_flag (a : arc) : R := if less 0 (sweep_angle a) then 1 else 0.

(** [radius_factor] (crates/oxvg_path/src/math.rs:70-89), of an arc (963-971). *)
Definition radius_factor (a : arc) : R :=
  if (same (px (radii a)) 0 || same (py (radii a)) 0)%bool then 0 else
  let rx := Rabs (px (radii a)) in
  let ry := Rabs (py (radii a)) in
  let xr := fmod (x_rotation a) (2 * PI) in
  let x_mid := (px (start_point a) - px (end_point a)) * (1 / 2) in
  let y_mid := (py (start_point a) - py (end_point a)) * (1 / 2) in
  let x_prime := cos xr * x_mid + sin xr * y_mid in
  let y_prime := - sin xr * x_mid + cos xr * y_mid in
  x_prime ^ 2 / rx ^ 2 + y_prime ^ 2 / ry ^ 2.
(** [precision.scale(a).abs() as u32] (crates/oxvg_path/src/math.rs:40-42; geometry.rs:92-94): the cast saturates. *)
Definition scale_u32 (precision x : R) : Z := Z.min 4294967295 (Z.abs (round (x * precision))).
(** Whether a number is near a whole one (crates/oxvg_path/src/math.rs:59-60). *)
Definition near_whole (positional x : R) : bool := less (Rabs (x - IZR (round x))) positional.
(** The loop of [euclid_gcd_lossy] (crates/oxvg_path/src/math.rs:46-65); [None] when there is not enough fuel. *)
Fixpoint euclid (a b positional precision : R) (fuel : nat) (u v : Z) {struct fuel} : option R :=
  match fuel with
  | O => None
  | S fuel =>
      if (v =? 0)%Z then Some (IZR u / precision) else
      let g := IZR v / precision in
      if (near_whole positional (a / g) && near_whole positional (b / g))%bool then Some g
      else euclid a b positional precision fuel v (u mod v)
  end.
(** [euclid_gcd_lossy] (crates/oxvg_path/src/math.rs:33-66). *)
Definition euclid_gcd_lossy (a b positional precision : R) : option R :=
  let u := scale_u32 precision a in
  let v := scale_u32 precision b in
  euclid a b positional precision (S (S (Z.to_nat (Z.min u v)))) (Z.max u v) (Z.min u v).
(** [Quadrant::A] of a difference (631; geometry/point.rs:305-319). *)
Definition quadrant_a (p q : point) : bool := (negb (less (px p) (px q)) && negb (less (py p) (py q)))%bool.
(** The loop that halves the radii (631-633). *)
Fixpoint halve (fuel : nat) (simple limit : point) {struct fuel} : option point :=
  if quadrant_a simple limit then
    match fuel with O => None | S fuel => halve fuel (P (px simple / 2) (py simple / 2)) limit end
  else Some simple.
(** What [to_arc_to] (616-651) comes to: the parameters of a command, a loop that does not end, as the radii were divided by zero and an infinite number stays so when
    it is halved, or no answer as the fuel of the model is used up. *)
Inductive written := Command (rx ry degrees large sweep : R) (to : point) | Endless | Unfinished.
(** [to_arc_to] (616-651). *)
Definition to_arc_to (fuel : nat) (a : arc) (positional precision : R) : written :=
  let finish (r : point) := Command (px r) (py r) (x_rotation a * 180 / PI) (large_flag a) (sweep_flag a) (end_point a) in
  let lambda := radius_factor a in
  let limit := P (px (radii a) * sqrt lambda) (py (radii a) * sqrt lambda) in
  if (less 1 lambda || less (distance_squared limit (radii a)) (positional * positional))%bool then
    match euclid_gcd_lossy (px (radii a)) (py (radii a)) positional precision with
    | None => Unfinished
    | Some denom =>
        if same denom 0 then Endless else
        match halve fuel (P (px (radii a) / denom) (py (radii a) / denom)) limit with Some r => finish r | None => Unfinished end
    end
  else finish (radii a).
