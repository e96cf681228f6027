(** Model of transform simplification: crates/oxvg_collections/src/attribute/transform.rs (called transform.rs below)
    and crates/oxvg_optimiser/src/jobs/convert_transform.rs (convert_transform.rs).

    Simplification: [f32] values are real numbers, without rounding by the machine; the trigonometric functions are
    the mathematical ones. The lengths of printed transforms and the numbers of digits of printed numbers come from
    external printers and are parameters. *)
From Coq Require Import Reals List ZArith Bool Arith.
Import ListNotations.
Open Scope R_scope.

(** [Matrix] of lightningcss, as used at transform.rs:26. *)
Record matrix := Mat { ma : R; mb : R; mc : R; md : R; me : R; mf : R }.
(** [SVGTransform] (transform.rs:24-39). Simplification: a CSS transform is a number that identifies it and its 2D
    matrix, if it has one. *)
Inductive transform :=
| Matrix (m : matrix)
| Translate (x y : R)
| Scale (x y : R)
| Rotate (deg x y : R)
| SkewX (deg : R)
| SkewY (deg : R)
| Css (id : nat) (m : option matrix).

(** Comparison of numbers with [==], [<] and [>=] (transform.rs, throughout; Such as transform.rs:162-205). *)
Definition eqb (x y : R) : bool := if Req_EM_T x y then true else false.
(** [<] (transform.rs:162-205 and so on). *)
Definition ltb (x y : R) : bool := if Rlt_dec x y then true else false.
(** [>=] (transform.rs:162-205 and so on). *)
Definition geb (x y : R) : bool := negb (ltb x y).

(** [f32::to_radians] and [f32::to_degrees] (transform.rs:182, 193, 222, 230, 252, 433, 562). *)
Definition to_radians (a : R) : R := a * PI / 180.
(** [f32::to_degrees] (transform.rs:182, 193, 222, 230). *)
Definition to_degrees (a : R) : R := a * 180 / PI.
(** [f32::hypot] (transform.rs:162, 205). *)
Definition hypot (x y : R) : R := sqrt (x * x + y * y).

(** ** Rounding *)

(** [f32::round] (transform.rs:630, 651): to the nearest integer, halves away from zero. *)
Definition round (x : R) : R :=
  if ltb x 0 then - IZR (Int_part (- x + 1 / 2)) else IZR (Int_part (x + 1 / 2)).
(** [f32::powi] (transform.rs:636, 650). *)
Definition powi (x : R) (n : Z) : R := powerRZ x n.
(** [Precision::to_fixed] (transform.rs:649-652). *)
Definition to_fixed (data : R) (precision : Z) : R := let pow := powi 10 precision in round (data * pow) / pow.
(** [Precision::smart_round] (transform.rs:635-647). *)
Definition smart_round (precision : Z) (data : R) : R :=
  let tolerance := to_fixed (powi (1 / 10) precision) precision in
  if eqb (to_fixed data precision) data then data
  else
    let rounded := to_fixed data (precision - 1) in
    if geb (to_fixed (Rabs (rounded - data)) (precision + 1)) tolerance then to_fixed data precision else rounded.
(** [Precision::round_arg] (transform.rs:626-632). *)
Definition round_arg (precision : Z) (data : R) : R :=
  if (1 <=? precision)%Z && (precision <? 20)%Z then smart_round precision data else round data.
(** [Precision] (transform.rs:49-56). *)
Record precision := Precision { p_float : Z; p_deg : Z; p_transform : Z }.
(** [SVGTransform::round] (transform.rs:60-93). *)
Definition round_transform (p : precision) (t : transform) : transform :=
  match t with
  | Translate x y => Translate (round_arg (p_float p) x) (round_arg (p_float p) y)
  | Rotate d x y => Rotate (round_arg (p_deg p) d) (round_arg (p_float p) x) (round_arg (p_float p) y)
  | SkewX a => SkewX (round_arg (p_deg p) a)
  | SkewY a => SkewY (round_arg (p_deg p) a)
  | Scale x y => Scale (round_arg (p_transform p) x) (round_arg (p_transform p) y)
  | Matrix (Mat a b c d e f) =>
    let t := p_transform p in let l := p_float p in
    Matrix (Mat (round_arg t a) (round_arg t b) (round_arg t c) (round_arg t d) (round_arg l e) (round_arg l f))
  | Css i m => Css i m
  end.

(** ** Decompositions *)

(** [SVGTransform::qrab] (transform.rs:155-196). *)
Definition qrab (m : matrix) : option (list transform) :=
  let '(Mat a b c d e f) := m in
  let delta := a * d - b * c in
  if eqb delta 0 then None
  else
    let radius := hypot a b in
    if eqb radius 0 then None
    else
      let cos := a / radius in
      let sx := radius in
      let sy := delta / sx in
      let ac_bd := a * c + b * d in
      Some ((if negb (eqb e 0) || negb (eqb f 0) then [Translate e f] else []) ++
            (if negb (eqb cos 1)
             then [Rotate (to_degrees (if ltb b 0 then acos cos * -1 else acos cos)) 0 0] else []) ++
            (if negb (eqb sx 1) || negb (eqb sy 1) then [Scale sx sy] else []) ++
            (if negb (eqb ac_bd 0) then [SkewX (to_degrees (atan (ac_bd / (a * a + b * b))))] else [])).
(** [SVGTransform::qrcd] (transform.rs:198-234). *)
Definition qrcd (m : matrix) : option (list transform) :=
  let '(Mat a b c d e f) := m in
  let delta := a * d - b * c in
  if eqb delta 0 then None
  else
    let s := hypot c d in
    if eqb s 0 then None
    else
      let rad := PI / 2 - (if ltb d 0 then -1 else 1) * acos (- c / s) in
      let sx := delta / s in
      let sy := s in
      let ac_bd := a * c + b * d in
      Some ((if negb (eqb e 0) || negb (eqb f 0) then [Translate e f] else []) ++
            [Rotate (to_degrees rad) 0 0] ++
            (if negb (eqb sx 1) || negb (eqb sy 1) then [Scale sx sy] else []) ++
            (if negb (eqb ac_bd 0) then [SkewY (to_degrees (atan (ac_bd / (c * c + d * d))))] else [])).
(** [SVGTransform::get_compositions] (transform.rs:141-153). *)
Definition get_compositions (m : matrix) : list (list transform) :=
  (match qrcd m with Some l => [l] | None => [] end) ++ (match qrab m with Some l => [l] | None => [] end).

(** [SVGTransform::is_identity] (transform.rs:236-242). *)
Definition is_identity (t : transform) : bool :=
  match t with
  | Rotate n _ _ | SkewX n | SkewY n => eqb n 0
  | Scale x y | Translate x y => eqb x 1 && eqb y 1
  | Matrix _ | Css _ _ => false
  end.
(** [SVGTransform::merge_translate_and_rotate] (transform.rs:244-258). [None] is [unreachable!]. *)
Definition merge_translate_and_rotate (translate rotate : transform) : option transform :=
  match translate, rotate with
  | Translate tx ty, Rotate a x y =>
    if eqb x 0 && eqb y 0 then
      let rad := to_radians a in
      let d := 1 - cos rad in
      let e := sin rad in
      let cy := (d * ty + e * tx) / (d * d + e * e) in
      let cx := (tx - e * cy) / d in
      Some (Rotate a cx cy)
    else None
  | _, _ => None
  end.

(** The loop of [SVGTransformList::optimize] (transform.rs:511-547), over the two lists at once; [skip] drops the second
    element of each pair consumed. [None] is a panic: [unreachable!], or the lengths differ (507). *)
Fixpoint optimize_loop (rounded raw : list transform) (skip : bool) : option (list transform) :=
  match rounded, raw with
  | [], [] => Some []
  | item :: rounded, raw_item :: raw =>
    if skip then optimize_loop rounded raw false
    else if is_identity item then optimize_loop rounded raw false
    else
      let push t skip := option_map (cons t) (optimize_loop rounded raw skip) in
      match item with
      | Rotate n x y =>
        if eqb x 0 && eqb y 0 && eqb (Rabs n) 180 then
          match rounded with
          | Scale x y :: _ => push (Scale (- x) (- y)) true
          | _ => push (Scale (-1) (-1)) false
          end
        else push item false
      | Translate _ _ =>
        match rounded, raw with
        | Rotate n x y :: _, rotate :: _ =>
          if negb (eqb n 180) && negb (eqb n (-180)) && negb (eqb n 0) && eqb x 0 && eqb y 0 then
            match merge_translate_and_rotate raw_item rotate with Some t => push t true | None => None end
          else push item false
        | _, _ => push item false
        end
      | Matrix _ => None
      | _ => push item false
      end
  | _, _ => None
  end.
(** [SVGTransformList::optimize] (transform.rs:506-555). *)
Definition optimize (rounded raw : list transform) : option (list transform) :=
  option_map (fun l => match l with [] => [Scale 1 1] | _ => l end) (optimize_loop rounded raw false).

(** ** The matrix of a list *)

(** [Matrix3d::multiply] of lightningcss, restricted to 2D: first [n], then [m] (transform.rs:566). *)
Definition mul (m n : matrix) : matrix :=
  let '(Mat a b c d e f) := m in
  let '(Mat a' b' c' d' e' f') := n in
  Mat (a * a' + c * b') (b * a' + d * b') (a * c' + c * d') (b * c' + d * d') (a * e' + c * f' + e) (b * e' + d * f' + f).
(** [SVGTransform -> Transform] and its matrix (transform.rs:419-450 and 561-565). *)
Definition to_matrix1 (t : transform) : option matrix :=
  match t with
  | Matrix m => Some m
  | Translate x y => Some (Mat 1 0 0 1 x y)
  | Scale x y => Some (Mat x 0 0 y 0 0)
  | Rotate angle x y =>
    let rad := to_radians angle in
    if eqb x 0 && eqb y 0 then Some (Mat (cos rad) (sin rad) (- sin rad) (cos rad) 0 0)
    else
      let cos := cos rad in let sin := sin rad in
      Some (Mat cos sin (- sin) cos ((1 - cos) * x + sin * y) ((1 - cos) * y - sin * x))
  | SkewX a => Some (Mat 1 0 (tan (to_radians a)) 1 0 0)
  | SkewY a => Some (Mat 1 (tan (to_radians a)) 0 1 0 0)
  | Css _ m => m
  end.
(** [SVGTransformList::to_matrix_2d] (transform.rs:558-574). The row-vector product [t.multiply(matrix)] of the code is
    the column-vector product with the arguments exchanged. *)
Fixpoint to_matrix_from (acc : matrix) (l : list transform) : option matrix :=
  match l with
  | [] => Some acc
  | t :: l => match to_matrix1 t with Some m => to_matrix_from (mul acc m) l | None => None end
  end.
(** The matrix [to_matrix_2d] begins with (transform.rs:558-574). *)
Definition identity : matrix := Mat 1 0 0 1 0 0.
(** [SVGTransformList::to_matrix_2d] (transform.rs:558-574). *)
Definition to_matrix_2d (l : list transform) : option matrix := to_matrix_from identity l.

Section Job.
  (** The length of a printed list (transform.rs:115, 124-130); rounding, which is [round_transform] in the code. *)
  Variable printed_length : list transform -> nat.
  Variable rnd : precision -> transform -> transform.

  (** The loop over the decompositions (transform.rs:117-136). *)
  Fixpoint shortest_of (p : precision) (shortest : list transform) (decomposed : list (list transform)) : option (list transform) :=
    match decomposed with
    | [] => Some shortest
    | decomposition :: rest =>
      match optimize (map (rnd p) decomposition) decomposition with
      | Some optimized =>
        let optimized := map (rnd p) optimized in
        shortest_of p (if (printed_length optimized <=? printed_length shortest)%nat then optimized else shortest) rest
      | None => None
      end
    end.
  (** [SVGTransform::matrix_to_transform] (transform.rs:103-139). *)
  Definition matrix_to_transform (p : precision) (t : transform) : option (list transform) :=
    match t with
    | Matrix m => shortest_of p [rnd p t] (get_compositions m)
    | _ => Some [t]
    end.

  (** [ConvertTransform] (convert_transform.rs:42-66). *)
  Record options := Options {
    o_convert_to_shorts : bool; o_deg_precision : option Z; o_float_precision : Z; o_transform_precision : Z;
    o_matrix_to_transform : bool; o_short_rotate : bool; o_remove_useless : bool; o_collapse_into_one : bool }.

  (** Numbers of digits of a printed number, in all and after the point (convert_transform.rs:133-147). *)
  Variable total_digits : R -> Z.
  Variable decimal_digits : R -> Z.

  (** The numbers of all matrices (convert_transform.rs:119-126). *)
  Definition matrix_data (l : list transform) : list R :=
    flat_map (fun t => match t with Matrix (Mat a b c d e f) => [a; b; c; d; e; f] | _ => [] end) l.
  (** [define_precision] (convert_transform.rs:118-169). *)
  Definition define_precision (o : options) (l : list transform) : Z * Z :=
    let data := matrix_data l in
    let is_matrix_data := match data with [] => false | _ => true end in
    let number_of_digits := fold_left Z.max (map total_digits data) 0%Z in
    let number_of_decimals := fold_left Z.max (map decimal_digits data) 0%Z in
    let transform_precision :=
      if is_matrix_data && (number_of_decimals <? o_transform_precision o)%Z then number_of_decimals else o_transform_precision o in
    let number_of_digits := if is_matrix_data then number_of_digits else o_transform_precision o in
    let deg := match o_deg_precision o with
               | Some v => v
               | None => Z.max 0 (Z.min (o_float_precision o) (number_of_digits - 2))
               end in
    (deg, transform_precision).

  (** The loop merging rotations (convert_transform.rs:264-293). *)
  Fixpoint short_rotates (l : list transform) : list transform :=
    match l with
    | Translate sx sy as start :: (Rotate deg x y :: (Translate ex ey :: rest) as l2) as l1 =>
      if eqb x 0 && eqb y 0 && eqb sx (- ex) && eqb sy (- ey) then Rotate deg sx sy :: short_rotates rest
      else start :: short_rotates l1
    | t :: l => t :: short_rotates l
    | [] => []
    end.
  (** [collect] of a [flat_map] that may panic (crates/oxvg_optimiser/src/jobs/convert_transform.rs:245-250). *)
  Fixpoint flat_map_opt (f : transform -> option (list transform)) (l : list transform) : option (list transform) :=
    match l with
    | [] => Some []
    | t :: l => match f t, flat_map_opt f l with Some a, Some b => Some (a ++ b) | _, _ => None end
    end.
  (** [convert_to_shorts] (convert_transform.rs:228-299). *)
  Definition convert_to_shorts (o : options) (data : list transform) : option (list transform) :=
    let (deg, tr) := define_precision o data in
    let p := Precision (o_float_precision o) deg tr in
    let data := if o_convert_to_shorts o then data else map (rnd p) data in
    match (if o_matrix_to_transform o
           then option_map (map (rnd p)) (flat_map_opt (matrix_to_transform p) data)
           else Some (map (rnd p) data)) with
    | Some shorts => Some (if o_short_rotate o && (3 <=? List.length shorts)%nat then short_rotates shorts else shorts)
    | None => None
    end.
  (** The items [remove_useless] drops (convert_transform.rs:208-225). *)
  Definition useless (t : transform) : bool :=
    match t with
    | Translate x y => eqb x 0 && eqb y 0
    | Rotate n _ _ => eqb n 0
    | SkewX n | SkewY n => eqb n 0
    | Scale x y => eqb x 1 && eqb y 1
    | Matrix (Mat a b c d e f) => eqb a 1 && eqb b 0 && eqb c 0 && eqb d 1 && eqb e 0 && eqb f 0
    | Css _ _ => false
    end.
  (** [remove_useless] (convert_transform.rs:203-226). *)
  Definition remove_useless (o : options) (l : list transform) : list transform :=
    if o_remove_useless o then filter (fun t => negb (useless t)) l else l.
  (** The collapsing of convert_transform.rs:188-194. *)
  Definition collapse (o : options) (l : list transform) : list transform :=
    if o_collapse_into_one o && (1 <? List.length l)%nat
    then match to_matrix_2d l with Some m => [Matrix m] | None => l end
    else l.
  (** [transform] (convert_transform.rs:187-201); an empty result removes the attribute (180-184). *)
  Definition convert (o : options) (l : list transform) : option (list transform) :=
    option_map (remove_useless o) (convert_to_shorts o (collapse o l)).
End Job.
