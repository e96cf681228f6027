(** Model of the conversions between transforms of CSS and of the attribute (crates/oxvg_collections/src/attribute/transform.rs, called transform.rs below), by
    which the property [transform] of a style becomes an attribute and the other way round (crates/oxvg_collections/src/attribute.rs:2727).

    Simplification: numbers and angles are real numbers, the latter in degrees. [Transform] and its [to_matrix] are of another library (lightningcss): its
    variants that are not named in transform.rs are a number that identifies them and their matrix, if any; for the named ones [to_matrix] is an argument. *)
From Coq Require Import Reals List ZArith Bool Arith.
From Verif Require Import TransformModel.
Import ListNotations.
Open Scope R_scope.

(** [DimensionPercentage] (as used at transform.rs:458-466): a length that is known in pixels, one that is not, or a percentage or a sum. *)
Inductive length := Px (x : R) | Relative (i : nat) | Percent (i : nat).
(** [NumberOrPercentage] (as used at transform.rs:470-484). *)
Inductive number := Number (x : R) | Percentage (x : R).
(** [Transform] (as used at transform.rs:419-497). *)
Inductive css :=
| CMatrix (m : matrix)
| CTranslate (x y : length)
| CTranslateX (x : length)
| CTranslateY (y : length)
| CScale (x y : number)
| CScaleX (x : number)
| CScaleY (y : number)
| CRotate (deg : R)
| CSkewX (deg : R)
| CSkewY (deg : R)
| COther (i : nat) (m : option matrix).

(** [Transform::from] (transform.rs:419-450). *)
Definition to_css (t : transform) : css :=
  match t with
  | Matrix m => CMatrix m
  | Translate x y => CTranslate (Px x) (Px y)
  | Scale x y => CScale (Number x) (Number y)
  | Rotate angle x y =>
      if eqb x 0 && eqb y 0 then CRotate angle
      else
        let rad := to_radians angle in let cos := cos rad in let sin := sin rad in
        CMatrix (Mat cos sin (- sin) cos ((1 - cos) * x + sin * y) ((1 - cos) * y - sin * x))
  | SkewX a => CSkewX a
  | SkewY a => CSkewY a
  | Css i m => COther i m
  end.
(** [TransformList::from] (transform.rs:577-581). *)
Definition list_to_css (l : list transform) : list css := map to_css l.

Section From.
  (** [to_matrix] and [to_matrix2d] of the library, for the named variants (transform.rs:488-494). *)
  Variable to_matrix : css -> option matrix.
  (** The last case (transform.rs:488-494). *)
  Definition by_matrix (t : css) : option transform :=
    match (match t with COther _ m => m | _ => to_matrix t end) with Some m => Some (Matrix m) | None => None end.
  (** [SVGTransform::try_from] (transform.rs:452-497). *)
  Definition from_css (t : css) : option transform :=
    match t with
    | CMatrix m => Some (Matrix m)
    | CTranslate (Percent _) _ | CTranslate _ (Percent _) => by_matrix t
    | CTranslate x y => match x, y with Px x, Px y => Some (Translate x y) | _, _ => None end
    | CTranslateX (Percent _) => by_matrix t
    | CTranslateX x => match x with Px x => Some (Translate x 0) | _ => None end
    | CScale x y => match x, y with Number x, Number y => Some (Scale x y) | _, _ => None end
    | CScaleX x => match x with Number x => Some (Scale x 0) | _ => None end
    | CRotate a => Some (Rotate a 0 0)
    | CSkewX a => Some (SkewX a)
    | CSkewY a => Some (SkewY a)
    | CTranslateY _ | CScaleY _ | COther _ _ => by_matrix t
    end.
  (** [SVGTransformList::try_from] (transform.rs:583-590). *)
  Fixpoint list_from_css (l : list css) : option (list transform) :=
    match l with
    | [] => Some []
    | t :: l =>
        match from_css t with
        | Some t => match list_from_css l with Some l => Some (t :: l) | None => None end
        | None => None
        end
    end.
End From.
