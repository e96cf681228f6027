(** What the transforms of CSS do to the points of the plane (CSS Transforms 1, 8), independently of how they are converted. *)
From Coq Require Import Reals List Bool.
From Verif Require Import TransformModel TransformSpec RecastModel.
Import ListNotations.
Open Scope R_scope.

Section Meaning.
  (** Transforms that have no matrix, and lengths that depend on the surroundings: any. *)
  Variable opaque : nat -> point -> point.
  Variable size : nat -> R.

  Definition length_value (l : length) : R := match l with Px x => x | Relative i => size i | Percent i => size i end.
  Definition number_value (n : number) : R := match n with Number x => x | Percentage x => x end.
  Definition css_act (t : css) (p : point) : point :=
    match t with
    | CMatrix m => apply m p
    | CTranslate x y => (fst p + length_value x, snd p + length_value y)
    | CTranslateX x => (fst p + length_value x, snd p)
    | CTranslateY y => (fst p, snd p + length_value y)
    | CScale x y => (number_value x * fst p, number_value y * snd p)
    | CScaleX x => (number_value x * fst p, snd p)
    | CScaleY y => (fst p, number_value y * snd p)
    | CRotate a => (cos (rad a) * fst p - sin (rad a) * snd p, sin (rad a) * fst p + cos (rad a) * snd p)
    | CSkewX a => (fst p + tan (rad a) * snd p, snd p)
    | CSkewY a => (fst p, snd p + tan (rad a) * fst p)
    | COther _ (Some m) => apply m p
    | COther i None => opaque i p
    end.
  Definition css_acts (l : list css) (p : point) : point := fold_right css_act p l.
End Meaning.
(** The matrices of the library do what the transforms do. *)
Definition true_matrices (to_matrix : css -> option matrix) : Prop :=
  forall t m, to_matrix t = Some m -> forall opaque size p, css_act opaque size t p = apply m p.
(** A list of the attribute and one of CSS do the same. *)
Definition agree (l : list transform) (c : list css) : Prop := forall opaque size p, acts opaque l p = css_acts opaque size c p.
(** No item scales along one axis only by name. *)
Definition no_scale_x (l : list css) : Prop := forall x, In (CScaleX x) l -> False.
(** The matrices the library gives: for moves whose lengths are known, and for scales. *)
Definition plain_matrices (t : css) : option matrix :=
  match t with
  | CTranslateY (Px y) => Some (Mat 1 0 0 1 0 y)
  | CScaleY y => Some (Mat 1 0 0 (number_value y) 0 0)
  | _ => None
  end.
