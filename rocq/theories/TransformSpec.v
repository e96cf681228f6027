(** What a transform list means: an affine map of the plane. *)
From Coq Require Import Reals List Bool.
From Verif Require Import TransformModel.
Import ListNotations.
Open Scope R_scope.

Definition point : Type := R * R.
(** The map a matrix stands for. *)
Definition apply (m : matrix) (p : point) : point :=
  (ma m * fst p + mc m * snd p + me m, mb m * fst p + md m * snd p + mf m).
Definition rad (deg : R) : R := deg * PI / 180.
Section Meaning.
  (** The maps of CSS transforms that have no matrix: any. *)
  Variable opaque : nat -> point -> point.
  (** The map a transform function stands for, by the SVG specification; rotation about [(x, y)] moves that point to the
      origin, rotates, and moves it back. *)
  Definition act (t : transform) (p : point) : point :=
    match t with
    | Matrix m => apply m p
    | Translate x y => (fst p + x, snd p + y)
    | Scale x y => (x * fst p, y * snd p)
    | Rotate deg x y =>
      let u := fst p - x in let v := snd p - y in
      (cos (rad deg) * u - sin (rad deg) * v + x, sin (rad deg) * u + cos (rad deg) * v + y)
    | SkewX deg => (fst p + tan (rad deg) * snd p, snd p)
    | SkewY deg => (fst p, snd p + tan (rad deg) * fst p)
    | Css _ (Some m) => apply m p
    | Css i None => opaque i p
    end.
  (** The map of a list: the last item is applied first. *)
  Definition acts (l : list transform) (p : point) : point := fold_right act p l.
End Meaning.
(** Both lists move every point to the same place, whatever the CSS transforms without a matrix do. *)
Definition same (l l' : list transform) : Prop := forall opaque p, acts opaque l p = acts opaque l' p.
