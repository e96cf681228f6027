(** The image of a drawing under an affine map. *)
From Coq Require Import List QArith Qcanon Bool Arith.
From Verif Require Import SegmentModel SegmentSpec ApplyModel.
Import ListNotations.
Local Close Scope Q_scope.
Local Open Scope nat_scope.

(** Where a point goes. *)
Definition image (m : matrix6) (p : point) : point :=
  P (m0 m * px p + m2 m * py p + m4 m)%Qc (m1 m * px p + m3 m * py p + m5 m)%Qc.
(** The determinant; the map turns the plane over if it is negative. *)
Definition det (m : matrix6) : Qc := (m0 m * m3 m - m1 m * m2 m)%Qc.
Section Image.
  (** Whether, for an arc with this chord, the ellipse of the second radii and rotation is the image of that of the first. *)
  Variable same_ellipse : matrix6 -> point -> Qc * Qc * Qc -> Qc * Qc * Qc -> Prop.
  (** The second stretch is the image of the first: lines and curves by their points, arcs by their ends, their ellipse, and the side and way they go. *)
  Definition edge_image (m : matrix6) (e f : edge) : Prop :=
    match e, f with
    | ELine a b, ELine a' b' => a' = image m a /\ b' = image m b
    | EQuad a c b, EQuad a' c' b' => a' = image m a /\ c' = image m c /\ b' = image m b
    | ECubic a c d b, ECubic a' c' d' b' => a' = image m a /\ c' = image m c /\ d' = image m d /\ b' = image m b
    | EArc rx ry rot large sweep a b, EArc rx' ry' rot' large' sweep' a' b' =>
        a' = image m a /\ b' = image m b /\ large' = large /\ sweep' = xorb sweep (ltb (det m) 0%Qc) /\
        same_ellipse m (P (px b - px a)%Qc (py b - py a)%Qc) (rx, ry, rot) (rx', ry', rot')
    | _, _ => False
    end.
  (** What is asked of new radii: none is 0 unless one was, and the ellipse is the image. *)
  Definition ellipse_ok (ellipse : matrix6 -> point -> Qc * Qc * Qc -> Qc * Qc * Qc) (m : matrix6) : Prop :=
    forall chord r, let flat (r : Qc * Qc * Qc) := fst (fst r) = 0%Qc \/ snd (fst r) = 0%Qc in
    (flat r -> flat (ellipse m chord r)) /\ (~ flat r -> ~ flat (ellipse m chord r) /\ same_ellipse m chord r (ellipse m chord r)).
End Image.
Definition starts_with_move (l : list out) : Prop := match l with [] => True | (i, c) :: _ => i = false /\ is_move c = true end.
Definition has_arc (c : cmd) : bool := match c with Arc _ _ _ _ _ _ _ => true | _ => false end.
