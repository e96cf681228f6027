(** What the outline of a segment covers, and when two sets of points are apart. *)
From Coq Require Import List QArith.
From Verif Require Import GjkModel.
Import ListNotations.
Local Open Scope Q_scope.

(** The point that divides a line in a proportion. *)
Definition mix (t : Q) (a b : pt) : pt := P ((1 - t) * px a + t * px b) ((1 - t) * py a + t * py b).
(** The same point, however its coordinates are written. *)
Definition same (a b : pt) : Prop := px a == px b /\ py a == py b.
(** The convex hull. *)
Inductive hull (l : pt -> Prop) : pt -> Prop :=
| hull_in : forall p, l p -> hull l p
| hull_mix : forall a b t p, hull l a -> hull l b -> 0 <= t <= 1 -> same p (mix t a b) -> hull l p.
(** The points of lines and curves, the latter by the algorithm of de Casteljau.  Arcs are left out. *)
Inductive on_item : pt -> data -> pt -> Prop :=
| on_line : forall s e t, 0 <= t <= 1 -> on_item s (LineTo e) (mix t s e)
| on_curve : forall s a b e t, 0 <= t <= 1 ->
    on_item s (CurveTo a b e) (mix t (mix t (mix t s a) (mix t a b)) (mix t (mix t a b) (mix t b e))).
(** Where an item ends; for an arc, the last of its points (paths/segment.rs:51-57). *)
Definition end_of (s : pt) (d : data) : pt := match d with LineTo e => e | CurveTo _ _ e => e | ArcTo l => last l s end.
Fixpoint on_items (s : pt) (l : list data) (p : pt) : Prop :=
  match l with
  | [] => False
  | d :: r => on_item s d p \/ on_items (end_of s d) r p
  end.
(** The outline. *)
Definition outline (s : segment) (p : pt) : Prop := on_items (start s) (items s) p.
(** The line that closes the outline, and what it encloses, are within the convex hull of the outline. *)
Definition covered (s : segment) : pt -> Prop := hull (outline s).
(** Two sets on either side of a line. *)
Definition separated (f g : pt -> Prop) : Prop := exists d, ~ same d (P 0 0) /\ forall p q, f p -> g q -> dot d p <= dot d q.
(** Arcs have points (gjk_intersection.rs:255, 269-276). *)
Definition arcs_ok (s : segment) : Prop := forall l, In (ArcTo l) (items s) -> l <> [].
(** The points that make the outline of a segment, with the controls of its curves. *)
Definition points_of (s : segment) : list pt :=
  start s :: flat_map (fun d => match d with LineTo e => [e] | CurveTo a b e => [a; b; e] | ArcTo l => l end) (items s).
(** Something in common. *)
Definition meet (f g : pt -> Prop) : Prop := exists p q, f p /\ g q /\ same p q.
(** Around a point. *)
Definition near (p : pt) (r : Q) (q : pt) : Prop := (px q - px p) * (px q - px p) + (py q - py p) * (py q - py p) <= r * r.
