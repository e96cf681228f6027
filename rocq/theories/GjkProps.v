(** C83: whether paths are said to meet. *)
From Coq Require Import List QArith.
From Verif Require Import GjkModel GjkSpec GjkProofs4.
Import ListNotations.
Local Open Scope Q_scope.

(** Paths said to be apart are on either side of a line, segment by segment: their lines and curves, and what those enclose. *)
Theorem C83_apart : forall a b s1 s2, (forall s, In s (a ++ b) -> arcs_ok s) -> intersects a b = Some false -> In s1 a -> In s2 b ->
  separated (covered s1) (covered s2).
Proof. exact intersects_false. Qed.
Print Assumptions C83_apart.
(** So nothing is covered twice, but for lines and points. *)
Theorem C83_no_overlap : forall a b s1 s2 p r, (forall s, In s (a ++ b) -> arcs_ok s) -> intersects a b = Some false -> In s1 a -> In s2 b -> 0 < r ->
  ~ ((forall q, near p r q -> covered s1 q) /\ (forall q, near p r q -> covered s2 q)).
Proof. exact no_overlap. Qed.
Print Assumptions C83_no_overlap.
(** Paths said to meet have segments whose convex hulls, with the controls of curves, have a point in common.
    Partial: for segments of a size that the ten thousand rounds are shown to suffice for. *)
Theorem C83_meet_partial : forall a b, (forall s, In s (a ++ b) -> arcs_ok s) ->
  (forall s1 s2, In s1 a -> In s2 b -> (length (points_of s1) * length (points_of s2) <= 99)%nat) ->
  intersects a b = Some true ->
  exists s1 s2, In s1 a /\ In s2 b /\ meet (hull (fun p => In p (points_of s1))) (hull (fun p => In p (points_of s2))).
Proof. exact intersects_true. Qed.
Print Assumptions C83_meet_partial.
(** There is always an answer. *)
Theorem C83_answer : forall a b, (forall s, In s (a ++ b) -> arcs_ok s) -> intersects a b <> None.
Proof. exact intersects_ends. Qed.
Print Assumptions C83_answer.

Definition polygon (x y w h : Q) : segment := mkSegment (P x y) [LineTo (P (x + w) y); LineTo (P (x + w) (y + h)); LineTo (P x (y + h))].
Definition line (x y x' y' : Q) : segment := mkSegment (P x y) [LineTo (P x' y')].
Example C83_ex_apart : intersects [polygon 0 0 10 10] [line (-4) 8 2 13; mkSegment (P (-1) 20) [CurveTo (P 4 11) (P 5 12) (P 8 14)]] = Some false.
Proof. vm_compute. reflexivity. Qed.
Example C83_ex_meet : intersects [polygon 0 0 10 10] [line (-1) 8 2 13; mkSegment (P (-1) 20) [CurveTo (P 4 1) (P 5 12) (P 8 14)]] = Some true.
Proof. vm_compute. reflexivity. Qed.
Example C83_ex_inside : intersects [polygon 0 0 10 10] [polygon 2 2 4 4] = Some true.
Proof. vm_compute. reflexivity. Qed.

(** Lines that lie on each other are said to be apart. *)
Theorem C83_touch_refuted : exists a b s1 s2, In s1 a /\ In s2 b /\ (forall t, 0 <= t <= 1 -> (exists p, same p (mix t (P 5 5) (P 10 5)) /\ outline s1 p) /\ (exists p, same p (mix t (P 5 5) (P 10 5)) /\ outline s2 p)) /\ intersects a b = Some false.
Proof. exact touch. Qed.
Print Assumptions C83_touch_refuted.
(** Outlines without a point in common are said to meet: one is in the mouth of the other. *)
Theorem C83_mouth_refuted : exists s1 s2, ~ meet (outline s1) (outline s2) /\ intersects [s1] [s2] = Some true.
Proof. exact mouth. Qed.
Print Assumptions C83_mouth_refuted.
