(** C71: applying a matrix to path data draws the image. *)
From Coq Require Import List QArith Qcanon Bool Arith.
From Verif Require Import SegmentModel SegmentSpec ApplyModel ApplySpec ApplyProofs.
Import ListNotations.
Local Close Scope Q_scope.
Local Open Scope nat_scope.

(** Paths without arcs: every line and curve of the new drawing is the image of that of the old one. *)
Theorem C71_drawing : forall ellipse same_ellipse m, det m <> 0%Qc -> forall l, starts_with_move l -> existsb has_arc (map snd l) = false ->
  Forall2 (edge_image same_ellipse m) (drawing (map snd l)) (drawing (map snd (apply_matrix ellipse m l))).
Proof. exact apply_lines. Qed.
Print Assumptions C71_drawing.
(** Paths with arcs, with new radii that are right, as long as the flag is turned where it has to be. *)
Theorem C71_arcs_partial : forall ellipse same_ellipse m, det m <> 0%Qc -> turned m = ltb (det m) 0%Qc -> ellipse_ok same_ellipse ellipse m ->
  forall l, starts_with_move l ->
  Forall2 (edge_image same_ellipse m) (drawing (map snd l)) (drawing (map snd (apply_matrix ellipse m l))).
Proof. exact apply_arcs. Qed.
Print Assumptions C71_arcs_partial.
(** The flag is turned where it has to be by matrices that scale and shear along one axis, ... *)
Theorem C71_sweep : forall m, m0 m <> 0%Qc -> m3 m <> 0%Qc -> (m1 m = 0%Qc \/ m2 m = 0%Qc) -> det m <> 0%Qc -> turned m = ltb (det m) 0%Qc.
Proof. exact turned_shear. Qed.
Print Assumptions C71_sweep.
(** ... and by those that rotate and scale, and by those that reflect, unless they swap the axes. *)
Theorem C71_sweep_similar : forall m, det m <> 0%Qc -> (m3 m = m0 m /\ m2 m = (- m1 m)%Qc \/ m3 m = (- m0 m)%Qc /\ m2 m = m1 m /\ m0 m <> 0%Qc) ->
  turned m = ltb (det m) 0%Qc.
Proof. exact turned_similar. Qed.
Print Assumptions C71_sweep_similar.
(** Every command of the result is written with its letter. *)
Theorem C71_explicit : forall ellipse m l o, In o (apply_matrix ellipse m l) -> fst o = false.
Proof. exact apply_matrix_explicit. Qed.
Print Assumptions C71_explicit.

Local Definition q (n : Z) : Qc := Q2Qc (inject_Z n).
Local Definition pt (x y : Z) : point := P (q x) (q y).
Local Definition keep (m : matrix6) (chord : point) (r : Qc * Qc * Qc) := r.
(** Turned by 90 degrees and moved: relative and absolute lines, a smooth curve, and a second subpath. *)
Example C71_turned :
  let m := M6 (q 0) (q 1) (q (-1)) (q 0) (q 10) (q 0) in
  let l := [(false, Move true (pt 1 2)); (false, Hor false (q 5)); (false, Ver true (q 3)); (false, Cubic true (pt 1 0) (pt 2 0) (pt 3 1)); (false, Smooth false (pt 4 4) (pt 9 9)); (false, Close); (false, Line true (pt 1 1))] in
  det m <> 0%Qc /\ starts_with_move l /\ existsb has_arc (map snd l) = false /\
  apply_matrix keep m l =
    [(false, Move false (pt 8 1)); (false, Line false (pt 8 5)); (false, Line true (pt (-3) 0)); (false, Cubic true (pt 0 1) (pt 0 2) (pt (-1) 3)); (false, Smooth false (pt 6 4) (pt 1 9)); (false, Close); (false, Line true (pt (-1) 1))].
Proof. cbv zeta. split; [intros E; apply (f_equal this) in E; vm_compute in E; discriminate|]. split; [split; reflexivity|]. split; [reflexivity|]. vm_compute. repeat (f_equal; try (apply Qc_is_canon; reflexivity)). Qed.
(** An arc under a reflection of which the flag is turned, with a circle (any reading of the radii of a circle). *)
Example C71_reflected : let m := M6 (q (-1)) (q 0) (q 0) (q 1) (q 0) (q 0) in
  det m <> 0%Qc /\ turned m = ltb (det m) 0%Qc /\ turned m = true /\ ellipse_ok (fun _ _ r r' => r = r') keep m.
Proof. cbv zeta. split; [intros E; apply (f_equal this) in E; vm_compute in E; discriminate|]. split; [vm_compute; reflexivity|]. split; [vm_compute; reflexivity|]. intros chord r. split; [exact (fun H => H)|]. intros N. split; [exact N|reflexivity]. Qed.

(** [matrix(0 1 1 0 0 0)] turns the plane over, but the flag of arcs stays: the arc bulges to the other side. *)
Theorem C71_swap_refuted : exists m l, det m <> 0%Qc /\ starts_with_move l /\ ltb (det m) 0%Qc = true /\
  forall ellipse same_ellipse, ellipse_ok same_ellipse ellipse m ->
  ~ Forall2 (edge_image same_ellipse m) (drawing (map snd l)) (drawing (map snd (apply_matrix ellipse m l))).
Proof. exact swap_refuted. Qed.
Print Assumptions C71_swap_refuted.
(** [matrix(1 2 -2 -1 0 0)] does not turn it over, but the flag is turned. *)
Theorem C71_turn_refuted : exists m l, det m <> 0%Qc /\ starts_with_move l /\ ltb (det m) 0%Qc = false /\
  forall ellipse same_ellipse, ellipse_ok same_ellipse ellipse m ->
  ~ Forall2 (edge_image same_ellipse m) (drawing (map snd l)) (drawing (map snd (apply_matrix ellipse m l))).
Proof. exact turn_refuted. Qed.
Print Assumptions C71_turn_refuted.
