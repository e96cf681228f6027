(** C114: the points of a curve, its parts, and the places of points on it. *)
From Coq Require Import List NArith ZArith QArith Qcanon Bool.
From Verif Require Import SegmentModel BezierModel BezierSpec BezierProofs BezierProofs2.
Import ListNotations.
Local Close Scope Q_scope.
Local Open Scope Qc_scope.

(** Points are those of a Bezier curve, from its start to its end. *)
Theorem C114_points : forall start c, (forall t, point_at start c t = bezier start c t) /\ point_at start c 0 = start /\ point_at start c 1 = curve_end c.
Proof. exact curve_points. Qed.
Print Assumptions C114_points.
(** A curve that is divided is its two parts. *)
Theorem C114_halves : forall start c t l m r, subdivide_t start c t = (l, m, r) ->
  m = bezier start c t /\ part_of start c 0 t start l /\ part_of start c t 1 m r.
Proof. exact halves. Qed.
Print Assumptions C114_halves.
(** The reverse goes through the curve from its end. *)
Theorem C114_reverse : forall start c, (forall s, bezier (curve_end c) (reverse start c) s = bezier start c (1 - s)) /\ reverse (curve_end c) (reverse start c) = c.
Proof. exact reverse_twice. Qed.
Print Assumptions C114_reverse.
(** What is cut out between two numbers is that part; its end is taken to be that of the curve if its start is nearly there. *)
Theorem C114_part : forall debug start c t1 t2 c', clamp_t debug start c t1 t2 = Some c' ->
  exists t2', part_of start c t1 t2' (bezier start c t1) c' /\ (t2' = t2 \/ (t2' = 1 /\ 1 - t1 < Q2Qc (1 # 10000000000))).
Proof. exact clamped. Qed.
Print Assumptions C114_part.
Theorem C114_part_made : forall debug start c t1 t2, 0 <= t1 -> t1 <= t2 -> t2 <= 1 -> clamp_t debug start c t1 t2 <> None.
Proof. exact clamps. Qed.
Print Assumptions C114_part_made.
(** The place that is found for a point is on the curve and has a point of the curve near to the point. *)
Theorem C114_place : forall rounded start c at_ tol t, t_at rounded start c at_ tol = Some t -> unit_ t /\ dist2 (bezier start c t) at_ <= tol.
Proof. exact place. Qed.
Print Assumptions C114_place.
(** What is cut out between two points is a part that starts and ends near to them. *)
Theorem C114_cut : forall rounded debug start c a b tol c', clamp_at rounded debug start c a b tol = Some (Some c') ->
  exists t1 t2 t2', unit_ t1 /\ unit_ t2 /\ dist2 (bezier start c t1) a <= tol /\ dist2 (bezier start c t2) b <= tol /\
    part_of start c t1 t2' (bezier start c t1) c' /\ (t2' = t2 \/ (t2' = 1 /\ 1 - t1 < Q2Qc (1 # 10000000000))).
Proof. exact cut. Qed.
Print Assumptions C114_cut.
(** Quadratic curves become curves with the same points, and are found again. *)
Theorem C114_quadratic : forall q start e, (forall t, bezier start (new_quad_curve q start e) t = quadratic start q e t) /\
  (forall tol, 0 < tol -> quad_control start (new_quad_curve q start e) tol = Some q).
Proof. exact quad_same. Qed.
Print Assumptions C114_quadratic.
(** A curve that passes for a quadratic one is near to it everywhere. *)
Theorem C114_quadratic_near : forall start c tol q t, quad_control start c tol = Some q -> unit_ t ->
  dist2 (bezier start c t) (quadratic start q (curve_end c) t) <= Q2Qc (64 # 729) * tol.
Proof. exact quad_near. Qed.
Print Assumptions C114_quadratic_near.
(** The points along a curve are those at equal steps from its start to its end, in at most 128 steps; the lines between them go on from each other. *)
Theorem C114_steps : forall tol start c, exists n, In n [1; 2; 4; 8; 16; 32; 64; 128]%positive /\
  coords tol start c = Some (map (fun i => bezier start c (frac i n)) (seq 0 (S (Pos.to_nat n)))) /\ coords_count tol start c = Pos.to_nat n.
Proof. exact coords_points. Qed.
Print Assumptions C114_steps.
Theorem C114_lines : forall tol start c l, coords tol start c = Some l -> joined start (windows l) (curve_end c) /\ List.length (windows l) = coords_count tol start c.
Proof. exact coords_lines. Qed.
Print Assumptions C114_lines.

(** Examples. *)
Definition pt (x y : Z) : point := P (Q2Qc (inject_Z x)) (Q2Qc (inject_Z y)).
(** The curve of the documentation. *)
Definition corner : curve := Curve (pt 1 0) (pt 1 0) (pt 1 1).
(** Its numbers. *)
Definition num (p : point) : Q * Q := (this (px p), this (py p)).
Definition nums (c : curve) : list (Q * Q) := [num (start_control c); num (end_control c); num (curve_end c)].
Example C114_sample_halves : let '(l, m, r) := subdivide_t (pt 0 0) corner (Q2Qc (1 # 2)) in
  nums l = [(1 # 2, 0); (3 # 4, 0); (7 # 8, 1 # 8)]%Q /\ num m = (7 # 8, 1 # 8)%Q /\ nums r = [(1, 1 # 4); (1, 1 # 2); (1, 1)]%Q.
Proof. split; [|split]; vm_compute; reflexivity. Qed.
Example C114_sample_place : option_map this (t_at to_double (pt 0 0) corner (P (Q2Qc (7 # 8)) (Q2Qc (1 # 8))) (Q2Qc (1 # 1000000))) = Some (1 # 2)%Q.
Proof. vm_compute. reflexivity. Qed.
Example C114_sample_cut : option_map (option_map nums) (clamp_at to_double true (pt 0 0) corner (P (Q2Qc (7 # 8)) (Q2Qc (1 # 8))) (pt 1 1) (Q2Qc (1 # 1000000))) = Some (Some [(1, 1 # 4); (1, 1 # 2); (1, 1)]%Q).
Proof. vm_compute. reflexivity. Qed.
Example C114_sample_quad : option_map num (quad_control (pt 0 0) (Curve (pt 0 2) (pt 1 2) (pt 3 0)) (Q2Qc (1 # 1000000))) = Some (0, 3)%Q.
Proof. vm_compute. reflexivity. Qed.
Example C114_sample_steps : option_map (@List.length point) (coords (Q2Qc (1 # 1000000)) (pt 0 0) corner) = Some 129%nat.
Proof. vm_compute. reflexivity. Qed.

(** The place of a point that is on the curve may not be found. *)
Theorem C114_place_refuted : exists start c t tol, unit_ t /\ 0 < tol /\ t_at to_double start c (bezier start c t) tol = None.
Proof.
  exists (pt 0 0), (Curve (pt (-1) 1) (pt 2 (-3)) (pt 0 3)), (Q2Qc (3 # 8)), (Q2Qc (1 # 1000000)).
  split; [split; vm_compute; discriminate|]. split; vm_compute; reflexivity.
Qed.
Print Assumptions C114_place_refuted.
(** Cutting out between two points of which the second comes first fails an assertion. *)
Theorem C114_cut_refuted : exists start c a b tol, t_at to_double start c a tol <> None /\ t_at to_double start c b tol <> None /\ clamp_at to_double true start c a b tol = None.
Proof. exists (pt 0 0), corner, (pt 1 1), (pt 0 0), (Q2Qc (1 # 1000000)). split; [|split]; vm_compute; try discriminate; reflexivity. Qed.
Print Assumptions C114_cut_refuted.
(** The number of points is one more than what is told. *)
Theorem C114_count_refuted : forall tol start c l, coords tol start c = Some l -> List.length l = S (coords_count tol start c).
Proof. exact coords_one_more. Qed.
Print Assumptions C114_count_refuted.
(** Of a curve that ends where it starts, nothing but that point is left. *)
Theorem C114_loop_refuted : (forall tol c, 0 < tol -> coords tol (curve_end c) c = Some [curve_end c; curve_end c]) /\
  exists c t tol, 0 < tol /\ bezier (curve_end c) c t <> curve_end c.
Proof.
  split; [exact loop_points|]. exists (Curve (pt 8 0) (pt 0 8) (pt 0 0)), (Q2Qc (1 # 2)), 1. split; [reflexivity|]. intros H. apply (f_equal (fun p => this (px p))) in H. vm_compute in H. discriminate.
Qed.
Print Assumptions C114_loop_refuted.
(** Points along a curve may be much farther from each other than the tolerance. *)
Theorem C114_far_refuted : exists start c tol p q l, coords tol start c = Some l /\ In (p, q) (windows l) /\ Q2Qc 8 * tol < dist2 p q.
Proof.
  exists (pt 0 0), (Curve (pt 512 0) (pt 1024 0) (pt 1536 0)), 1.
  destruct (coords 1 (pt 0 0) (Curve (pt 512 0) (pt 1024 0) (pt 1536 0))) as [l|] eqn:E; [|vm_compute in E; discriminate].
  vm_compute in E. injection E as <-. eexists _, _, _. split; [reflexivity|]. split; [left; reflexivity|vm_compute; reflexivity].
Qed.
Print Assumptions C114_far_refuted.
