(** Boxes, and the way from paths to polygons and back. *)
From Coq Require Import List NArith ZArith QArith Qcanon Bool Arith Lia.
From Verif Require Import SegmentModel SimplifyModel BezierModel BezierSpec BezierProofs2 OverlayModel OverlaySpec OverlayProofs OverlayProofs2 OverlayProofs3 OverlayProofs4.
Import ListNotations.
Local Close Scope Q_scope.
Local Open Scope Qc_scope.

(** ** C115: paths to polygons and back *)
(** A segment becomes its start and then the points of its pieces; each piece is kept with its start and its contour. *)
Theorem C115_flattened_partial : forall id g, exists ps reg, flatten_segment id g = Some (ps, reg) /\ pieces id (g_start g) (g_data g) reg /\
  (g_data g = [] -> ps = []) /\ (g_data g <> [] -> ps = g_start g :: flat_map (fun s => tl (s_contour s)) reg).
Proof. exact flatten_segment_spec. Qed.
Print Assumptions C115_flattened_partial.
(** All pieces of all paths are kept, with numbers of their own. *)
Theorem C115_registry_partial : forall simplify l id, exists shapes reg, flatten_all simplify id l = Some (shapes, reg) /\ numbered reg /\ List.length shapes = List.length l.
Proof. intros simplify l id. destruct (flatten_all_spec simplify l id) as (shapes & reg & E & I & L). exists shapes, reg. split; [exact E|]. split; [exact (ids_numbered _ _ I)|exact L]. Qed.
Print Assumptions C115_registry_partial.
(** An edge is only taken for a piece along which it goes. *)
Theorem C115_matched_partial : forall closer reg a b s, find_matching closer reg a b = Some s -> In s reg /\ along matching (s_contour s) (a, b).
Proof. exact find_matching_spec. Qed.
Print Assumptions C115_matched_partial.
(** A ring becomes a closed segment from its first point, the pieces of which follow the ring. *)
Theorem C115_ring_partial : forall closer rounded debug reg a l g, numbered reg -> segment_from_ring closer rounded debug reg (a :: l) = Some g ->
  g_start g = a /\ g_closed g = true /\ follows matching reg (a :: l) (g_data g).
Proof. exact ring_follows. Qed.
Print Assumptions C115_ring_partial.
(** It panics only where the place of a point on a curve is not found. *)
Theorem C115_panic_partial : forall closer rounded debug reg ring, numbered reg -> segment_from_ring closer rounded debug reg ring = None -> lost rounded reg ring.
Proof. exact ring_lost. Qed.
Print Assumptions C115_panic_partial.
(** The result of an operation: one segment for each ring of the polygons that come out, in their order. *)
Theorem C115_result_partial : forall closer rounded simplify overlay debug paths, exists shapes reg, flatten_all simplify 0 paths = Some (shapes, reg) /\
  match boolean_op closer rounded simplify overlay debug paths with
  | Some gs => Forall2 (made_from reg) (concat (fold_left overlay (tl shapes) (hd [] shapes))) gs
  | None => exists ring, In ring (concat (fold_left overlay (tl shapes) (hd [] shapes))) /\ lost rounded reg ring
  end.
Proof. exact boolean_op_made. Qed.
Print Assumptions C115_result_partial.

(** A ring the points of which are on the contours of a path may panic, however numbers are rounded. *)
Theorem C115_panic_refuted : exists g ps reg ring, flatten_segment 0 g = Some (ps, reg) /\ ring <> [] /\
  (forall p, In p ring -> exists s, In s reg /\ on_contour (s_contour s) p) /\
  forall closer rounded debug, segment_from_ring closer rounded debug reg ring = None.
Proof.
  destruct shape_flattened as (ps & E). exists shape, ps, shape_reg, ring. split; [exact E|]. split; [discriminate|]. split; [exact ring_on|exact ring_panics].
Qed.
Print Assumptions C115_panic_refuted.
(** And a path that is one closed curve becomes a polygon without an inside, though the curve has one. *)
Theorem C115_loop_refuted : (forall id c, exists s, flatten_segment id (Seg (curve_end c) [CurveTo c] true) = Some ([curve_end c; curve_end c], [s])) /\
  exists c t, unit_ t /\ bezier (curve_end c) c t <> curve_end c.
Proof.
  split.
  - intros id c. eexists. unfold flatten_segment. cbn [g_data g_start flatten_loop piece_coords]. rewrite (loop_points usual c); [|vm_compute; reflexivity]. reflexivity.
  - exists (Curve (P (Q2Qc 8) 0) (P 0 (Q2Qc 8)) (P 0 0)), (Q2Qc (1 # 2)). split; [split; vm_compute; discriminate|]. intros H. apply (f_equal (fun p => this (px p))) in H. vm_compute in H. discriminate.
Qed.
Print Assumptions C115_loop_refuted.
(** The edge from the last point of a ring to its first is never looked up: a curve that went there is a straight line. *)
Theorem C115_closing_refuted : exists c p ps reg, flatten_segment 0 (Seg (P 0 0) [CurveTo c; LineTo p] true) = Some (ps, reg) /\
  (forall closer, option_map s_data (find_matching closer reg (P 0 0) (curve_end c)) = Some (CurveTo c)) /\ (exists t, unit_ t /\ bezier (P 0 0) c t <> P (px (bezier (P 0 0) c t)) 0) /\
  forall closer rounded, exists x, segment_from_ring closer rounded false reg [curve_end c; p; P 0 0] = Some x /\ List.length (g_data x) = 2%nat /\ forall c', ~ In (CurveTo c') (g_data x).
Proof.
  exists (Curve (P 1 (Q2Qc (1 # 2048))) (P (Q2Qc 2) (Q2Qc (1 # 2048))) (P (Q2Qc 3) 0)), (P (Q2Qc 3) (Q2Qc 3)).
  eexists _, _. split; [vm_compute; reflexivity|]. split; [intros closer; vm_compute; reflexivity|]. split.
  { exists (Q2Qc (1 # 2)). split; [split; vm_compute; discriminate|]. intros H. apply (f_equal (fun p => this (py p))) in H. vm_compute in H. discriminate. }
  intros closer rounded. eexists. split; [vm_compute; reflexivity|]. split; [reflexivity|]. intros c' [H|[H|[]]]; discriminate.
Qed.
Print Assumptions C115_closing_refuted.

(** A square joined with nothing comes back as it is. *)
Definition tests_square : segment := Seg (P 0 0) [LineTo (P (Q2Qc 2) 0); LineTo (P (Q2Qc 2) (Q2Qc 2)); LineTo (P 0 (Q2Qc 2))] true.
Definition shown (d : data) : Q * Q := match d with LineTo p => (this (px p), this (py p)) | CurveTo c => (this (px (curve_end c)), this (py (curve_end c))) end.
Example C115_example : option_map (map (fun g => map shown (g_data g))) (boolean_op (fun _ _ => false) (fun x => x) (fun _ r => [r]) (fun a b => a ++ b) false [([tests_square], false)])
  = Some [[(2#1, 0#1); (2#1, 2#1); (0#1, 2#1)]]%Q.
Proof. vm_compute. reflexivity. Qed.
(** An edge within the tolerance goes along a line, one further does not. *)
Example C115_example_edge : forall reg ps, flatten_segment 7 tests_square = Some (ps, reg) ->
  option_map s_id (find_matching (fun _ _ => false) reg (P (Q2Qc 2) (Q2Qc (1 # 2))) (P (Q2Qc 2) 1)) = Some 8%nat /\
  option_map s_id (find_matching (fun _ _ => false) reg (P (Q2Qc 2) (Q2Qc (1 # 2))) (P (Q2Qc (199 # 100)) 1)) = None.
Proof. intros reg ps H. vm_compute in H. injection H as _ <-. split; vm_compute; reflexivity. Qed.
(** Two edges along one curve are one piece. *)
Example C115_example_joined : forall reg ps, flatten_segment 0 shape = Some (ps, reg) ->
  map (fun a => match a with Original s _ to => (s_id s, this (px to)) | Straight to => (99%nat, this (px to)) end)
      (actions (fun _ _ => false) reg (windows [P 0 0; P 1 (Q2Qc (1 # 128)); P (Q2Qc 2) (Q2Qc (1 # 32)); P (Q2Qc 50) 0]) []) = [(0%nat, 2#1); (99%nat, 50#1)]%Q.
Proof. intros reg ps H. vm_compute in H. injection H as _ <-. vm_compute. reflexivity. Qed.

(** ** C116: boxes *)
(** The box of points is the smallest around them. *)
Theorem C116_around : forall l, match from_coords l with Some b => around l b /\ proper b | None => l = [] end.
Proof. intros l. pose proof (from_coords_around l) as H. destruct (from_coords l); [split; [exact H|exact (around_proper _ _ H)]|exact H]. Qed.
Print Assumptions C116_around.
(** The box of two corners. *)
Theorem C116_corners : forall a b, around [a; b] (new_box a b).
Proof. exact new_box_around. Qed.
Print Assumptions C116_corners.
(** A box contains its points. *)
Theorem C116_contains : forall b p, contains b p = true <-> inside b p.
Proof. exact contains_spec. Qed.
Print Assumptions C116_contains.
(** Boxes meet when they have a point in common. *)
Theorem C116_intersects : forall a b, proper a -> proper b -> (intersects a b = true <-> exists p, inside a p /\ inside b p).
Proof. exact intersects_spec. Qed.
Print Assumptions C116_intersects.
(** What boxes have in common is a box. *)
Theorem C116_intersection : forall a b, match intersection a b with
  | Some c => forall p, inside c p <-> inside a p /\ inside b p
  | None => forall p, ~ (inside a p /\ inside b p) end.
Proof. exact intersection_spec. Qed.
Print Assumptions C116_intersection.
(** The nearest point of a box. *)
Theorem C116_clamp : forall b p, proper b -> inside b (clamp_point b p) /\ (inside b p -> clamp_point b p = p) /\ (forall q, inside b q -> dist2 p (clamp_point b p) <= dist2 p q).
Proof. exact clamp_spec. Qed.
Print Assumptions C116_clamp.
Definition tests_box (b : box) : Q * Q * Q * Q := (this (px (b_min b)), this (py (b_min b)), this (px (b_max b)), this (py (b_max b))).
Example C116_example : option_map tests_box (from_coords [P 1 (Q2Qc 5); P (Q2Qc 3) (Q2Qc (-2)); P (Q2Qc 2) 0]) = Some (1, -2#1, 3#1, 5#1)%Q /\
  option_map tests_box (intersection (new_box (P 0 0) (P (Q2Qc 4) (Q2Qc 4))) (new_box (P (Q2Qc 9) (Q2Qc 2)) (P 1 1))) = Some (1, 1, 4#1, 2#1)%Q /\
  intersection (new_box (P 0 0) (P 1 1)) (new_box (P (Q2Qc 2) 0) (P (Q2Qc 3) 1)) = None /\
  intersects (new_box (P 0 0) (P 1 1)) (new_box (P 1 0) (P (Q2Qc 3) 1)) = true.
Proof. repeat split; vm_compute; reflexivity. Qed.
