(** C72: the ellipse of a transformed arc. *)
From Coq Require Import Reals Lra Bool.
From Verif Require Import EllipseModel EllipseSpec EllipseProofs.
Open Scope R_scope.

(** What is drawn on: a point is on the ellipse of the arc if and only if its image is on that of the new arc, also where the radii are too short. *)
Theorem C72_ellipse : forall m s s' cx cy, det m <> 0 -> rx s <> 0 -> ry s <> 0 -> transform_shape m cx cy s = Some s' ->
  forall x y, on_ellipse s cx cy x y <-> on_ellipse s' (move_x m cx cy) (move_y m cx cy) (move_x m x y) (move_y m x y).
Proof. exact shape_image. Qed.
Print Assumptions C72_ellipse.
(** The new radii are positive and the rotation at most a right angle. *)
Theorem C72_radii : forall m s s' cx cy, det m <> 0 -> rx s <> 0 -> ry s <> 0 -> transform_shape m cx cy s = Some s' ->
  0 < rx s' /\ 0 < ry s' /\ Rabs (deg s') <= 90.
Proof. exact shape_radii. Qed.
Print Assumptions C72_radii.
(** There is no result (NaN) only if the image is an ellipse the squares of whose radii differ by no more than 1e-6. *)
Theorem C72_defined_partial : forall m s cx cy, det m <> 0 -> rx s <> 0 -> ry s <> 0 -> transform_shape m cx cy s = None ->
  exists s', 0 < rx s' ^ 2 - ry s' ^ 2 <= 1 / 1000000 /\
    forall x y, on_ellipse s cx cy x y <-> on_ellipse s' (move_x m cx cy) (move_y m cx cy) (move_x m x y) (move_y m x y).
Proof. exact shape_some. Qed.
Print Assumptions C72_defined_partial.

Local Ltac trig := replace (0 * PI / 180) with 0 by (unfold Rdiv; rewrite !Rmult_0_l; reflexivity); rewrite ?cos_0, ?sin_0.
Local Ltac hyp v := match goal with |- context [hypot ?a ?b] => replace (hypot a b) with v by (unfold hypot; symmetry; apply sqrt_lem_1; lra) end.
(** A circle, stretched to twice its width. *)
Example C72_stretched : det (Lin 2 0 0 1) <> 0 /\ transform_shape (Lin 2 0 0 1) 1 0 (Shape 1 1 0) = Some (Shape 2 1 0).
Proof.
  split; [unfold det; cbn [l0 l1 l2 l3]; lra|]. unfold transform_shape, rotated_ellipse, radians. cbn [rx ry deg]. cbv zeta. trig.
  match goal with |- context [less 1 ?h] => assert (L : less 1 h = false) by (unfold less; destruct (Rlt_dec 1 h) as [L|L]; [exfalso; lra|reflexivity]); rewrite L end. rewrite andb_false_r.
  unfold axes, multiply. cbn [l0 l1 l2 l3]. cbv zeta. hyp 1. hyp 3. destruct (Req_EM_T (1 * 3) 0); [lra|].
  match goal with |- context [less (1 / 1000000) (Rabs ?q)] => replace (less (1 / 1000000) (Rabs q)) with true by (unfold less; rewrite Rabs_right by lra; match goal with |- context [Rlt_dec ?a ?b] => destruct (Rlt_dec a b) as [K|K]; [reflexivity|exfalso; lra] end) end.
  cbn [andb negb]. hyp 6. destruct (Req_EM_T 6 0); [lra|].
  unfold less. match goal with |- context [Rlt_dec ?q 0] => destruct (Rlt_dec q 0); [lra|] end. cbn [orb option_map].
  match goal with |- context [acos ?q] => replace (acos q) with 0 by (replace q with 1 by field; symmetry; apply acos_1) end.
  match goal with |- context [1 * 0 * 180 / PI] => replace (1 * 0 * 180 / PI) with 0 by (unfold Rdiv; ring) end.
  unfold upright, less. cbn [deg rx ry]. rewrite Rabs_R0. destruct (Rlt_dec 80 0); [lra|]. f_equal. f_equal; apply sqrt_lem_1; lra.
Qed.

(** Small arcs, such as radii of 0.001 and 0.0005, get a rotation that is NaN, even where nothing is transformed. *)
Theorem C72_small_refuted : exists m s cx cy, det m <> 0 /\ 0 < rx s /\ 0 < ry s /\ transform_shape m cx cy s = None.
Proof.
  exists (Lin 1 0 0 1), (Shape (1 / 1000) (1 / 2000) 0), (1 / 1000), 0.
  split; [unfold det; cbn [l0 l1 l2 l3]; lra|]. cbn [rx ry]. split; [lra|]. split; [lra|].
  unfold transform_shape, rotated_ellipse, radians. cbn [rx ry deg]. cbv zeta. trig.
  match goal with |- context [less 1 ?h] => assert (L : less 1 h = false) by (unfold less; destruct (Rlt_dec 1 h) as [L|L]; [exfalso; lra|reflexivity]); rewrite L end. rewrite andb_false_r.
  unfold axes, multiply. cbn [l0 l1 l2 l3]. cbv zeta. hyp (1 / 2000). hyp (3 / 2000). match goal with |- context [Req_EM_T ?q 0] => destruct (Req_EM_T q 0) as [Z|Z]; [exfalso; lra|] end.
  match goal with |- context [less (1 / 1000000) (Rabs ?q)] => replace (less (1 / 1000000) (Rabs q)) with false by (unfold less; rewrite Rabs_right by lra; match goal with |- context [Rlt_dec ?a ?b] => destruct (Rlt_dec a b) as [K|K]; [exfalso; lra|reflexivity] end) end.
  hyp 0. destruct (Req_EM_T 0 0) as [X|X]; [reflexivity|lra].
Qed.
Print Assumptions C72_small_refuted.
(** Arcs without width, which are lines, do so too. *)
Theorem C72_flat_refuted : exists m s cx cy, det m <> 0 /\ rx s = 0 /\ ry s = 1 /\ transform_shape m cx cy s = None.
Proof.
  exists (Lin 2 0 0 2), (Shape 0 1 0), 1, 0.
  split; [unfold det; cbn [l0 l1 l2 l3]; lra|]. cbn [rx ry]. split; [lra|]. split; [lra|].
  unfold transform_shape, rotated_ellipse, radians. cbn [rx ry deg]. cbv zeta. trig.
  assert (L : less 0 0 = false) by (unfold less; destruct (Rlt_dec 0 0) as [L|L]; [exfalso; lra|reflexivity]). rewrite L. cbn [andb].
  unfold axes, multiply. cbn [l0 l1 l2 l3]. cbv zeta. hyp 2. hyp 2. match goal with |- context [Req_EM_T ?q 0] => destruct (Req_EM_T q 0) as [Z|Z]; [exfalso; lra|] end.
  match goal with |- context [hypot ?a ?b] => replace (hypot a b) with 0 by (unfold hypot; symmetry; apply sqrt_lem_1; [match goal with |- 0 <= ?q => replace q with 0 by ring end; lra|lra|ring]) end. destruct (Req_EM_T 0 0) as [X|X]; [reflexivity|lra].
Qed.
Print Assumptions C72_flat_refuted.
