From Coq Require Import List NArith ZArith QArith Qcanon Bool Arith Lia Lqa.
From Verif Require Import SegmentModel SimplifyModel SimplifyProofs BezierModel BezierSpec BezierProofs BezierProofs2 OverlayModel OverlaySpec OverlayProofs OverlayProofs2 OverlayProofs3.
Import ListNotations.
Local Close Scope Q_scope.
Local Open Scope Qc_scope.
Local Strategy 1000 [t_at].

Definition same (a b : Qc) : bool := Qeq_bool (this a) (this b).
Lemma same_eq : forall a b, same a b = true -> a = b.
Proof. intros a b H. apply Qc_is_canon. apply Qeq_bool_eq. exact H. Qed.
Definition same_point (a b : point) : bool := same (px a) (px b) && same (py a) (py b).
Lemma same_point_eq : forall a b, same_point a b = true -> a = b.
Proof. intros [a b] [c d] H. apply andb_true_iff in H. destruct H as [A B]. apply same_eq in A. apply same_eq in B. cbn [px py] in *. now subst. Qed.
Definition same_curve (a b : curve) : bool := same_point (start_control a) (start_control b) && same_point (end_control a) (end_control b) && same_point (curve_end a) (curve_end b).
Lemma same_curve_eq : forall a b, same_curve a b = true -> a = b.
Proof. intros [a b c] [d e f] H. apply andb_true_iff in H. destruct H as [H C]. apply andb_true_iff in H. destruct H as [A B]. apply same_point_eq in A. apply same_point_eq in B. apply same_point_eq in C. cbn [start_control end_control curve_end] in *. now subst. Qed.

Definition shape : segment := Seg (P 0 0) [CurveTo arch; LineTo (P 0 (Q2Qc 128))] true.
Definition ring : list point := [crossing; P 1 (Q2Qc (1 # 128)); P 0 (Q2Qc 128)].
Definition shape_reg : list source := match flatten_segment 0 shape with Some (_, reg) => reg | None => [] end.
Definition first_ok (l : list action) : bool :=
  match l with
  | Original s a _ :: _ => match s_data s with CurveTo c => same_curve c arch && same_point (s_start s) (P 0 0) && same_point a crossing | _ => false end
  | _ => false
  end.
Lemma first_action : forall closer, first_ok (actions closer shape_reg (windows ring) []) = true.
Proof. intros closer. vm_compute. reflexivity. Qed.
Lemma first_lost : forall rounded debug l, first_ok l = true -> all_some (map (data_of rounded debug) l) = None.
Proof.
  intros rounded debug [|[s a b|b] l] H; try discriminate. cbn [first_ok] in H. destruct s as [id d start k]. cbn [s_data s_start] in H. destruct d as [p|c]; [discriminate|].
  apply andb_true_iff in H. destruct H as [H A]. apply andb_true_iff in H. destruct H as [C S]. apply same_curve_eq in C. apply same_point_eq in S. apply same_point_eq in A. subst.
  cbn [map]. rewrite data_of_curve, arch_lost. reflexivity.
Qed.
Lemma ring_panics : forall closer rounded debug, segment_from_ring closer rounded debug shape_reg ring = None.
Proof.
  intros. unfold segment_from_ring, ring. fold ring. rewrite first_lost; [reflexivity|]. apply first_action.
Qed.
Lemma shape_flattened : exists ps, flatten_segment 0 shape = Some (ps, shape_reg).
Proof. unfold shape_reg. destruct (flatten_segment_spec 0 shape) as (ps & reg & E & _). rewrite E. exists ps. reflexivity. Qed.
(** Each point of the ring is on the contour of a piece. *)
Lemma on_ends : forall a b l, on_contour (a :: b :: l) a /\ on_contour (a :: b :: l) b.
Proof.
  intros a b l. split; exists a, b; (split; [left; reflexivity|]); [exists 0|exists 1]; (split; [split; vm_compute; discriminate|]); destruct a as [ax ay], b as [bx by_]; cbn [px py]; f_equal; ring.
Qed.
Lemma ring_on : forall p, In p ring -> exists s, In s shape_reg /\ on_contour (s_contour s) p.
Proof.
  assert (K : exists s0 s1, shape_reg = [s0; s1] /\ (exists a b l, s_contour s0 = a :: b :: l /\ a = P 0 0 /\ b = P 1 (Q2Qc (1 # 128))) /\ (exists a, s_contour s1 = [a; P 0 (Q2Qc 128)])).
  { unfold shape_reg. destruct (flatten_segment_spec 0 shape) as (ps & reg & E & Q & _). rewrite E. cbn [shape g_start g_data] in Q.
    inversion Q as [|i1 p1 d1 ds1 l1 ss1 O1 Q1]; subst. inversion Q1 as [|i2 p2 d2 ds2 l2 ss2 O2 Q2]; subst. inversion Q2; subst.
    eexists _, _. split; [reflexivity|]. cbn [s_contour]. split.
    - destruct (coords_points usual (P 0 0) arch) as (n & I & C & N). destruct O1 as (n' & I' & ->).
      assert (L : flatten_segment 0 shape = Some (ps, [Source 0 (CurveTo arch) (P 0 0) (map (fun i => bezier (P 0 0) arch (frac i n')) (seq 0 (S (Pos.to_nat n')))); Source 1 (LineTo (P 0 (Q2Qc 128))) (ends_at (CurveTo arch)) l2])) by exact E.
      assert (M : n' = 128%positive).
      { apply (f_equal (fun x => match x with Some (_, s :: _) => List.length (s_contour s) | _ => 0%nat end)) in L.
        assert (V : match flatten_segment 0 shape with Some (_, s :: _) => List.length (s_contour s) | _ => 0%nat end = 129%nat) by (vm_compute; reflexivity). rewrite V in L. cbn [s_contour] in L. rewrite map_length, seq_length in L. lia. }
      subst n'. change (Pos.to_nat 128) with (S (S (Pos.to_nat 126))). cbn [seq map]. eexists _, _, _. split; [reflexivity|]. rewrite !arch_points. split; f_equal; apply Qc_is_canon; vm_compute; reflexivity.
    - cbn [outline] in O2. subst l2. eexists. reflexivity. }
  destruct K as (s0 & s1 & -> & (a & b & l & C & -> & ->) & (z & D)). intros p [<-|[<-|[<-|[]]]].
  - exists s0. split; [left; reflexivity|]. rewrite C. exists (P 0 0), (P 1 (Q2Qc (1 # 128))). split; [left; reflexivity|]. exists (Q2Qc (1 # 2)). split; [split; vm_compute; discriminate|]. unfold crossing. cbn [px py]. f_equal; apply Qc_is_canon; vm_compute; reflexivity.
  - exists s0. split; [left; reflexivity|]. rewrite C. apply on_ends.
  - exists s1. split; [right; left; reflexivity|]. rewrite D. apply on_ends.
Qed.
