(** C91: the simplification of paths does not move what is drawn by more than the tolerance. *)
From Coq Require Import List QArith Qcanon Bool Lia Lqa.
From Verif Require Import SegmentModel OptionsModel SimplifyModel SimplifySpec SimplifyProofs SimplifyProofs2 SimplifyProofs3 SimplifyProofs4 SimplifyProofs5 OptionsProps.
Import ListNotations.
Local Open Scope Q_scope.

(** Curves become lines: tame curves stay within the tolerance (and whatever is added to it). *)
Theorem C91_straight_partial : forall t r gs, 0 < tol t -> 0 < r -> all_tame t gs -> alike (tol t + r) (stroked gs) (stroked (SimplifyModel.straight_curves t gs)).
Proof. exact straight_alike. Qed.
Print Assumptions C91_straight_partial.
(** Commands of no length are removed: the drawing moves by the tolerance for each of those that follow each other. *)
Theorem C91_noop_partial : forall t n gs, 0 < tol t -> no_arcs gs -> tiny_runs t n gs ->
  alike (inject_Z (Z.of_nat (S n)) * tol t) (stroked gs) (stroked (remove_noop_commands t gs)).
Proof. exact remove_noop_alike. Qed.
Print Assumptions C91_noop_partial.
(** Lines and curves are joined: on a grid that is not finer than the root of the tolerance lines stay where they are,
    and the drawing moves by the tolerance for each curve of a segment. *)
Theorem C91_join_partial : forall h t ratio n gs, 0 < tol t -> (forall s a2 a b1 b, 0 <= this (ratio s a2 a b1 b) <= 1) -> tol t <= h * h -> gridded h gs -> curves_at_most n gs ->
  alike (inject_Z (Z.of_nat n) * tol t) (stroked gs) (stroked (SimplifyModel.join_nodes t ratio gs)).
Proof. exact join_alike. Qed.
Print Assumptions C91_join_partial.
(** The last line of a closed segment is removed: for the fill only. *)
Theorem C91_closeline : forall t gs, 0 < tol t -> alike (tol t) (outlined gs) (outlined (SimplifyModel.remove_close_line t gs)).
Proof. exact close_line_alike. Qed.
Print Assumptions C91_closeline.
(** Segments without commands are removed, and nothing else. *)
Theorem C91_empty : forall gs a, (exists g, In g gs /\ s_data g <> [] /\ traced (s_closed g) g a) <-> stroked (SimplifyModel.remove_empty_segments gs) a.
Proof. exact empty_same. Qed.
Print Assumptions C91_empty.
(** Segments are closed: the fill stays the same. *)
Theorem C91_close : forall gs, alike 0 (outlined gs) (outlined (SimplifyModel.close_segments gs)).
Proof. exact close_alike. Qed.
Print Assumptions C91_close.
(** All passes but the removal of the closing line draw paths of lines on a grid that is coarse for the tolerance the same, to any accuracy. *)
Theorem C91_lines : forall h t ratio o r gs, 0 < tol t -> tol t < h -> tol t <= h * h -> (forall s a2 a b1 b, 0 <= this (ratio s a2 a b1 b) <= 1) ->
  gridded h gs -> only_lines gs -> (forall g, In g gs -> goes g) -> 0 < r ->
  has o RemoveCloseLine = false -> alike r (stroked gs) (stroked (simplify o t ratio gs)).
Proof. exact lines_alike. Qed.
Print Assumptions C91_lines.

Definition usual : tolerance := Tol (Q2Qc (1 # 1000)) 3.
Definition q (a : Q) : Qc := Q2Qc a.
Definition half : ratio_of := fun _ _ _ _ _ => q (1 # 2).
Definition zero : point := P (q 0) (q 0).
Definition flat : segment := Seg zero [CurveTo (P (q 3) (q 0)) (P (q 7) (q 0)) (P (q 10) (q 0)); LineTo (P (q 10) (q 10))] true.
Example C91_ex_straight : all_tame usual [flat] /\ ~ all_tame usual [Seg zero [CurveTo (P (q 30) (q 0)) (P (q 30) (q 0)) (P (q 10) (q 0))] false] /\
  map is_curve (s_data flat) = [true; false] /\ map (fun g => map is_curve (s_data g)) (SimplifyModel.straight_curves usual [flat]) = [[false; false]].
Proof.
  split; [|split; [|split; [reflexivity|vm_compute; reflexivity]]].
  - intros g p [<-|[]] [<-|[<-|[]]]; [|exact Logic.I]. split.
    + intros H. vm_compute in H. discriminate.
    + intros _. repeat split; vm_compute; discriminate.
  - intros H. specialize (H _ _ (or_introl eq_refl) (or_introl eq_refl)). destruct H as [_ H]. destruct H as [[_ H] _]; [vm_compute; discriminate|]. vm_compute in H. apply H. reflexivity.
Qed.
Definition dusty : segment := Seg zero [LineTo (P (q (1 # 2000)) (q 0)); LineTo (P (q 10) (q 0))] false.
Example C91_ex_noop : no_arcs [dusty] /\ tiny_runs usual 1 [dusty] /\ map (fun g => List.length (s_data g)) (remove_noop_commands usual [dusty]) = [1%nat].
Proof.
  split; [intros g d [<-|[]] [<-|[<-|[]]] []|]. split; [|vm_compute; reflexivity].
  intros g a b c [<-|[]] E H. destruct b as [|x [|y [|z b]]]; cbn [List.length]; try lia; exfalso.
  - assert (T : tiny usual y) by (apply H; right; left; reflexivity).
    assert (Y : y = (P (q (1 # 2000)) (q 0), LineTo (P (q 10) (q 0)))).
    { destruct a as [|a0 [|a1 a]]; cbn in E; [injection E as _ <- _; reflexivity|discriminate|destruct a; discriminate]. }
    subst y. specialize (T _ (or_introl eq_refl)). vm_compute in T. discriminate.
  - apply (f_equal (@List.length _)) in E. rewrite !app_length in E. cbn in E. lia.
Qed.
Definition square : segment := Seg zero [LineTo (P (q 1) (q 0)); LineTo (P (q 2) (q 0)); LineTo (P (q 2) (q 0)); LineTo (P (q 2) (q 2))] true.
Lemma grid_one : forall a b : Z, on_grid 1 (P (q (inject_Z a)) (q (inject_Z b))).
Proof. intros a b. exists a, b. cbn [px py]. unfold q. cbn [this Q2Qc]. rewrite !Qred_correct. split; ring. Qed.
Example C91_ex_lines : gridded 1 [square] /\ only_lines [square] /\ (forall g, In g [square] -> goes g) /\
  map (fun g => List.length (s_data g)) (simplify (options default plain) usual half [square]) = [2%nat] /\ has (options default plain) RemoveCloseLine = false.
Proof.
  split; [|split; [|split; [|split; vm_compute; reflexivity]]].
  - intros g [<-|[]]. split; [apply (grid_one 0 0)|]. intros d [<-|[<-|[<-|[<-|[]]]]]; cbn [end_point]; [apply (grid_one 1 0)|apply (grid_one 2 0)|apply (grid_one 2 0)|apply (grid_one 2 2)].
  - intros g d [<-|[]] [<-|[<-|[<-|[<-|[]]]]]; eexists; reflexivity.
  - intros g [<-|[]]. exists zero, (LineTo (P (q 1) (q 0))). split; [left; reflexivity|]. cbn [end_point]. intros E. apply (f_equal (fun p => Qc_eq_bool (px p) (q 0))) in E. vm_compute in E. discriminate.
Qed.
Definition wave : segment := Seg zero [CurveTo (P (q 0) (q 2)) (P (q 1) (q 3)) (P (q 2) (q 3)); CurveTo (P (q 3) (q 3)) (P (q 4) (q 2)) (P (q 4) (q 0))] false.
Example C91_ex_join : gridded 1 [wave] /\ curves_at_most 2 [wave] /\ (forall s a2 a b1 b, 0 <= this (half s a2 a b1 b) <= 1) /\
  map (fun g => List.length (s_data g)) (SimplifyModel.join_nodes usual half [wave]) = [1%nat].
Proof.
  split; [|split; [|split; [|vm_compute; reflexivity]]].
  - intros g [<-|[]]. split; [apply (grid_one 0 0)|]. intros d [<-|[<-|[]]]; cbn [end_point]; [apply (grid_one 2 3)|apply (grid_one 4 0)].
  - intros g [<-|[]]. cbn. lia.
  - intros. split; vm_compute; discriminate.
Qed.
Example C91_ex_closeline : map (fun g => (List.length (s_data g), s_closed g)) (SimplifyModel.remove_close_line usual [Seg zero [LineTo (P (q 1) (q 0)); LineTo (P (q 2) (q 2)); LineTo zero] true]) = [(2%nat, true)].
Proof. vm_compute. reflexivity. Qed.

(** A curve that comes back to where it starts is taken for a line, and vanishes: M0 0C10 10-10 10 0 0. *)
Theorem C91_loop_refuted : exists gs a b, stroked gs a /\ stroked gs b /\ ~ nigh 7 a b /\ forall ratio, simplify (options default plain) usual ratio gs = [].
Proof.
  exists [Seg zero [CurveTo (P (q 10) (q 10)) (P (q (-10)) (q 10)) zero] false], (xy zero), (on_cubic (1 # 2) (xy zero) (xy (P (q 10) (q 10))) (xy (P (q (-10)) (q 10))) (xy zero)).
  split; [eexists; split; [left; reflexivity|left; reflexivity]|]. split.
  - eexists. split; [left; reflexivity|]. right. left. exists zero. eexists. split; [left; reflexivity|]. constructor. split; vm_compute; discriminate.
  - split; [intros H; vm_compute in H; apply H; reflexivity|]. intros ratio. vm_compute. reflexivity.
Qed.
Print Assumptions C91_loop_refuted.
(** Controls beyond the end of the line are drawn beyond it: M0 0C30 0 30 0 10 0 loses more than its whole length. *)
Theorem C91_overshoot_refuted : exists gs a, stroked gs a /\ forall b, stroked (SimplifyModel.straight_curves usual gs) b -> ~ nigh 13 a b.
Proof.
  set (c := P (q 30) (q 0)). set (e := P (q 10) (q 0)).
  exists [Seg zero [CurveTo c c e] false], (on_cubic (1 # 2) (xy zero) (xy c) (xy c) (xy e)). split.
  - eexists. split; [left; reflexivity|]. right. left. exists zero. eexists. split; [left; reflexivity|]. constructor. split; vm_compute; discriminate.
  - assert (S : is_straight usual zero c c e = true) by (vm_compute; reflexivity).
    assert (E : SimplifyModel.straight_curves usual [Seg zero [CurveTo c c e] false] = [Seg zero [LineTo e] false]).
    { unfold SimplifyModel.straight_curves. cbn [map]. unfold with_data. cbn [s_start s_data s_closed straight_data negb orb andb]. rewrite S. reflexivity. }
    rewrite E. intros b B. destruct (one_line _ _ _ B) as (t & T & N). apply (apart 13 t _ (xy zero) (xy e) b); [lra| |exact T|exact N].
    intros u U. assert (X : fst (on_cubic (1 # 2) (xy zero) (xy c) (xy c) (xy e)) == 95 # 4) by (vm_compute; reflexivity).
    assert (Y : snd (on_cubic (1 # 2) (xy zero) (xy c) (xy c) (xy e)) == 0) by (vm_compute; reflexivity).
    unfold dist2. rewrite X, Y. unfold on_line, line_at. cbn [fst snd]. assert (Z1 : fst (xy zero) == 0) by (vm_compute; reflexivity). assert (Z2 : snd (xy zero) == 0) by (vm_compute; reflexivity).
    assert (E1 : fst (xy e) == 10) by (vm_compute; reflexivity). assert (E2 : snd (xy e) == 0) by (vm_compute; reflexivity). rewrite Z1, Z2, E1, E2. nra.
Qed.
Print Assumptions C91_overshoot_refuted.
(** Each command is measured from the end of the command before, also if that is removed: a line of any length in small steps vanishes. *)
Theorem C91_steps_refuted : forall k, exists gs a b, stroked gs a /\ stroked gs b /\ ~ nigh (inject_Z (Z.of_nat k)) a b /\
  forall ratio, simplify (options default plain) usual ratio gs = [].
Proof.
  intros k. exists [Seg (step 0) (chain (2000 * S k)) false], (xy (step 0)), (on_line 1 (xy (step (2000 * S k - 1))) (xy (step (2000 * S k)))).
  split; [eexists; split; [left; reflexivity|left; reflexivity]|]. split; [apply chain_end; lia|]. split; [apply chain_long|].
  intros ratio. unfold simplify. rewrite straight_same.
  - change (has (options default plain) StraightCurves) with true. change (has (options default plain) RemoveNoopCommands) with true. change (has (options default plain) JoinNodes) with true.
    change (has (options default plain) RemoveCloseLine) with false. change (has (options default plain) RemoveEmptySegments) with true. cbv iota zeta.
    unfold remove_noop_commands, with_data. cbn [map s_start s_data s_closed]. unfold chain. rewrite chain_gone; [|vm_compute; reflexivity]. reflexivity.
  - intros g d [<-|[]] I. unfold chain in I. cbn [s_data] in I. apply in_map_iff in I. destruct I as (i & <- & _). eexists. reflexivity.
Qed.
Print Assumptions C91_steps_refuted.
(** Lines are parallel if a product of lengths is less than the tolerance, which is a length: the corner of M0 0L.03 0 .03 .03 is cut, by more than twenty times the tolerance. *)
Theorem C91_corner_refuted : exists gs a, stroked gs a /\ forall ratio b, stroked (simplify (options default plain) usual ratio gs) b -> ~ nigh (21 * tol usual) a b.
Proof.
  set (c := P (q (3 # 100)) (q 0)). set (e := P (q (3 # 100)) (q (3 # 100))).
  exists [Seg zero [LineTo c; LineTo e] false], (on_line 0 (xy c) (xy e)). split.
  - eexists. split; [left; reflexivity|]. right. left. exists c, (LineTo e). split; [right; left; reflexivity|]. constructor. lra.
  - intros ratio b B.
    assert (E : simplify (options default plain) usual ratio [Seg zero [LineTo c; LineTo e] false] = [Seg zero [LineTo e] false]).
    { unfold simplify. change (has (options default plain) StraightCurves) with true. change (has (options default plain) RemoveNoopCommands) with true. change (has (options default plain) JoinNodes) with true.
      change (has (options default plain) RemoveCloseLine) with false. change (has (options default plain) RemoveEmptySegments) with true. cbv iota zeta. 
      assert (N1 : SegmentModel.near usual c zero = false) by (vm_compute; reflexivity). assert (N2 : SegmentModel.near usual e c = false) by (vm_compute; reflexivity). assert (P3 : is_continuous_parallel usual zero c e = true) by (vm_compute; reflexivity).
      unfold SimplifyModel.straight_curves, remove_noop_commands, SimplifyModel.join_nodes. unfold with_data. cbn [map s_start s_data s_closed straight_data end_point noop_data is_zero]. rewrite N1, N2. cbn [pop_last s_closed map s_start s_data join_loop end_point]. rewrite P3. reflexivity. }
    rewrite E in B. destruct (one_line _ _ _ B) as (t & T & N). apply (apart (21 * tol usual) t _ (xy zero) (xy e) b); [vm_compute; discriminate| |exact T|exact N].
    intros u U. assert (X : fst (on_line 0 (xy c) (xy e)) == 3 # 100) by (vm_compute; reflexivity). assert (Y : snd (on_line 0 (xy c) (xy e)) == 0) by (vm_compute; reflexivity).
    unfold dist2. rewrite X, Y. unfold on_line, line_at. cbn [fst snd]. assert (Z1 : fst (xy zero) == 0) by (vm_compute; reflexivity). assert (Z2 : snd (xy zero) == 0) by (vm_compute; reflexivity).
    assert (E1 : fst (xy e) == 3 # 100) by (vm_compute; reflexivity). assert (E2 : snd (xy e) == 3 # 100) by (vm_compute; reflexivity). rewrite Z1, Z2, E1, E2.
    assert (W : tol usual == 1 # 1000) by (vm_compute; reflexivity). rewrite W. assert (V := square_pos (u - (1 # 2))). nra.
Qed.
Print Assumptions C91_corner_refuted.
(** With round caps and joins segments are closed although they are stroked: a line is drawn that was not there. *)
Theorem C91_closed_refuted : exists s gs a, has (options every s) CloseSegments = true /\ st_stroke s = Some_ (Defined (Paint 1)) Static /\
  stroked (SimplifyModel.close_segments gs) a /\ forall b, stroked gs b -> ~ nigh 4 a b.
Proof.
  exists (mkStyles (Some_ (Defined (Paint 1)) Static) (Some_ (Defined RoundCap) Static) (Some_ (Defined RoundJoin) Static) None_ None_ None_ None_ None_).
  set (c := P (q 10) (q 0)). set (e := P (q 10) (q 10)). exists [Seg zero [LineTo c; LineTo e] false], (on_line (1 # 2) (xy e) (xy zero)).
  split; [vm_compute; reflexivity|]. split; [reflexivity|]. split.
  - eexists. split; [left; reflexivity|]. right. left. exists e, (LineTo zero). split; [right; right; left; reflexivity|]. constructor. split; vm_compute; discriminate.
  - assert (F : forall s d u, fst s == 0 /\ snd s == 0 /\ fst d == 10 /\ snd d == 0 \/ fst s == 10 /\ snd s == 0 /\ fst d == 10 /\ snd d == 10 -> 0 <= u <= 1 -> ~ nigh 4 (on_line (1 # 2) (xy e) (xy zero)) (on_line u s d)).
    { intros s d u H U N. unfold nigh, dist2 in N. assert (X : fst (on_line (1 # 2) (xy e) (xy zero)) == 5) by (vm_compute; reflexivity). assert (Y : snd (on_line (1 # 2) (xy e) (xy zero)) == 5) by (vm_compute; reflexivity).
      rewrite X, Y in N. unfold on_line, line_at in N. cbn [fst snd] in N. destruct H as [(A & B & C & D)|(A & B & C & D)]; rewrite A, B, C, D in N; [assert (V := square_pos (5 - 10 * u))|assert (V := square_pos (5 - 10 * u))]; nra. }
    intros b (g & [<-|[]] & [->|[(s & d & [E|[E|[]]] & O)|[C _]]]); cbn in *.
    + intros N. vm_compute in N. apply N. reflexivity.
    + injection E as <- <-. inversion O as [p u U W|]. subst. apply F; [left; repeat split; vm_compute; reflexivity|exact U].
    + injection E as <- <-. inversion O as [p u U W|]. subst. apply F; [right; repeat split; vm_compute; reflexivity|exact U].
    + discriminate.
Qed.
Print Assumptions C91_closed_refuted.
