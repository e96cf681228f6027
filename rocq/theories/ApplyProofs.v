From Coq Require Import List QArith Qcanon Bool Arith.
From Verif Require Import SegmentModel SegmentSpec ApplyModel ApplySpec.
Import ListNotations.
Local Close Scope Q_scope.
Local Open Scope nat_scope.

Lemma point_eq : forall a b c d : Qc, a = c -> b = d -> P a b = P c d.
Proof. intros; subst; reflexivity. Qed.
Lemma absolute_image : forall m p, absolute m p = image m p.
Proof. reflexivity. Qed.
Lemma moved_to : forall m rel a p, to_ rel (image m a) (moved m rel p) = image m (to_ rel a p).
Proof. intros m [|] a p; [|reflexivity]. unfold to_, moved, relative, image. cbn [px py]. apply point_eq; ring. Qed.
Lemma mirror_image : forall m c a, mirror (image m c) (image m a) = image m (mirror c a).
Proof. intros. unfold mirror, image. cbn [px py]. apply point_eq; ring. Qed.
Lemma next_to : forall rel a p, next rel a p = to_ rel a p.
Proof. intros [|] a p; reflexivity. Qed.
Lemma point_eqb_true : forall a b, point_eqb a b = true <-> a = b.
Proof.
  intros [a b] [c d]. unfold point_eqb. cbn [px py]. rewrite andb_true_iff. split.
  - intros (H & K). apply Qc_eq_bool_correct in H, K. subst. reflexivity.
  - intros E. injection E as -> ->. unfold Qc_eq_bool. destruct (Qc_eq_dec c c), (Qc_eq_dec d d); try congruence. split; reflexivity.
Qed.
Lemma Qc_eq_bool_refl : forall a, Qc_eq_bool a a = true.
Proof. intros a. unfold Qc_eq_bool. destruct (Qc_eq_dec a a); congruence. Qed.
Lemma Qc_eq_bool_false : forall a b, a <> b -> Qc_eq_bool a b = false.
Proof. intros a b N. unfold Qc_eq_bool. destruct (Qc_eq_dec a b); congruence. Qed.
(** Different points have different images if the determinant is not 0. *)
Lemma image_inj : forall m a b, det m <> 0%Qc -> image m a = image m b -> a = b.
Proof.
  intros m [ax ay] [bx b_y] D E. unfold image in E. cbn [px py] in E. pose proof (f_equal px E) as E1. pose proof (f_equal py E) as E2. cbn [px py] in E1, E2. clear E.
  assert (X : (det m * (ax - bx) = 0)%Qc).
  { unfold det. transitivity (m3 m * (m0 m * ax + m2 m * ay + m4 m - (m0 m * bx + m2 m * b_y + m4 m)) - m2 m * (m1 m * ax + m3 m * ay + m5 m - (m1 m * bx + m3 m * b_y + m5 m)))%Qc; [ring|].
    rewrite E1, E2. ring. }
  assert (Y : (det m * (ay - b_y) = 0)%Qc).
  { unfold det. transitivity (m0 m * (m1 m * ax + m3 m * ay + m5 m - (m1 m * bx + m3 m * b_y + m5 m)) - m1 m * (m0 m * ax + m2 m * ay + m4 m - (m0 m * bx + m2 m * b_y + m4 m)))%Qc; [ring|].
    rewrite E1, E2. ring. }
  apply Qcmult_integral in X, Y. destruct X as [X|X]; [contradiction|]. destruct Y as [Y|Y]; [contradiction|].
  apply point_eq.
  - transitivity (ax - bx + bx)%Qc; [ring|]. rewrite X. ring.
  - transitivity (ay - b_y + b_y)%Qc; [ring|]. rewrite Y. ring.
Qed.

Section Proofs.
  Variable ellipse : matrix6 -> point -> Qc * Qc * Qc -> Qc * Qc * Qc.
  Variable same_ellipse : matrix6 -> point -> Qc * Qc * Qc -> Qc * Qc * Qc -> Prop.
  Variable m : matrix6.
  Hypothesis DET : det m <> 0%Qc.
  Notation edge_image := (ApplySpec.edge_image same_ellipse m).
  Definition map_handle (h : handle) : handle := match h with NoHandle => NoHandle | CubicHandle c => CubicHandle (image m c) | QuadHandle c => QuadHandle (image m c) end.
  Definition map_pen (s : pen) : pen := Pen (image m (cur s)) (image m (sub s)) (map_handle (hand s)).
  Definition arcs_fine (c : cmd) : Prop := has_arc c = false \/ (turned m = ltb (det m) 0%Qc /\ ellipse_ok same_ellipse ellipse m).

  Lemma to_chord : forall (rel : bool) a p, (if rel then p else psub p a) = P (px (to_ rel a p) - px a)%Qc (py (to_ rel a p) - py a)%Qc.
  Proof. intros [|] [ax ay] [x y]; unfold psub, to_; cbn [px py]; apply point_eq; ring. Qed.
  Lemma step_image : forall c s, arcs_fine c ->
    let (c', t) := apply_cmd ellipse m (cur s, sub s) c in
    t = (cur (snd (step c s)), sub (snd (step c s))) /\
    snd (step c' (map_pen s)) = map_pen (snd (step c s)) /\
    Forall2 edge_image (fst (step c s)) (fst (step c' (map_pen s))).
  Proof.
    intros c s F. destruct s as [a b h]. cbn [cur sub]. unfold apply_cmd.
    destruct c as [rel p| |rel p|rel x|rel y|rel c1 c2 p|rel c2 p|rel c p|rel p|rel rx ry rot large sweep p]; cbn [step fst snd map_pen cur sub hand].
    - rewrite next_to, moved_to. repeat split; constructor.
    - (split; [reflexivity|]); (split; [reflexivity|]); constructor; [split; reflexivity|constructor].
    - rewrite next_to, moved_to. (split; [reflexivity|]); (split; [reflexivity|]); constructor; [split; reflexivity|constructor].
    - destruct rel; cbn [step fst snd map_pen cur sub hand]; rewrite moved_to; cbn [to_ next]; unfold padd; cbn [px py].
      + replace (py a + 0)%Qc with (py a) by ring. (split; [reflexivity|]); (split; [reflexivity|]); constructor; [split; reflexivity|constructor].
      + (split; [reflexivity|]); (split; [reflexivity|]); constructor; [split; reflexivity|constructor].
    - destruct rel; cbn [step fst snd map_pen cur sub hand]; rewrite moved_to; cbn [to_ next]; unfold padd; cbn [px py].
      + replace (px a + 0)%Qc with (px a) by ring. (split; [reflexivity|]); (split; [reflexivity|]); constructor; [split; reflexivity|constructor].
      + (split; [reflexivity|]); (split; [reflexivity|]); constructor; [split; reflexivity|constructor].
    - rewrite next_to, !moved_to. (split; [reflexivity|]); (split; [reflexivity|]); constructor; [repeat split; reflexivity|constructor].
    - rewrite next_to, !moved_to. (split; [reflexivity|]); (split; [reflexivity|]); constructor; [|constructor]. split; [reflexivity|]. split; [|split; reflexivity].
      destruct h; cbn [map_handle]; try reflexivity. apply mirror_image.
    - rewrite next_to, !moved_to. (split; [reflexivity|]); (split; [reflexivity|]); constructor; [repeat split; reflexivity|constructor].
    - rewrite next_to, !moved_to. destruct h as [|c|c]; cbn [map_handle]; rewrite ?mirror_image; (split; [reflexivity|]); (split; [reflexivity|]);
        (apply Forall2_cons; [split; [reflexivity|split; reflexivity]|apply Forall2_nil]).
    - destruct F as [F|(T & OK)]; [discriminate|]. rewrite to_chord.
      destruct (ellipse m (P (px (to_ rel a p) - px a)%Qc (py (to_ rel a p) - py a)%Qc) (rx, ry, rot)) as [[rx' ry'] rot'] eqn:E.
      cbn [step fst snd map_pen cur sub hand map_handle]. rewrite next_to, moved_to. split; [reflexivity|]. split; [reflexivity|]. constructor; [|constructor].
      destruct (OK (P (px (to_ rel a p) - px a)%Qc (py (to_ rel a p) - py a)%Qc) (rx, ry, rot)) as (O1 & O2). rewrite E in O1, O2. cbn [fst snd] in O1, O2.
      assert (PE : point_eqb (image m a) (image m (to_ rel a p)) = point_eqb a (to_ rel a p)).
      { destruct (point_eqb a (to_ rel a p)) eqn:K.
        - apply point_eqb_true in K. apply point_eqb_true. rewrite <- K. reflexivity.
        - destruct (point_eqb (image m a) (image m (to_ rel a p))) eqn:K'; [|reflexivity]. apply point_eqb_true in K'. apply (image_inj m _ _ DET) in K'.
          apply point_eqb_true in K'. congruence. }
      rewrite PE. destruct (point_eqb a (to_ rel a p)); [rewrite !orb_true_r; split; reflexivity|]. rewrite !orb_false_r.
      destruct (Qc_eq_bool rx 0 || Qc_eq_bool ry 0) eqn:Z.
      + assert (FL : rx = 0%Qc \/ ry = 0%Qc).
        { apply orb_prop in Z. destruct Z as [Z|Z]; apply Qc_eq_bool_correct in Z; [left|right]; exact Z. }
        destruct (O1 FL) as [->| ->]; rewrite Qc_eq_bool_refl, ?orb_true_r; split; reflexivity.
      + assert (NF : ~ (rx = 0%Qc \/ ry = 0%Qc)).
        { apply orb_false_elim in Z. destruct Z as (Z1 & Z2). intros [->| ->]; rewrite Qc_eq_bool_refl in *; discriminate. }
        destruct (O2 NF) as (N' & SE). rewrite (Qc_eq_bool_false rx' 0), (Qc_eq_bool_false ry' 0) by (intros X; apply N'; auto).
        cbn [orb]. rewrite T. repeat split; try assumption. destruct (ltb (det m) 0), sweep; reflexivity.
  Qed.
  Lemma apply_all_image : forall l s, Forall (fun o => arcs_fine (snd o)) l ->
    Forall2 edge_image (run s (map snd l)) (run (map_pen s) (map snd (apply_all ellipse m (cur s, sub s) l))).
  Proof.
    intros l. induction l as [|[i c] l IH]; intros s F; [constructor|]. inversion F as [|? ? F1 F2]; subst. cbn [snd] in F1. cbn [apply_all map].
    pose proof (step_image c s F1) as S. destruct (apply_cmd ellipse m (cur s, sub s) c) as [c' t]. destruct S as (-> & P' & E). cbn [map snd run].
    apply Forall2_app; [exact E|]. rewrite P'. apply IH. exact F2.
  Qed.
  Theorem apply_image : forall l, starts_with_move l -> (existsb has_arc (map snd l) = true -> turned m = ltb (det m) 0%Qc /\ ellipse_ok same_ellipse ellipse m) ->
    Forall2 edge_image (drawing (map snd l)) (drawing (map snd (apply_matrix ellipse m l))).
  Proof.
    intros l S A. destruct l as [|[i c] l]; [constructor|]. destruct S as (-> & M). destruct c as [rel p| | | | | | | | |]; try discriminate.
    assert (F : Forall (fun o => arcs_fine (snd o)) l).
    { cbn [map snd existsb has_arc orb] in A. apply Forall_forall. intros o J. unfold arcs_fine. destruct (has_arc (snd o)) eqn:H; [right|left; reflexivity].
      apply A. apply existsb_exists. exists (snd o). split; [apply in_map; exact J|exact H]. }
    match goal with |- context [apply_matrix ellipse m ?q] => set (r := apply_matrix ellipse m q) end.
    assert (X : r = (false, Move false (image m p)) :: apply_all ellipse m (p, p) l).
    { destruct rel; reflexivity. }
    rewrite X. unfold drawing. cbn [map snd run step fst].
    assert (Y : Pen (to_ rel (cur rest) p) (to_ rel (cur rest) p) NoHandle = Pen p p NoHandle).
    { replace (to_ rel (cur rest) p) with p; [reflexivity|]. destruct rel; [|reflexivity]. destruct p as [x y]. unfold to_, rest, origin. cbn [cur px py]. apply point_eq; ring. }
    rewrite Y. cbn [to_ app]. exact (apply_all_image l (Pen p p NoHandle) F).
  Qed.
End Proofs.
Lemma apply_explicit : forall ellipse m l s o, In o (apply_all ellipse m s l) -> fst o = false.
Proof.
  intros ellipse m l. induction l as [|[i c] l IH]; intros s o J; [destruct J|]. cbn [apply_all] in J. destruct (apply_cmd ellipse m s c) as [c' s'].
  destruct J as [<-|J]; [reflexivity|]. exact (IH s' o J).
Qed.
Theorem apply_lines : forall ellipse same_ellipse m, det m <> 0%Qc -> forall l, starts_with_move l -> existsb has_arc (map snd l) = false ->
  Forall2 (edge_image same_ellipse m) (drawing (map snd l)) (drawing (map snd (apply_matrix ellipse m l))).
Proof. intros ellipse same_ellipse m D l S A. apply apply_image; [exact D|exact S|]. intros B. congruence. Qed.
Theorem apply_arcs : forall ellipse same_ellipse m, det m <> 0%Qc -> turned m = ltb (det m) 0%Qc -> ellipse_ok same_ellipse ellipse m ->
  forall l, starts_with_move l ->
  Forall2 (edge_image same_ellipse m) (drawing (map snd l)) (drawing (map snd (apply_matrix ellipse m l))).
Proof. intros ellipse same_ellipse m D T E l S. apply apply_image; [exact D|exact S|]. intros B. split; assumption. Qed.
Theorem apply_matrix_explicit : forall ellipse m l o, In o (apply_matrix ellipse m l) -> fst o = false.
Proof. intros ellipse m l o J. unfold apply_matrix in J. exact (apply_explicit _ _ _ _ _ J). Qed.
Lemma ltb_lt : forall a b, ltb a b = true <-> (a < b)%Qc.
Proof. intros a b. unfold ltb, Qclt, Qccompare. rewrite Qlt_alt. destruct (this a ?= this b)%Q; split; congruence. Qed.
Lemma ltb_ge : forall a b, ltb a b = false <-> (b <= a)%Qc.
Proof.
  intros a b. destruct (ltb a b) eqn:E.
  - split; [discriminate|]. intros L. apply ltb_lt in E. exfalso. apply (Qclt_not_le _ _ E L).
  - split; [|reflexivity]. intros _. apply Qcnot_lt_le. intros L. apply ltb_lt in L. congruence.
Qed.
Lemma sign_product : forall a d, a <> 0%Qc -> d <> 0%Qc -> xorb (ltb a 0%Qc) (ltb d 0%Qc) = ltb (a * d)%Qc 0%Qc.
Proof.
  assert (PP : forall a d, (0 < a)%Qc -> (0 < d)%Qc -> (0 < a * d)%Qc).
  { intros a d A D. pose proof (Qcmult_lt_compat_r 0%Qc a d D A) as H. replace (0 * d)%Qc with 0%Qc in H by ring. exact H. }
  assert (OPP : forall a, (a < 0)%Qc -> (0 < - a)%Qc).
  { intros a H. apply Qclt_minus_iff in H. replace (0 + - a)%Qc with (- a)%Qc in H by ring. exact H. }
  assert (POS : forall a, a <> 0%Qc -> ltb a 0%Qc = false -> (0 < a)%Qc).
  { intros a A E. apply ltb_ge in E. destruct (Qcle_lt_or_eq _ _ E) as [L|L]; [exact L|]. exfalso. apply A. symmetry. exact L. }
  assert (NEG : forall a, (0 < - a)%Qc -> ltb a 0%Qc = true).
  { intros a H. apply ltb_lt. apply Qclt_minus_iff. replace (0 + - a)%Qc with (- a)%Qc by ring. exact H. }
  assert (GE : forall a, (0 < a)%Qc -> ltb a 0%Qc = false).
  { intros a H. apply ltb_ge. apply Qclt_le_weak. exact H. }
  intros a d A D. destruct (ltb a 0%Qc) eqn:EA; destruct (ltb d 0%Qc) eqn:ED; cbn [xorb]; symmetry.
  - apply GE. replace (a * d)%Qc with ((- a) * (- d))%Qc by ring. apply PP; apply OPP; apply ltb_lt; assumption.
  - apply NEG. replace (- (a * d))%Qc with ((- a) * d)%Qc by ring. apply PP; [apply OPP, ltb_lt, EA|apply POS; assumption].
  - apply NEG. replace (- (a * d))%Qc with (a * (- d))%Qc by ring. apply PP; [apply POS; assumption|apply OPP, ltb_lt, ED].
  - apply GE. apply PP; apply POS; assumption.
Qed.
(** An arc that is drawn: what the flag of its image has to be. *)
Lemma arc_sweep : forall m ellipse same_ellipse p rx ry rot large sweep, ellipse_ok same_ellipse ellipse m -> rx <> 0%Qc -> ry <> 0%Qc ->
  point_eqb (P 0%Qc 0%Qc) p = false ->
  let l := [(false, Move false (P 0%Qc 0%Qc)); (false, Arc false rx ry rot large sweep p)] in
  Forall2 (edge_image same_ellipse m) (drawing (map snd l)) (drawing (map snd (apply_matrix ellipse m l))) -> turned m = ltb (det m) 0%Qc.
Proof.
  intros m ellipse same_ellipse p rx ry rot large sweep OK X Y PE l. unfold l, drawing, apply_matrix. cbn [map snd apply_all apply_cmd next].
  destruct (ellipse m (psub p (P 0%Qc 0%Qc)) (rx, ry, rot)) as [[rx' ry'] rot'] eqn:E. cbn [map snd run step fst app cur to_].
  rewrite (Qc_eq_bool_false rx 0), (Qc_eq_bool_false ry 0), PE by assumption. cbn [orb app].
  destruct (OK (psub p (P 0%Qc 0%Qc)) (rx, ry, rot)) as (_ & O). rewrite E in O. cbn [fst snd] in O. destruct O as (N & _); [intros [Z|Z]; contradiction|].
  rewrite (Qc_eq_bool_false rx' 0), (Qc_eq_bool_false ry' 0) by (intros Z; apply N; auto). cbn [orb].
  match goal with |- context [if point_eqb ?a ?b then _ else _] => destruct (point_eqb a b) end; cbn [app]; intros F; inversion F as [|? ? ? ? F1 F2]; subst; cbn [edge_image] in F1; [destruct F1|].
  destruct F1 as (_ & _ & _ & S & _). destruct (turned m), (ltb (det m) 0%Qc), sweep; try reflexivity; discriminate.
Qed.
Definition zc (n : Z) : Qc := Q2Qc (inject_Z n).
Lemma swap_refuted : exists m l, det m <> 0%Qc /\ starts_with_move l /\ ltb (det m) 0%Qc = true /\
  forall ellipse same_ellipse, ellipse_ok same_ellipse ellipse m ->
  ~ Forall2 (edge_image same_ellipse m) (drawing (map snd l)) (drawing (map snd (apply_matrix ellipse m l))).
Proof.
  exists (M6 (zc 0) (zc 1) (zc 1) (zc 0) (zc 0) (zc 0)), [(false, Move false (P 0%Qc 0%Qc)); (false, Arc false (zc 1) (zc 1) (zc 0) false true (P (zc 2) (zc 0)))].
  split; [intros E; apply (f_equal this) in E; vm_compute in E; discriminate|]. split; [split; reflexivity|]. split; [vm_compute; reflexivity|].
  intros ellipse same_ellipse OK F. apply arc_sweep in F; [vm_compute in F; discriminate|exact OK| | |vm_compute; reflexivity]; intros E; apply (f_equal this) in E; vm_compute in E; discriminate.
Qed.
Lemma turn_refuted : exists m l, det m <> 0%Qc /\ starts_with_move l /\ ltb (det m) 0%Qc = false /\
  forall ellipse same_ellipse, ellipse_ok same_ellipse ellipse m ->
  ~ Forall2 (edge_image same_ellipse m) (drawing (map snd l)) (drawing (map snd (apply_matrix ellipse m l))).
Proof.
  exists (M6 (zc 1) (zc 2) (zc (-2)) (zc (-1)) (zc 0) (zc 0)), [(false, Move false (P 0%Qc 0%Qc)); (false, Arc false (zc 1) (zc 1) (zc 0) false true (P (zc 2) (zc 0)))].
  split; [intros E; apply (f_equal this) in E; vm_compute in E; discriminate|]. split; [split; reflexivity|]. split; [vm_compute; reflexivity|].
  intros ellipse same_ellipse OK F. apply arc_sweep in F; [vm_compute in F; discriminate|exact OK| | |vm_compute; reflexivity]; intros E; apply (f_equal this) in E; vm_compute in E; discriminate.
Qed.
Theorem turned_shear : forall m, m0 m <> 0%Qc -> m3 m <> 0%Qc -> (m1 m = 0%Qc \/ m2 m = 0%Qc) -> det m <> 0%Qc -> turned m = ltb (det m) 0%Qc.
Proof.
  intros m A D Z _. assert (E : det m = (m0 m * m3 m)%Qc) by (unfold det; destruct Z as [->| ->]; ring). rewrite E. unfold turned, ltb.
  apply sign_product; assumption.
Qed.
Theorem turned_similar : forall m, det m <> 0%Qc -> (m3 m = m0 m /\ m2 m = (- m1 m)%Qc \/ m3 m = (- m0 m)%Qc /\ m2 m = m1 m /\ m0 m <> 0%Qc) ->
  turned m = ltb (det m) 0%Qc.
Proof.
  assert (SQ : forall a, (0 <= a * a)%Qc).
  { intros a. apply ltb_ge. destruct (Qc_eq_dec a 0%Qc) as [->|N]; [vm_compute; reflexivity|]. rewrite <- sign_product by exact N. apply xorb_nilpotent. }
  assert (SUM : forall a b, (0 <= a * a + b * b)%Qc).
  { intros a b. replace 0%Qc with (0 + 0)%Qc by ring. apply Qcplus_le_compat; apply SQ. }
  intros m D [(E1 & E2)|(E1 & E2 & N)]; unfold turned, det in *; rewrite E1, E2 in *.
  - rewrite xorb_nilpotent. symmetry. apply ltb_ge. replace (m0 m * m0 m - m1 m * - m1 m)%Qc with (m0 m * m0 m + m1 m * m1 m)%Qc by ring. apply SUM.
  - assert (N' : (- m0 m)%Qc <> 0%Qc) by (intros Z; apply N; replace (m0 m) with (- - m0 m)%Qc by ring; rewrite Z; ring).
    rewrite sign_product by assumption. assert (L : ltb (m0 m * - m0 m - m1 m * m1 m)%Qc 0%Qc = true).
    { destruct (ltb (m0 m * - m0 m - m1 m * m1 m)%Qc 0%Qc) eqn:L; [reflexivity|]. exfalso. apply D. apply Qcle_antisym; [|apply ltb_ge; exact L].
      apply Qcle_minus_iff. replace (0 + - (m0 m * - m0 m - m1 m * m1 m))%Qc with (m0 m * m0 m + m1 m * m1 m)%Qc by ring. apply SUM. }
    rewrite L. destruct (ltb (m0 m * - m0 m)%Qc 0%Qc) eqn:L2; [reflexivity|]. exfalso. rewrite <- sign_product in L2 by assumption.
    apply xorb_eq in L2. destruct (ltb (m0 m) 0%Qc) eqn:L3.
    + symmetry in L2. apply ltb_lt in L2. apply ltb_lt in L3. apply Qclt_minus_iff in L2. replace (0 + - - m0 m)%Qc with (m0 m) in L2 by ring. exact (Qclt_not_le _ _ L2 (Qclt_le_weak _ _ L3)).
    + apply ltb_ge in L3. symmetry in L2. apply ltb_ge in L2. apply N. apply Qcle_antisym; [|exact L3]. apply Qcle_minus_iff. replace (0 + - m0 m)%Qc with (- m0 m)%Qc by ring. exact L2.
Qed.
