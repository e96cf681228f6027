(** The search for a separating line, and paths. *)
From Coq Require Import List QArith Qminmax Bool Arith Lia Lqa Field.
From Verif Require Import GjkModel GjkSpec GjkProofs GjkProofs2.
Import ListNotations.
Local Open Scope Q_scope.

Definition origin : pt := P 0 0.
Lemma nonzero : forall d p, 0 < dot d p -> ~ same d origin.
Proof. intros [dx dy] [x y] H [E F]. unfold dot, origin in *. cbn [px py] in *. nra. Qed.
Lemma nonzero_r : forall d p, 0 < dot d p -> ~ same p origin.
Proof. intros [dx dy] [x y] H [E F]. unfold dot, origin in *. cbn [px py] in *. nra. Qed.
Lemma nonzero_neg : forall p, ~ same p origin -> ~ same (neg p) origin.
Proof. intros [x y] H [E F]. apply H. unfold neg, origin in *. cbn [px py] in *. split; cbn [px py]; lra. Qed.
Lemma nonzero_orth : forall a f, ~ same a origin -> ~ same (orth a f) origin.
Proof.
  intros [x y] f H K. apply H. unfold orth, neg, origin in *. cbn [px py] in *. destruct (Qle_bool 0 _); destruct K as [E F]; cbn [px py] in *; split; cbn [px py]; lra.
Qed.

Section Pair.
  Variables la lb : list pt.
  Hypothesis HA : (2 <= length la)%nat.
  Hypothesis HB : (2 <= length lb)%nat.
  Let g := convex_hull la.
  Let h := convex_hull lb.
  Definition diff (p : pt) : Prop := exists a b, In a la /\ In b lb /\ p = sub a b.
  Lemma get_support_ok : forall d, exists p, get_support g h d = Some p /\ diff p /\ forall a b, In a la -> In b lb -> dot d (sub a b) <= dot d p.
  Proof.
    intros d. destruct (support_ok la d HA) as [v [V1 [V2 V3]]]. destruct (support_ok lb (neg d) HB) as [w [W1 [W2 W3]]].
    exists (sub v w). unfold get_support, g, h. rewrite V1, W1. split; [reflexivity|]. split; [exists v, w; repeat split; assumption|]. intros a b A B. specialize (V3 a A). specialize (W3 b B).
    unfold dot, sub, neg in *. cbn [px py] in *. lra.
  Qed.
  (** A line that separates the points. *)
  Definition apart : Prop := exists e, ~ same e origin /\ forall a b, In a la -> In b lb -> dot e a <= dot e b.
  Lemma process_direction : forall s d p s' d', 0 < dot d p -> process_simplex (s ++ [p]) d = Some (s', d') -> ~ same d' origin.
  Proof.
    intros s d p s' d' H E. assert (N := nonzero d p H). assert (M := nonzero_neg p (nonzero_r d p H)).
    destruct s as [|b [|c [|x s]]]; cbn [app process_simplex] in E.
    - injection E as _ <-. exact N.
    - destruct (Qltb 0 (dot (neg p) (sub b p))) eqn:L; injection E as _ <-; [|exact M]. apply Qltb_true in L. apply nonzero_orth. exact (nonzero_r _ _ L).
    - destruct (Qltb 0 (dot (orth (sub c p) (sub b p)) (neg p))) eqn:L1.
      + destruct (Qltb 0 (dot (sub c p) (neg p))); injection E as _ <-; [|exact M]. apply Qltb_true in L1. exact (nonzero _ _ L1).
      + destruct (Qltb 0 (dot (orth (sub b p) (sub c p)) (neg p))) eqn:L2; [|discriminate]. destruct (Qltb 0 (dot (sub b p) (neg p))); injection E as _ <-; [|exact M]. apply Qltb_true in L2. exact (nonzero _ _ L2).
    - destruct s as [|y s]; cbn [app] in E; injection E as _ <-; exact N.
  Qed.
  Lemma search_apart : forall fuel s d, (~ same d origin \/ apart) -> search fuel g h s d = Apart -> apart.
  Proof.
    induction fuel as [|fuel IH]; intros s d N E; [discriminate|]. cbn [search] in E. destruct (get_support_ok d) as [p [P1 [P2 P3]]]. rewrite P1 in E.
    destruct (Qle_bool (dot d p) 0) eqn:L.
    - apply Qle_bool_iff in L. destruct N as [N|N]; [|exact N]. exists d. split; [exact N|]. intros a b A B. specialize (P3 a b A B). unfold dot, sub in *. cbn [px py] in *. lra.
    - apply Qle_bool_false in L. destruct (process_simplex (s ++ [p]) d) as [[s' d']|] eqn:Q; [|discriminate]. apply (IH s' d'); [|exact E]. left. exact (process_direction s d p s' d' L Q).
  Qed.
  Lemma search_total : forall fuel s d, search fuel g h s d <> Panic.
  Proof.
    induction fuel as [|fuel IH]; intros s d; [discriminate|]. cbn [search]. destruct (get_support_ok d) as [p [P1 _]]. rewrite P1. destruct (Qle_bool (dot d p) 0); [discriminate|]. destruct (process_simplex (s ++ [p]) d) as [[s' d']|]; [apply IH|discriminate].
  Qed.
  Theorem compare_total : compare g h <> Panic.
  Proof. unfold compare. destruct (get_support_ok (P 1 0)) as [p [P1 _]]. rewrite P1. apply search_total. Qed.
  Theorem compare_apart : compare g h = Apart -> apart.
  Proof.
    unfold compare. destruct (get_support_ok (P 1 0)) as [p [P1 [P2 P3]]]. rewrite P1. apply search_apart.
    destruct (Qeq_dec (px p) 0) as [X|X]; [|left; intros [E _]; cbn [px neg origin] in E; apply X; lra]. right. exists (P 1 0). split; [intros [E _]; cbn [px origin] in E; lra|].
    intros a b A B. specialize (P3 a b A B). unfold dot, sub in *. cbn [px py] in *. lra.
  Qed.
  (** * When they meet *)
  Lemma perp : forall d e, ~ same e origin -> dot d e == 0 -> exists k, px d == - k * py e /\ py d == k * px e.
  Proof.
    intros [dx dy] [x y] N E. unfold dot, same, origin in *. cbn [px py] in *. assert (D : ~ x * x + y * y == 0).
    { intro Z. apply N. assert (x == 0) by nra. assert (y == 0) by nra. split; assumption. }
    exists ((dy * x - dx * y) / (x * x + y * y)). split.
    - setoid_replace dx with ((dx * (x * x + y * y)) / (x * x + y * y)) at 1 by (field; exact D). setoid_replace (dx * (x * x + y * y)) with (x * (dx * x + dy * y) - (dy * x - dx * y) * y) by ring. rewrite E. field. exact D.
    - setoid_replace dy with ((dy * (x * x + y * y)) / (x * x + y * y)) at 1 by (field; exact D). setoid_replace (dy * (x * x + y * y)) with (y * (dx * x + dy * y) + (dy * x - dx * y) * x) by ring. rewrite E. field. exact D.
  Qed.
  Definition det (a b : pt) : Q := px a * py b - py a * px b.
  (** The origin in a triangle. *)
  Lemma triangle : forall a b c d, ~ same b c -> dot d (sub b c) == 0 -> dot d b <= 0 -> 0 < dot d a ->
    dot (orth (sub b a) (sub c a)) (neg a) <= 0 -> dot (orth (sub c a) (sub b a)) (neg a) <= 0 ->
    exists t u, 0 <= t <= 1 /\ 0 <= u <= 1 /\ same (mix t (mix u b c) a) origin.
  Proof.
    intros a b c d N E1 E2 E3 L1 L2.
    destruct (perp d (sub b c)) as [k [K1 K2]]; [intros [X Y]; apply N; unfold sub, origin in *; cbn [px py] in *; split; lra|exact E1|].
    set (D := det a b + det b c + det c a).
    assert (S1 : (0 < D -> 0 <= det a b) /\ (D <= 0 -> det a b <= 0)).
    { unfold orth in L1. set (o := P (- py (sub b a)) (px (sub b a))) in *. assert (Q : dot o (neg (sub c a)) == - D) by (unfold o, D, det, dot, neg, sub; cbn [px py]; ring).
      assert (R : dot o (neg a) == det a b) by (unfold o, det, dot, neg, sub; cbn [px py]; ring). assert (R' : dot (neg o) (neg a) == - det a b) by (unfold o, det, dot, neg, sub; cbn [px py]; ring).
      destruct (Qle_bool 0 (dot o (neg (sub c a)))) eqn:W; [apply Qle_bool_iff in W|apply Qle_bool_false in W]; rewrite Q in W; split; intros; try lra. }
    assert (S2 : (0 <= D -> 0 <= det c a) /\ (D < 0 -> det c a <= 0)).
    { unfold orth in L2. set (o := P (- py (sub c a)) (px (sub c a))) in *. assert (Q : dot o (neg (sub b a)) == D) by (unfold o, D, det, dot, neg, sub; cbn [px py]; ring).
      assert (R : dot o (neg a) == - det c a) by (unfold o, det, dot, neg, sub; cbn [px py]; ring). assert (R' : dot (neg o) (neg a) == det c a) by (unfold o, det, dot, neg, sub; cbn [px py]; ring).
      destruct (Qle_bool 0 (dot o (neg (sub b a)))) eqn:W; [apply Qle_bool_iff in W|apply Qle_bool_false in W]; rewrite Q in W; split; intros; try lra. }
    assert (F1 : dot d a - dot d b == - k * D).
    { unfold dot. rewrite K1, K2. unfold D, det, sub. cbn [px py]. ring. }
    assert (F2 : dot d b == k * det b c).
    { unfold dot. rewrite K1, K2. unfold det, sub. cbn [px py]. ring. }
    assert (V1 : px a * det b c + px b * det c a + px c * det a b == 0) by (unfold det; ring).
    assert (V2 : py a * det b c + py b * det c a + py c * det a b == 0) by (unfold det; ring).
    assert (FF : 0 < - k * D) by lra.
    assert (ND : ~ D == 0) by (intro Z; rewrite Z in FF; lra).
    assert (NZ : ~ det a b + det c a == 0).
    { intro Z. assert (Za : det a b == 0) by (destruct (Qlt_le_dec 0 D) as [X|X]; [destruct S1 as [S1 _]; destruct S2 as [S2 _]; specialize (S1 X); specialize (S2 ltac:(lra)); lra|assert (X' : D < 0) by (apply Qle_lteq in X; destruct X as [X|X]; [exact X|destruct (ND X)]); destruct S1 as [_ S1]; destruct S2 as [_ S2]; specialize (S1 X); specialize (S2 X'); lra]).
      assert (Zc : det c a == 0) by lra. assert (Zb : D == det b c) by (unfold D; lra). rewrite Za, Zc in V1, V2. rewrite <- Zb in V1, V2.
      assert (A1 : px a * D == 0) by lra. assert (A2 : py a * D == 0) by lra. apply Qmult_integral in A1. apply Qmult_integral in A2.
      destruct A1 as [A1|A1]; [|destruct (ND A1)]. destruct A2 as [A2|A2]; [|destruct (ND A2)]. unfold dot in E3. rewrite A1, A2 in E3. lra. }
    exists (det b c / D), (det a b / (det a b + det c a)).
    assert (G : 0 <= det b c / D <= 1 /\ 0 <= det a b / (det a b + det c a) <= 1).
    { destruct (Qlt_le_dec 0 D) as [X|X].
      - destruct S1 as [S1 _]. destruct S2 as [S2 _]. specialize (S1 X). specialize (S2 ltac:(lra)). assert (kn : k < 0) by nra. assert (B0 : 0 <= det b c) by nra.
        assert (Y : 0 < det a b + det c a) by (destruct (Qlt_le_dec 0 (det a b + det c a)) as [y|y]; [exact y|exfalso; apply NZ; lra]).
        repeat split; try (apply Qle_shift_div_l; [assumption|lra]); apply Qle_shift_div_r; try assumption; unfold D; lra.
      - assert (X' : D < 0) by (apply Qle_lteq in X; destruct X as [X|X]; [exact X|destruct (ND X)]). destruct S1 as [_ S1]. destruct S2 as [_ S2]. specialize (S1 X). specialize (S2 X'). assert (kn : 0 < k) by nra. assert (B0 : det b c <= 0) by nra.
        assert (Y : 0 < - (det a b + det c a)) by (destruct (Qlt_le_dec 0 (- (det a b + det c a))) as [y|y]; [exact y|exfalso; apply NZ; lra]).
        setoid_replace (det b c / D) with ((- det b c) / (- D)) by (field; exact ND). setoid_replace (det a b / (det a b + det c a)) with ((- det a b) / (- (det a b + det c a))) by (field; exact NZ).
        repeat split; try (apply Qle_shift_div_l; [lra|lra]); apply Qle_shift_div_r; try lra; unfold D; lra. }
    destruct G as [G1 G2]. split; [exact G1|]. split; [exact G2|]. unfold same, mix, origin. cbn [px py].
    assert (X1 : 1 - det b c / D == (det a b + det c a) / D) by (unfold D in *; field; exact ND).
    split.
    - setoid_replace ((1 - det b c / D) * ((1 - det a b / (det a b + det c a)) * px b + det a b / (det a b + det c a) * px c) + det b c / D * px a)
        with ((px a * det b c + px b * det c a + px c * det a b) / D); [rewrite V1; field; exact ND|]. rewrite X1. field. split; assumption.
    - setoid_replace ((1 - det b c / D) * ((1 - det a b / (det a b + det c a)) * py b + det a b / (det a b + det c a) * py c) + det b c / D * py a)
        with ((py a * det b c + py b * det c a + py c * det a b) / D); [rewrite V2; field; exact ND|]. rewrite X1. field. split; assumption.
  Qed.
  (** * Each round comes closer *)
  Definition sq (p : pt) : Q := dot p p.
  Lemma sq_nonneg : forall p, 0 <= sq p. Proof. intros [x y]. unfold sq, dot. cbn [px py]. nra. Qed.
  Lemma sq_zero : forall p, sq p == 0 -> same p origin. Proof. intros [x y] E. unfold sq, dot, same, origin in *. cbn [px py] in *. split; nra. Qed.
  Definition dist (b c : pt) : Q := det b c * det b c / sq (sub b c).
  Lemma closer : forall a b c al be ga, 0 <= al -> 0 < ga -> ga < be ->
    al * px a + be * px b == ga * px c -> al * py a + be * py b == ga * py c -> dot b c < sq b -> dot b c < sq c ->
    0 < al /\ dot a b < 0 /\ ga * ga * sq (sub b c) < al * al * sq (sub a b).
  Proof.
    intros [ax ay] [bx by'] [cx cy] al be ga A G B X Y H1 H2. unfold sq, dot, sub in *. cbn [px py] in *.
    assert (BB : 0 < bx * bx + by' * by').
    { destruct (Qlt_le_dec 0 (bx * bx + by' * by')) as [z|z]; [exact z|]. assert (bx == 0) by nra. assert (by' == 0) by nra. rewrite H, H0 in H1. lra. }
    assert (AB : al * (ax * bx + ay * by') < 0).
    { setoid_replace (al * (ax * bx + ay * by')) with ((al * ax) * bx + (al * ay) * by') by ring. setoid_replace (al * ax) with (ga * cx - be * bx) by lra. setoid_replace (al * ay) with (ga * cy - be * by') by lra.
      setoid_replace ((ga * cx - be * bx) * bx + (ga * cy - be * by') * by') with (ga * (bx * cx + by' * cy) - be * (bx * bx + by' * by')) by ring. nra. }
    assert (PA : 0 < al). { destruct (Qlt_le_dec 0 al) as [z|z]; [exact z|]. assert (al == 0) by lra. rewrite H in AB. lra. }
    split; [exact PA|]. split; [nra|].
    setoid_replace (al * al * ((ax - bx) * (ax - bx) + (ay - by') * (ay - by'))) with ((al * ax - al * bx) * (al * ax - al * bx) + (al * ay - al * by') * (al * ay - al * by')) by ring.
    setoid_replace (al * ax) with (ga * cx - be * bx) by lra. setoid_replace (al * ay) with (ga * cy - be * by') by lra.
    set (dd := al + be - ga). assert (DD : 0 < dd) by (unfold dd; lra).
    setoid_replace ((ga * cx - be * bx - al * bx) * (ga * cx - be * bx - al * bx) + (ga * cy - be * by' - al * by') * (ga * cy - be * by' - al * by'))
      with (ga * ga * ((bx - cx) * (bx - cx) + (by' - cy) * (by' - cy)) + (2 * (ga * dd) * ((bx * bx + by' * by') - (bx * cx + by' * cy)) + dd * dd * (bx * bx + by' * by'))) by (unfold dd; ring).
    assert (0 < ga * dd) by nra. assert (0 < dd * dd) by nra. nra.
  Qed.
  (** The origin is beyond [ab]. *)
  Lemma beyond : forall a b c k, 0 < - k * (det a b + det b c + det c a) -> k * det b c <= 0 -> 0 < - k * (det a b + det c a) ->
    0 < k * det a b -> dot b c < sq b -> dot b c < sq c -> dot a b < 0 /\ dist b a < dist c b.
  Proof.
    intros a b c k F1 F2 F3 F4 H1 H2.
    assert (V1 : px a * det b c + px b * det c a + px c * det a b == 0) by (unfold det; ring).
    assert (V2 : py a * det b c + py b * det c a + py c * det a b == 0) by (unfold det; ring).
    destruct (closer a b c (- k * det b c) (- k * det c a) (k * det a b)) as [P1 [P2 P3]]; try assumption; try lra.
    { setoid_replace (- k * det b c * px a + - k * det c a * px b) with (- k * ((px a * det b c + px b * det c a + px c * det a b) - px c * det a b)) by ring. rewrite V1. ring. }
    { setoid_replace (- k * det b c * py a + - k * det c a * py b) with (- k * ((py a * det b c + py b * det c a + py c * det a b) - py c * det a b)) by ring. rewrite V2. ring. }
    split; [exact P2|].
    assert (Sbc : 0 < sq (sub c b)).
    { assert (E : sq (sub c b) == (sq b - dot b c) + (sq c - dot b c)) by (unfold sq, dot, sub; cbn [px py]; ring). rewrite E. lra. }
    assert (Sab : 0 < sq (sub b a)).
    { assert (E : sq (sub b a) == sq b + sq a - 2 * dot a b) by (unfold sq, dot, sub; cbn [px py]; ring). rewrite E. assert (Na := sq_nonneg a). assert (Nb := sq_nonneg b). lra. }
    assert (E1 : sq (sub b c) == sq (sub c b)) by (unfold sq, dot, sub; cbn [px py]; ring). assert (E2 : sq (sub a b) == sq (sub b a)) by (unfold sq, dot, sub; cbn [px py]; ring). rewrite E1, E2 in P3.
    assert (K : 0 < k * k). { assert (~ k == 0) by (intro Z; rewrite Z in F4; lra). nra. }
    unfold dist. apply Qlt_shift_div_r; [exact Sab|].
    setoid_replace (det c b * det c b / sq (sub c b) * sq (sub b a)) with (det b c * det b c * sq (sub b a) / sq (sub c b)) by (unfold det; field; intro Z; rewrite Z in Sbc; lra).
    apply Qlt_shift_div_l; [exact Sbc|]. setoid_replace (det b a * det b a * sq (sub c b)) with (det a b * det a b * sq (sub c b)) by (unfold det; ring).
    assert (G : k * k * (det a b * det a b * sq (sub c b)) < k * k * (det b c * det b c * sq (sub b a))) by lra.
    exact (proj1 (Qmult_lt_l _ _ (k * k) K) G).
  Qed.
  (** What holds before each round. *)
  Definition held (s : list pt) (d : pt) : Prop :=
    match s with
    | [x] => diff x /\ d = neg x
    | [c; b] => diff c /\ diff b /\ ~ same b c /\ dot d (sub b c) == 0 /\ dot d b <= 0 /\ dot b c < sq b /\ dot b c < sq c
    | _ => False
    end.
  Lemma orth_perp : forall v f, dot (orth v f) v == 0.
  Proof. intros v f. unfold orth. destruct (Qle_bool _ _); unfold dot, neg; cbn [px py]; ring. Qed.
  Lemma orth_away : forall v f, dot (orth v f) f <= 0.
  Proof.
    intros v f. unfold orth. destruct (Qle_bool _ _) eqn:L; [apply Qle_bool_iff in L|apply Qle_bool_false in L]; unfold dot, neg in *; cbn [px py] in *; lra.
  Qed.
  Lemma sub_nonzero : forall b a, ~ same (sub b a) origin -> ~ same a b.
  Proof. intros [bx by'] [ax ay] N [X Y]. apply N. unfold sub, same, origin in *. cbn [px py] in *. split; lra. Qed.
  Lemma round : forall s d p s' d', held s d -> diff p -> 0 < dot d p -> process_simplex (s ++ [p]) d = Some (s', d') ->
    held s' d' /\ match s, s' with [c; b], [x; y] => dist x y < dist c b | [_], [_; _] => True | _, _ => False end.
  Proof.
    intros s d p s' d' H Dp L E. destruct s as [|c [|b [|z s]]]; try destruct H; cbn [app process_simplex] in E.
    - subst d. rename c into b. assert (AB : dot p b < 0) by (unfold dot, neg in *; cbn [px py] in *; lra).
      assert (Na := sq_nonneg p). assert (Nb := sq_nonneg b).
      assert (W : 0 < dot (neg p) (sub b p)).
      { assert (Q : dot (neg p) (sub b p) == sq p - dot p b) by (unfold sq, dot, sub, neg; cbn [px py]; ring). rewrite Q. lra. }
      destruct (Qltb 0 (dot (neg p) (sub b p))) eqn:B; [|apply Qltb_false in B; lra]. injection E as <- <-. split; [|exact Logic.I]. cbn [held].
      refine (conj H (conj Dp (conj _ (conj _ (conj _ (conj _ _)))))).
      + apply sub_nonzero. exact (nonzero_r _ _ W).
      + assert (Q := orth_perp (sub b p) p). unfold dot, sub in *. cbn [px py] in *. lra.
      + apply orth_away.
      + lra.
      + lra.
    - destruct H0 as [Db [N [H0 [H1 [H2 H3]]]]]. rename H into Dc.
      destruct (perp d (sub b c)) as [k [K1 K2]]; [intros [X Y]; apply N; unfold sub, origin in *; cbn [px py] in *; split; lra|exact H0|].
      assert (F1 : dot d p - dot d b == - k * (det p b + det b c + det c p)) by (unfold dot; rewrite K1, K2; unfold det, sub; cbn [px py]; ring).
      assert (F2 : dot d b == k * det b c) by (unfold dot; rewrite K1, K2; unfold det, sub; cbn [px py]; ring).
      assert (F3 : dot d p == - k * (det p b + det c p)) by lra.
      set (D := det p b + det b c + det c p) in *.
      assert (R1 : 0 < dot (orth (sub b p) (sub c p)) (neg p) -> 0 < k * det p b).
      { unfold orth. set (o := P (- py (sub b p)) (px (sub b p))) in *. assert (Q : dot o (neg (sub c p)) == - D) by (unfold o, D, det, dot, neg, sub; cbn [px py]; ring).
        assert (R : dot o (neg p) == det p b) by (unfold o, det, dot, neg, sub; cbn [px py]; ring). assert (R' : dot (neg o) (neg p) == - det p b) by (unfold o, det, dot, neg, sub; cbn [px py]; ring).
        destruct (Qle_bool 0 (dot o (neg (sub c p)))) eqn:W; [apply Qle_bool_iff in W|apply Qle_bool_false in W]; rewrite Q in W; rewrite ?R, ?R'; intros; nra. }
      assert (R2 : 0 < dot (orth (sub c p) (sub b p)) (neg p) -> 0 < k * det c p).
      { unfold orth. set (o := P (- py (sub c p)) (px (sub c p))) in *. assert (Q : dot o (neg (sub b p)) == D) by (unfold o, D, det, dot, neg, sub; cbn [px py]; ring).
        assert (R : dot o (neg p) == - det c p) by (unfold o, det, dot, neg, sub; cbn [px py]; ring). assert (R' : dot (neg o) (neg p) == det c p) by (unfold o, det, dot, neg, sub; cbn [px py]; ring).
        destruct (Qle_bool 0 (dot o (neg (sub b p)))) eqn:W; [apply Qle_bool_iff in W|apply Qle_bool_false in W]; rewrite Q in W; rewrite ?R, ?R'; intros; nra. }
      assert (Na := sq_nonneg p). assert (Nb := sq_nonneg b). assert (Nc := sq_nonneg c).
      destruct (Qltb 0 (dot (orth (sub b p) (sub c p)) (neg p))) eqn:L1.
      + apply Qltb_true in L1. destruct (beyond p b c k) as [B1 B2]; try assumption; try (fold D; lra); try (apply R1; exact L1).
        assert (W : 0 < dot (sub b p) (neg p)).
        { assert (Q : dot (sub b p) (neg p) == sq p - dot p b) by (unfold sq, dot, sub, neg; cbn [px py]; ring). rewrite Q. lra. }
        destruct (Qltb 0 (dot (sub b p) (neg p))) eqn:L2; [|apply Qltb_false in L2; lra]. injection E as <- <-. split; [|exact B2]. cbn [held].
        refine (conj Db (conj Dp (conj _ (conj _ (conj _ (conj _ _)))))).
        * apply sub_nonzero. exact (nonzero _ _ W).
        * assert (Q := orth_perp (sub b p) (sub c p)). unfold dot, sub in *. cbn [px py] in *. lra.
        * unfold dot, neg in *; cbn [px py] in *; lra.
        * lra.
        * lra.
      + apply Qltb_false in L1. destruct (Qltb 0 (dot (orth (sub c p) (sub b p)) (neg p))) eqn:L2; [|discriminate].
        apply Qltb_true in L2. assert (bc : dot c b == dot b c) by (unfold dot; ring). assert (dpc : det p c == - det c p) by (unfold det; ring). assert (dbp : det b p == - det p b) by (unfold det; ring). assert (dcb : det c b == - det b c) by (unfold det; ring).
        specialize (R2 L2).
        assert (Z1 : 0 < - - k * (det p c + det c b + det b p)) by (rewrite dpc, dbp, dcb; unfold D in *; lra).
        assert (Z2 : - k * det c b <= 0) by (rewrite dcb; lra).
        assert (Z3 : 0 < - - k * (det p c + det b p)) by (rewrite dpc, dbp; lra).
        assert (Z4 : 0 < - k * det p c) by (rewrite dpc; lra).
        destruct (beyond p c b (- k) Z1 Z2 Z3 Z4 ltac:(lra) ltac:(lra)) as [B1 B2].
        assert (W : 0 < dot (sub c p) (neg p)).
        { assert (Q : dot (sub c p) (neg p) == sq p - dot p c) by (unfold sq, dot, sub, neg; cbn [px py]; ring). rewrite Q. lra. }
        destruct (Qltb 0 (dot (sub c p) (neg p))) eqn:L3; [|apply Qltb_false in L3; lra]. injection E as <- <-. split.
        * cbn [held]. refine (conj Dc (conj Dp (conj _ (conj _ (conj _ (conj _ _)))))).
          -- apply sub_nonzero. exact (nonzero _ _ W).
          -- assert (Q := orth_perp (sub c p) (sub b p)). unfold dot, sub in *. cbn [px py] in *. lra.
          -- unfold dot, neg in *; cbn [px py] in *; lra.
          -- lra.
          -- lra.
        * assert (Q : dist b c == dist c b) by (unfold dist, det, sq, dot, sub; cbn [px py]; setoid_replace ((px c - px b) * (px c - px b) + (py c - py b) * (py c - py b)) with ((px b - px c) * (px b - px c) + (py b - py c) * (py b - py c)) by ring; unfold Qdiv; ring). rewrite <- Q. exact B2.
  Qed.
  Definition common : Prop := exists x y, hull (fun p => In p la) x /\ hull (fun p => In p lb) y /\ same x y.
  Lemma search_meet : forall fuel s d, held s d -> search fuel g h s d = Meet -> common.
  Proof.
    induction fuel as [|fuel IH]; intros s d H E; [discriminate|]. cbn [search] in E. destruct (get_support_ok d) as [p [P1 [P2 P3]]]. rewrite P1 in E.
    destruct (Qle_bool (dot d p) 0) eqn:L; [discriminate|]. apply Qle_bool_false in L.
    destruct (process_simplex (s ++ [p]) d) as [[s' d']|] eqn:Q; [exact (IH s' d' (proj1 (round s d p s' d' H P2 L Q)) E)|].
    destruct s as [|c [|b [|z s]]]; try destruct H; cbn [app process_simplex] in Q.
    - destruct (Qltb 0 (dot (neg p) (sub c p))); discriminate.
    - destruct H0 as [Db [N [H0 [H1 _]]]]. rename H into Dc.
      destruct (Qltb 0 (dot (orth (sub b p) (sub c p)) (neg p))) eqn:L1; [destruct (Qltb 0 (dot (sub b p) (neg p))); discriminate|]. destruct (Qltb 0 (dot (orth (sub c p) (sub b p)) (neg p))) eqn:L2; [destruct (Qltb 0 (dot (sub c p) (neg p))); discriminate|].
      apply Qltb_false in L1, L2. destruct (triangle p b c d N H0 H1 L L1 L2) as [t [u [T [U Z]]]].
      destruct Db as [b1 [b2 [B1 [B2 ->]]]]. destruct Dc as [c1 [c2 [C1 [C2 ->]]]]. destruct P2 as [a1 [a2 [A1 [A2 ->]]]].
      exists (mix t (mix u b1 c1) a1), (mix t (mix u b2 c2) a2). refine (conj _ (conj _ _)).
      + apply hull_mix with (a := mix u b1 c1) (b := a1) (t := t); [|exact (hull_in _ _ A1)|exact T|split; reflexivity]. apply hull_mix with (a := b1) (b := c1) (t := u); [exact (hull_in _ _ B1)|exact (hull_in _ _ C1)|exact U|split; reflexivity].
      + apply hull_mix with (a := mix u b2 c2) (b := a2) (t := t); [|exact (hull_in _ _ A2)|exact T|split; reflexivity]. apply hull_mix with (a := b2) (b := c2) (t := u); [exact (hull_in _ _ B2)|exact (hull_in _ _ C2)|exact U|split; reflexivity].
      + destruct Z as [Z1 Z2]. unfold mix, sub, same, origin in *. cbn [px py] in *. split; lra.
  Qed.
  (** * The rounds end *)
  Definition diffs : list pt := map (fun q => sub (fst q) (snd q)) (list_prod la lb).
  Lemma diffs_in : forall p, diff p -> In p diffs.
  Proof. intros p [a [b [A [B ->]]]]. apply in_map_iff. exists (a, b). split; [reflexivity|]. apply in_prod; assumption. Qed.
  Definition nearer (c b : pt) : nat := length (filter (fun q => Qltb (dist (fst q) (snd q)) (dist c b)) (list_prod diffs diffs)).
  Lemma filter_le : forall (A : Type) (f k : A -> bool) l, (forall x, f x = true -> k x = true) -> (length (filter f l) <= length (filter k l))%nat.
  Proof. intros A f k l H. induction l as [|x l IH]; [apply le_n|]. cbn [filter]. specialize (H x). destruct (f x); [rewrite (H eq_refl); cbn [length]; lia|destruct (k x); cbn [length]; lia]. Qed.
  Lemma filter_lt : forall (A : Type) (f k : A -> bool) l z, (forall x, f x = true -> k x = true) -> In z l -> f z = false -> k z = true -> (length (filter f l) < length (filter k l))%nat.
  Proof.
    intros A f k l z H I F K. induction l as [|x l IH]; [destruct I|]. cbn [filter]. destruct I as [->|I].
    - rewrite F, K. cbn [length]. assert (W := filter_le A f k l H). lia.
    - specialize (IH I). specialize (H x). destruct (f x); [rewrite (H eq_refl); cbn [length]; lia|destruct (k x); cbn [length]; lia].
  Qed.
  Lemma nearer_lt : forall c b x y, diff x -> diff y -> dist x y < dist c b -> (nearer x y < nearer c b)%nat.
  Proof.
    intros c b x y X Y L. unfold nearer. apply (filter_lt _ _ _ _ (x, y)).
    - intros q Q. apply Qltb_true in Q. apply Qltb_true. lra.
    - apply in_prod; apply diffs_in; assumption.
    - apply Qltb_false. cbn [fst snd]. lra.
    - apply Qltb_true. exact L.
  Qed.
  Lemma search_ends2 : forall fuel c b d, held [c; b] d -> (nearer c b < fuel)%nat -> search fuel g h [c; b] d <> Exhausted.
  Proof.
    induction fuel as [|fuel IH]; intros c b d H N; [lia|]. cbn [search]. destruct (get_support_ok d) as [p [P1 [P2 P3]]]. rewrite P1.
    destruct (Qle_bool (dot d p) 0) eqn:L; [discriminate|]. apply Qle_bool_false in L.
    destruct (process_simplex ([c; b] ++ [p]) d) as [[s' d']|] eqn:Q; [|discriminate]. destruct (round [c; b] d p s' d' H P2 L Q) as [H' M].
    destruct s' as [|x [|y [|z s']]]; try exact (False_ind _ M). apply IH; [exact H'|]. assert (W := nearer_lt c b x y (proj1 H') (proj1 (proj2 H')) M). lia.
  Qed.
  Lemma nearer_bound : forall c b, (nearer c b <= (length la * length lb) * (length la * length lb))%nat.
  Proof.
    intros c b. unfold nearer. eapply Nat.le_trans; [apply (filter_le _ _ (fun _ => true)); reflexivity|]. assert (E : forall (l : list (pt * pt)), filter (fun _ => true) l = l) by (induction l as [|x l IH]; [reflexivity|cbn [filter]; rewrite IH; reflexivity]). rewrite E.
    unfold diffs. rewrite prod_length, map_length, prod_length. apply le_n.
  Qed.
  Lemma search_ends : forall fuel x, diff x -> ((length la * length lb) * (length la * length lb) + 1 < fuel)%nat -> search fuel g h [x] (neg x) <> Exhausted.
  Proof.
    intros fuel x X N. destruct fuel as [|fuel]; [lia|]. cbn [search]. destruct (get_support_ok (neg x)) as [p [P1 [P2 P3]]]. rewrite P1.
    destruct (Qle_bool (dot (neg x) p) 0) eqn:L; [discriminate|]. apply Qle_bool_false in L.
    destruct (process_simplex ([x] ++ [p]) (neg x)) as [[s' d']|] eqn:Q; [|discriminate]. destruct (round [x] (neg x) p s' d' (conj X eq_refl) P2 L Q) as [H' M].
    destruct s' as [|a [|b [|z s']]]; try exact (False_ind _ M). apply search_ends2; [exact H'|]. assert (W := nearer_bound a b). lia.
  Qed.
  Theorem compare_meet : compare g h = Meet -> common.
  Proof.
    unfold compare. destruct (get_support_ok (P 1 0)) as [p [P1 [P2 P3]]]. rewrite P1. apply search_meet. split; [exact P2|reflexivity].
  Qed.
  Theorem compare_ends : (length la * length lb <= 99)%nat -> compare g h <> Exhausted.
  Proof.
    intros L. unfold compare. destruct (get_support_ok (P 1 0)) as [p [P1 [P2 P3]]]. rewrite P1. apply search_ends; [exact P2|]. nia.
  Qed.
End Pair.
