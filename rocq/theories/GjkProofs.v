(** Proofs about convex hulls and the search for a separating line. *)
From Coq Require Import List QArith Qminmax Bool Arith Lia Lqa.
From Verif Require Import GjkModel GjkSpec.
Import ListNotations.
Local Open Scope Q_scope.

Lemma Qltb_true : forall x y, Qltb x y = true <-> x < y.
Proof. intros x y. unfold Qltb. rewrite negb_true_iff. split; intro H. - apply Qnot_le_lt. intro L. apply Qle_bool_iff in L. congruence. - destruct (Qle_bool y x) eqn:E; [|reflexivity]. apply Qle_bool_iff in E. lra. Qed.
Lemma Qltb_false : forall x y, Qltb x y = false <-> y <= x.
Proof. intros x y. unfold Qltb. rewrite negb_false_iff. apply Qle_bool_iff. Qed.
Lemma Qle_bool_false : forall x y, Qle_bool x y = false <-> y < x.
Proof. intros x y. split; intro H. - apply Qnot_le_lt. intro L. apply Qle_bool_iff in L. congruence. - destruct (Qle_bool x y) eqn:E; [|reflexivity]. apply Qle_bool_iff in E. lra. Qed.

(** * Sorting *)
Definition lex (a b : pt) : Prop := px a < px b \/ (px a == px b /\ py a <= py b).
Lemma lex_leb_true : forall a b, lex_leb a b = true -> lex a b.
Proof.
  intros a b H. unfold lex_leb in H. unfold lex. destruct (Qeq_bool (px a) (px b)) eqn:E.
  - apply Qeq_bool_iff in E. apply Qle_bool_iff in H. right. split; assumption.
  - apply Qeq_bool_neq in E. apply Qle_bool_iff in H. left. apply Qle_lteq in H. tauto.
Qed.
Lemma lex_leb_false : forall a b, lex_leb a b = false -> lex b a.
Proof.
  intros a b H. unfold lex_leb in H. unfold lex. destruct (Qeq_bool (px a) (px b)) eqn:E.
  - apply Qeq_bool_iff in E. apply Qle_bool_false in H. right. split; lra.
  - apply Qle_bool_false in H. left. exact H.
Qed.
Lemma lex_trans : forall a b c, lex a b -> lex b c -> lex a c.
Proof. unfold lex. intros a b c [H|[H K]] [H'|[H' K']]; [left|left|left|right; split]; lra. Qed.
Lemma lex_refl : forall a, lex a a.
Proof. intros a. right. split; lra. Qed.
Inductive ascending : list pt -> Prop :=
| asc_nil : ascending []
| asc_cons : forall p l, Forall (lex p) l -> ascending l -> ascending (p :: l).
Lemma insert_in : forall p l x, In x (insert p l) <-> x = p \/ In x l.
Proof.
  intros p l x. induction l as [|q r IH]; [cbn; split; intros [H|H]; auto; contradiction|]. cbn [insert]. destruct (lex_leb p q); cbn [In]; [|rewrite IH]; split; intuition.
Qed.
Lemma insert_asc : forall p l, ascending l -> ascending (insert p l).
Proof.
  intros p l H. induction H as [|q r F H IH]; [constructor; constructor|]. cbn [insert]. destruct (lex_leb p q) eqn:E.
  - apply lex_leb_true in E. constructor; [|constructor; assumption]. constructor; [exact E|]. eapply Forall_impl; [|exact F]. intros x. apply lex_trans, E.
  - apply lex_leb_false in E. constructor; [|exact IH]. apply Forall_forall. intros x I. apply insert_in in I. destruct I as [->|I]; [exact E|]. rewrite Forall_forall in F. apply F, I.
Qed.
Lemma sort_in : forall l x, In x (sort l) <-> In x l.
Proof. intros l x. induction l as [|p l IH]; [tauto|]. cbn [sort In]. rewrite insert_in, IH. split; intuition. Qed.
Lemma sort_asc : forall l, ascending (sort l).
Proof. induction l as [|p l IH]; [constructor|]. cbn [sort]. apply insert_asc, IH. Qed.
Lemma insert_length : forall p l, length (insert p l) = S (length l).
Proof. intros p l. induction l as [|q r IH]; [reflexivity|]. cbn [insert]. destruct (lex_leb p q); cbn [length]; [|rewrite IH]; reflexivity. Qed.
Lemma sort_length : forall l, length (sort l) = length l.
Proof. induction l as [|p l IH]; [reflexivity|]. cbn [sort]. rewrite insert_length, IH. reflexivity. Qed.

(** * Chains; [s] is 1 for the lower one and -1 for the upper one. *)
Definition sign (s : Q) : Prop := s = 1 \/ s = - (1).
Definition before (s : Q) (a b : pt) : Prop := s * px a < s * px b \/ (px a == px b /\ s * py a <= s * py b).
Ltac signs := match goal with H : sign ?s |- _ => destruct H as [->| ->] end.
Lemma before_trans : forall s a b c, sign s -> before s a b -> before s b c -> before s a c.
Proof. unfold before. intros s a b c S [H|[H K]] [H'|[H' K']]; signs; first [left; lra|right; split; lra]. Qed.

(** A popped point is never further than its neighbours. *)
Lemma popped : forall s a b p d, sign s -> before s a b -> before s b p -> cross a b p <= 0 -> s * py d <= 0 -> dot b d <= dot a d \/ dot b d <= dot p d.
Proof.
  intros s [ax ay] [bx b'] [cx cy] [dx dy] S H K C D. unfold before, cross, dot in *. cbn [px py] in *.
  destruct (Qlt_le_dec (ax * dx + ay * dy) (bx * dx + b' * dy)) as [L|L]; [|left; exact L]. right.
  destruct (Qlt_le_dec (cx * dx + cy * dy) (bx * dx + b' * dy)) as [M|M]; [|exact M]. exfalso.
  signs.
  - assert (U : 0 <= bx - ax) by (destruct H as [H|[H _]]; lra). assert (V : 0 <= cx - bx) by (destruct K as [K|[K _]]; lra).
    assert (W : (bx - ax) * (cy - b') - (b' - ay) * (cx - bx) <= 0) by lra.
    destruct H as [H|[H H']]; destruct K as [K|[K K']]; nra.
  - assert (U : 0 <= ax - bx) by (destruct H as [H|[H _]]; lra). assert (V : 0 <= bx - cx) by (destruct K as [K|[K _]]; lra).
    assert (W : (bx - ax) * (cy - b') - (b' - ay) * (cx - bx) <= 0) by lra.
    destruct H as [H|[H H']]; destruct K as [K|[K K']]; nra.
Qed.

Inductive linked (s : Q) : list pt -> Prop :=
| lk1 : forall p, linked s [p]
| lk2 : forall p q, before s q p -> linked s [p; q]
| lk3 : forall p q r l, before s q p -> 0 < cross r q p -> linked s (q :: r :: l) -> linked s (p :: q :: r :: l).
Lemma linked_tail : forall s p q l, linked s (p :: q :: l) -> before s q p /\ linked s (q :: l).
Proof. intros s p q l H. inversion H; subst; split; try assumption. constructor. Qed.
Definition covers (s : Q) (c pr : list pt) : Prop := forall d, s * py d <= 0 -> forall q, In q pr -> exists u, In u c /\ dot q d <= dot u d.
Lemma pop_inv : forall s p, sign s -> forall c, linked s c -> (forall q, In q c -> before s q p) ->
  linked s (p :: pop c p) /\ (forall q, In q (pop c p) -> In q c) /\ pop c p <> [] /\ (forall z, last (pop c p) z = last c z) /\ covers s (p :: pop c p) c.
Proof.
  intros s p S. induction c as [|b c IH]; intros L B; [inversion L|]. destruct c as [|a r].
  - cbn [pop]. repeat split; try (intros; assumption); try discriminate.
    + constructor. apply B. left. reflexivity.
    + intros d D q I. exists q. split; [right; exact I|lra].
  - destruct (linked_tail _ _ _ _ L) as [L1 L2]. cbn [pop]. destruct (Qle_bool (cross a b p) 0) eqn:E.
    + apply Qle_bool_iff in E. fold (pop (a :: r) p). assert (B' : forall q, In q (a :: r) -> before s q p) by (intros q I; apply B; right; exact I).
      destruct (IH L2 B') as [H1 [H2 [H3 [H4 H5]]]]. split; [exact H1|]. split; [intros q I; right; apply H2, I|]. split; [exact H3|]. split; [intros z; rewrite H4; reflexivity|].
      intros d D q [<-|I]; [|apply H5; assumption].
      destruct (popped s a b p d S L1 (B b (or_introl eq_refl)) E D) as [K|K].
      * destruct (H5 d D a (or_introl eq_refl)) as [u [I U]]. exists u. split; [exact I|lra].
      * exists p. split; [left; reflexivity|exact K].
    + apply Qle_bool_false in E. split; [|split; [|split; [|split]]]; try discriminate.
      * constructor; [apply B; left; reflexivity|exact E|exact L].
      * intros q I. exact I.
      * intros z. reflexivity.
      * intros d D q I. exists q. split; [right; exact I|lra].
Qed.
Lemma pop_track : forall s p m y, sign s -> Forall (fun q => s * m < s * py q) y -> s * m <= s * py p -> forall x Q c, c = x ++ Q :: y -> linked s c -> py Q == m -> (forall q, In q c -> before s q p) ->
  exists x' Q', p :: pop c p = x' ++ Q' :: y /\ py Q' == m.
Proof.
  intros s p m y S Y M. induction x as [|u x IH]; intros R c -> L E B.
  - cbn [app] in *. destruct y as [|l y'].
    + exists [p], R. split; [reflexivity|exact E].
    + cbn [pop]. destruct (Qle_bool (cross l R p) 0) eqn:C; [|exists [p], R; split; [reflexivity|exact E]].
      apply Qle_bool_iff in C. destruct (linked_tail _ _ _ _ L) as [L1 L2]. assert (B1 := B R (or_introl eq_refl)). inversion Y as [|? ? Y1 Y2]; subst.
      assert (X : px p == px R /\ py p == py R).
      { clear - S C L1 B1 Y1 E M. destruct l as [lx ly], R as [rx ry], p as [qx qy]. unfold before, cross in *. cbn [px py] in *. signs.
        - assert (A : lx < rx) by (destruct L1 as [?|[? ?]]; lra). assert (V : rx <= qx) by (destruct B1 as [?|[? ?]]; lra). assert (W : (rx - lx) * (qy - ry) + (ly - ry) * (qx - rx) <= 0) by lra.
          assert (W1 : 0 <= (rx - lx) * (qy - ry)) by (apply Qmult_le_0_compat; lra). assert (W2 : 0 <= (ly - ry) * (qx - rx)) by (apply Qmult_le_0_compat; lra). split; nra.
        - assert (A : rx < lx) by (destruct L1 as [?|[? ?]]; lra). assert (V : qx <= rx) by (destruct B1 as [?|[? ?]]; lra). assert (W : (lx - rx) * (ry - qy) + (ry - ly) * (rx - qx) <= 0) by lra.
          assert (W1 : 0 <= (lx - rx) * (ry - qy)) by (apply Qmult_le_0_compat; lra). assert (W2 : 0 <= (ry - ly) * (rx - qx)) by (apply Qmult_le_0_compat; lra). split; nra. }
      destruct X as [X1 X2]. exists [], p. split; [|rewrite X2; exact E]. cbn [app]. f_equal. fold (pop (l :: y') p).
      destruct y' as [|l' y'']; [reflexivity|]. cbn [pop]. inversion L as [| |? ? ? ? T1 T2 T3]; subst.
      assert (Z : Qle_bool (cross l' l p) 0 = false); [|rewrite Z; reflexivity]. apply Qle_bool_false. unfold cross in *. rewrite X1, X2. exact T2.
  - cbn [app] in *. remember (x ++ R :: y) as c' eqn:F. destruct c' as [|a r]; [destruct x; discriminate F|]. cbn [pop]. destruct (linked_tail _ _ _ _ L) as [_ L2]. destruct (Qle_bool (cross a u p) 0).
    + fold (pop (a :: r) p). apply (IH R (a :: r) F L2 E). intros q I. apply B. right. exact I.
    + exists (p :: u :: x), R. split; [|exact E]. rewrite F. reflexivity.
Qed.

(** What is known of a chain when the points [pr] have been taken. *)
Record inv (s : Q) (pr c : list pt) (m : Q) (i : nat) : Prop := {
  i_linked : linked s c;
  i_incl : forall q, In q c -> In q pr;
  i_covers : covers s c pr;
  i_track : exists x R y, c = x ++ R :: y /\ length y = i /\ py R == m /\ Forall (fun q => s * m < s * py q) y;
  i_min : forall q, In q pr -> s * m <= s * py q }.
Definition improves (s : Q) (better : Q -> Q -> bool) : Prop := forall x y, better x y = true <-> s * x < s * y.
Lemma step_inv : forall s better pr c m i p, sign s -> improves s better -> inv s pr c m i -> (forall q, In q pr -> before s q p) ->
  exists c' m' i', chain_step better (c, m, i) p = (p :: c', m', i') /\ inv s (pr ++ [p]) (p :: c') m' i' /\ c' <> [] /\ (forall z, last c' z = last c z).
Proof.
  intros s better pr c m i p S I [H1 H2 H3 [x [R [y [T1 [T2 [T3 T4]]]]]] H5] B. unfold chain_step.
  destruct (pop_inv s p S c H1 (fun q J => B q (H2 q J))) as [P1 [P2 [P3 [P4 P5]]]].
  assert (C : covers s (p :: pop c p) (pr ++ [p])).
  { intros d D q J. apply in_app_or in J. destruct J as [J|[<-|[]]]; [|exists p; split; [left; reflexivity|lra]].
    destruct (H3 d D q J) as [u [U1 U2]]. destruct (P5 d D u U1) as [v [V1 V2]]. exists v. split; [exact V1|lra]. }
  assert (N : forall q, In q (p :: pop c p) -> In q (pr ++ [p])) by (intros q [<-|J]; apply in_or_app; [right; left; reflexivity|left; apply H2, P2, J]).
  destruct (better (py p) m) eqn:E.
  - apply I in E. exists (pop c p), (py p), (length (pop c p)). split; [reflexivity|]. split; [|split; [exact P3|exact P4]]. constructor; try assumption.
    + exists [], p, (pop c p). split; [reflexivity|]. split; [reflexivity|]. split; [lra|]. apply Forall_forall. intros q J. specialize (H5 q (H2 q (P2 q J))). lra.
    + intros q J. apply in_app_or in J. destruct J as [J|[<-|[]]]; [specialize (H5 q J)|]; lra.
  - assert (M : s * m <= s * py p) by (apply Qnot_lt_le; intro L; apply I in L; congruence).
    destruct (pop_track s p m y S T4 M x R c T1 H1 T3 (fun q J => B q (H2 q J))) as [x' [R' [Q1 Q2]]].
    exists (pop c p), m, i. split; [reflexivity|]. split; [|split; [exact P3|exact P4]]. constructor; try assumption.
    + exists x', R', y. repeat split; assumption.
    + intros q J. apply in_app_or in J. destruct J as [J|[<-|[]]]; [apply H5, J|exact M].
Qed.
Inductive ordered (s : Q) : list pt -> Prop :=
| ord_nil : ordered s []
| ord_cons : forall p l, Forall (before s p) l -> ordered s l -> ordered s (p :: l).
Lemma fold_inv : forall s better, sign s -> improves s better -> forall l pr c m i, inv s pr c m i -> ordered s l -> (forall q p, In q pr -> In p l -> before s q p) -> c <> [] ->
  exists c' m' i', fold_left (chain_step better) l (c, m, i) = (c', m', i') /\ inv s (pr ++ l) c' m' i' /\ (forall z, last c' z = last c z) /\
    (l = [] -> c' = c) /\ (l <> [] -> exists c'', c' = last l (P 0 0) :: c'' /\ c'' <> []).
Proof.
  intros s better S I. induction l as [|p l IH]; intros pr c m i V O B N.
  - exists c, m, i. rewrite app_nil_r. split; [reflexivity|]. split; [exact V|]. split; [reflexivity|]. split; [reflexivity|]. intros K. destruct (K eq_refl).
  - cbn [fold_left]. inversion O as [|? ? O1 O2]; subst. destruct (step_inv s better pr c m i p S I V (fun q J => B q p J (or_introl eq_refl))) as [c1 [m1 [i1 [E1 [V1 [N1 L1]]]]]].
    rewrite E1. destruct (IH (pr ++ [p]) (p :: c1) m1 i1 V1 O2) as [c2 [m2 [i2 [E2 [V2 [L2 [Z2 K2]]]]]]]; [| discriminate|].
    + intros q r J K. apply in_app_or in J. destruct J as [J|[<-|[]]]; [apply B; [exact J|right; exact K]|]. rewrite Forall_forall in O1. apply O1, K.
    + exists c2, m2, i2. split; [exact E2|]. split; [rewrite <- app_assoc in V2; exact V2|]. split; [intros z; rewrite L2; destruct c1 as [|x1 c1]; [destruct (N1 eq_refl)|]; cbn [last]; apply L1|]. split; [discriminate|]. intros _.
      destruct l as [|x l]; [rewrite (Z2 eq_refl); exists c1; split; [reflexivity|exact N1]|]. apply K2. discriminate.
Qed.
Lemma chain_inv : forall s better p q l, sign s -> improves s better -> ordered s (p :: q :: l) ->
  exists c m i, chain better (p :: q :: l) = (last (p :: q :: l) (P 0 0) :: c, m, i) /\ inv s (p :: q :: l) (last (p :: q :: l) (P 0 0) :: c) m i /\ c <> [] /\ last c (P 0 0) = p.
Proof.
  intros s better p q l S I OR. unfold chain. cbn [fold_left].
  assert (E : chain_step better ([], py p, O) p = ([p], py p, O)).
  { unfold chain_step. cbn [pop]. destruct (better (py p) (py p)) eqn:E; [|reflexivity]. apply I in E. exfalso. lra. }
  rewrite E. inversion OR as [|? ? O1 O2]; subst.
  destruct (fold_inv s better S I (q :: l) [p] [p] (py p) O) as [c [m [i [E' [V [L [_ K]]]]]]]; try discriminate; try assumption.
  - constructor.
    + constructor.
    + intros x J. exact J.
    + intros d D x J. exists x. split; [exact J|lra].
    + exists [], p, []. repeat split; try reflexivity; constructor.
    + intros x [<-|[]]. lra.
  - intros x y [<-|[]] J. rewrite Forall_forall in O1. apply O1, J.
  - destruct (K ltac:(discriminate)) as [c'' [-> N]]. cbn [fold_left] in E'. exists c'', m, i. change (last (p :: q :: l) (P 0 0)) with (last (q :: l) (P 0 0)). split; [exact E'|]. split; [exact V|]. split; [exact N|]. specialize (L (P 0 0)). destruct c'' as [|x c'']; [destruct (N eq_refl)|]. cbn [last] in L |- *. exact L.
Qed.
