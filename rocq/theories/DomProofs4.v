(** Lemmas about [before], [retain_children], [sort_child_elements], [set_local_name] and about
    adding attached nodes. *)
From Coq Require Import List Arith Bool Lia Relations Permutation.
From Verif Require Import DomModel DomSpec DomProofs DomProofs2 DomProofs3.
Import ListNotations.

Ltac lg := autorewrite with look.

(** ** before *)
Lemma before_corrupts h k e n p :
  Repr h k -> In e (k p) -> n <> e -> n <> p -> forall k', ~ Repr (before h e n) k'.
Proof.
  intros R Hin Hne Hnp k' R'.
  assert (P : parent (before h e n n) = Some p /\ last (before h e n p) = None).
  { unfold before, parent_node, element_new.
    rewrite (repr_parent _ _ _ _ R Hin), (r_kind h k R p e Hin).
    pose proof (remove_repr h k n R) as R1.
    destruct (repr_detached_links _ _ _ R1 (detached_without k n)) as (A&B&C).
    unfold insert_before. remember (remove h n) as h1.
    unfold remove; cbv zeta; lg. rewrite ?Nat.eqb_refl, ?B, ?C. simpl. lg.
    rewrite ?Nat.eqb_refl.
    match goal with |- context [match ?x with Some _ => _ | None => _ end] => destruct x end; lg;
      rewrite ?Nat.eqb_refl; split; bool_cases. }
  destruct P as [P1 P2].
  pose proof (repr_in_of_parent _ _ _ _ R' P1) as Hk.
  rewrite (r_last _ _ R') in P2.
  destruct (snoc_case (k' p)) as [E|(l&y&E)]; rewrite E in *; [inversion Hk|].
  rewrite lastof_snoc in P2. discriminate.
Qed.

(** ** retain_children *)
Fixpoint plinks (h : heap) (a : option nat) (l : list nat) : Prop :=
  match l with
  | [] => True
  | c :: r => prev (h c) = a /\ plinks h (Some c) r
  end.

Lemma plinks_ext h h' a l : (forall x, In x l -> prev (h' x) = prev (h x)) ->
  plinks h a l -> plinks h' a l.
Proof.
  revert a; induction l as [|c r IH]; intros a E; simpl; auto.
  intros [H1 H2]. split; [rewrite E; auto; left; auto|].
  apply IH; auto. intros x Hx; apply E; right; auto.
Qed.

Lemma retain_loop_spec self f : forall l h a prevr fuel,
  seg h self a l None -> NoDup l -> ~ In self l -> length l < fuel ->
  exists h', retain_loop fuel h self (headof l None) prevr f = Some h' /\
    (forall m, In m l -> f m = false ->
       parent (h' m) = None /\ prev (h' m) = None /\ next (h' m) = None) /\
    (forall m, In m l -> f m = true -> parent (h' m) = parent (h m) /\ next (h' m) = next (h m)) /\
    (forall m, ~ In m l -> parent (h' m) = parent (h m) /\ prev (h' m) = prev (h m) /\
                           next (h' m) = next (h m)) /\
    plinks h' prevr (filter f l) /\
    first (h' self) = match prevr with
                      | None => headof (filter f l) (first (h self))
                      | Some _ => first (h self)
                      end /\
    last (h' self) = lastof (last (h self)) (filter f l) /\
    (forall m, m <> self -> first (h' m) = first (h m) /\ last (h' m) = last (h m)) /\
    (forall m, ndata (h' m) = ndata (h m)).
Proof.
  induction l as [|c r IH]; intros h a prevr fuel S ND NS Hf; simpl.
  - destruct fuel; [simpl in Hf; lia|]. simpl. exists h. split; [reflexivity|].
    repeat split; auto; try tauto. destruct prevr; reflexivity.
  - destruct fuel; [simpl in Hf; lia|]. simpl in Hf. simpl retain_loop.
    simpl in S. destruct S as (S1&S2&S3&S4).
    inversion ND as [|? ? NI ND']; subst.
    assert (NSc : self <> c) by (intros ->; apply NS; left; auto).
    assert (NSr : ~ In self r) by (intros H; apply NS; right; auto).
    rewrite S3. destruct (f c) eqn:Fc.
    + set (h1 := set_last (match prevr with
                 | Some _ => set_prev h c prevr
                 | None => set_first (set_prev h c prevr) self (Some c) end) self (Some c)).
      assert (L1 : forall m, parent (h1 m) = parent (h m) /\ next (h1 m) = next (h m) /\
                    prev (h1 m) = (if m =? c then prevr else prev (h m)) /\
                    ndata (h1 m) = ndata (h m)).
      { intros m. unfold h1. destruct prevr; lg; auto. }
      destruct (IH h1 (Some c) (Some c) fuel) as (h' & E & H1&H2&H3&H4&H5&H6&H7&H8); auto.
      { apply seg_ext with (h := h); auto. intros x Hx.
        destruct (L1 x) as (A&B&C&_). rewrite A, B, C.
        destruct (Nat.eqb_spec x c) as [e|]; [exfalso; apply NI; rewrite <- e; exact Hx|auto]. }
      { lia. }
      exists h'. split; [exact E|]. split; [|split; [|split; [|split; [|split; [|split; [|split]]]]]].
      * intros m [<-|Hm] Fm; [congruence|]. apply H1; auto.
      * intros m [<-|Hm] Fm.
        -- destruct (H3 c NI) as (A&_&B). destruct (L1 c) as (C&D&_). split; congruence.
        -- destruct (H2 m Hm Fm) as (A&B). destruct (L1 m) as (C&D&_). split; congruence.
      * intros m Hm. destruct (H3 m) as (A&B&C); [tauto|].
        destruct (L1 m) as (D&F&G&_). rewrite A, B, C, D, F, G.
        destruct (Nat.eqb_spec m c) as [e|]; [exfalso; apply Hm; left; congruence|auto].
      * simpl. split; auto. destruct (H3 c NI) as (_&B&_). rewrite B.
        destruct (L1 c) as (_&_&C&_). rewrite C, Nat.eqb_refl. reflexivity.
      * rewrite H5. unfold h1. destruct prevr; lg; rewrite ?Nat.eqb_refl; reflexivity.
      * rewrite H6. unfold h1. destruct prevr; lg; rewrite ?Nat.eqb_refl; reflexivity.
      * intros m Hm. destruct (H7 m Hm) as (A&B). rewrite A, B. unfold h1.
        apply Nat.eqb_neq in Hm. destruct prevr; lg; rewrite ?Hm; auto.
      * intros m. rewrite H8. apply L1.
    + set (h1 := set_next (set_prev (set_parent h c None) c None) c None).
      assert (L1 : forall m, parent (h1 m) = (if m =? c then None else parent (h m)) /\
                    next (h1 m) = (if m =? c then None else next (h m)) /\
                    prev (h1 m) = (if m =? c then None else prev (h m)) /\
                    ndata (h1 m) = ndata (h m) /\ first (h1 m) = first (h m) /\
                    last (h1 m) = last (h m)).
      { intros m. unfold h1. lg. auto 10. }
      destruct (IH h1 (Some c) prevr fuel) as (h' & E & H1&H2&H3&H4&H5&H6&H7&H8); auto.
      { apply seg_ext with (h := h); auto. intros x Hx.
        destruct (L1 x) as (A&B&C&_). rewrite A, B, C.
        destruct (Nat.eqb_spec x c) as [e|]; [exfalso; apply NI; rewrite <- e; exact Hx|auto]. }
      { lia. }
      exists h'. split; [exact E|]. split; [|split; [|split; [|split; [|split; [|split; [|split]]]]]].
      * intros m [<-|Hm] Fm.
        -- destruct (H3 c NI) as (A&B&C). destruct (L1 c) as (D&F&G&_).
           rewrite Nat.eqb_refl in *. repeat split; congruence.
        -- apply H1; auto.
      * intros m [<-|Hm] Fm; [congruence|].
        destruct (H2 m Hm Fm) as (A&B). destruct (L1 m) as (C&D&_). rewrite A, B, C, D.
        destruct (Nat.eqb_spec m c) as [e|]; [exfalso; apply NI; rewrite <- e; exact Hm|auto].
      * intros m Hm. destruct (H3 m) as (A&B&C); [tauto|].
        destruct (L1 m) as (D&F&G&_). rewrite A, B, C, D, F, G.
        destruct (Nat.eqb_spec m c) as [e|]; [exfalso; apply Hm; left; congruence|auto].
      * exact H4.
      * rewrite H5. destruct (L1 self) as (_&_&_&_&A&_). rewrite A. reflexivity.
      * rewrite H6. destruct (L1 self) as (_&_&_&_&_&A). rewrite A. reflexivity.
      * intros m Hm. destruct (H7 m Hm) as (A&B). rewrite A, B. apply L1.
      * intros m. rewrite H8. apply L1.
Qed.

Lemma not_own_child h k p : Repr h k -> ~ In p (k p).
Proof. intros R H. apply (r_acyclic h k R p). apply t_step; exact H. Qed.

Lemma retain_children_spec h k self f fuel :
  Repr h k -> length (k self) < fuel ->
  exists h', retain_children fuel h self f = Some h' /\
    (forall m, In m (k self) -> f m = false ->
       parent (h' m) = None /\ prev (h' m) = None /\ next (h' m) = None) /\
    (forall m, In m (k self) -> f m = true ->
       parent (h' m) = parent (h m) /\ next (h' m) = next (h m)) /\
    (forall m, ~ In m (k self) -> parent (h' m) = parent (h m) /\ prev (h' m) = prev (h m) /\
                           next (h' m) = next (h m)) /\
    plinks h' None (filter f (k self)) /\
    first (h' self) = headof (filter f (k self)) None /\
    last (h' self) = lastof None (filter f (k self)) /\
    (forall m, m <> self -> first (h' m) = first (h m) /\ last (h' m) = last (h m)) /\
    (forall m, ndata (h' m) = ndata (h m)).
Proof.
  intros R Hf. unfold retain_children; cbv zeta; lg. rewrite (r_first h k R).
  set (h1 := set_first (set_last h self None) self None).
  assert (L1 : forall m, parent (h1 m) = parent (h m) /\ next (h1 m) = next (h m) /\
                    prev (h1 m) = prev (h m) /\ ndata (h1 m) = ndata (h m)).
  { intros m. unfold h1. lg. auto 10. }
  destruct (retain_loop_spec self f (k self) h1 None None fuel)
    as (h' & E & H1&H2&H3&H4&H5&H6&H7&H8); auto.
  - apply seg_ext with (h := h); [|apply R]. intros x _. destruct (L1 x) as (A&B&C&_). auto.
  - apply R.
  - eapply not_own_child; eauto.
  - exists h'. split; [exact E|]. split; [|split; [|split; [|split; [|split; [|split; [|split]]]]]].
    + exact H1.
    + intros m Hm Fm. destruct (H2 m Hm Fm) as (A&B). destruct (L1 m) as (C&D&_). split; congruence.
    + intros m Hm. destruct (H3 m Hm) as (A&B&C). destruct (L1 m) as (D&F&G&_).
      repeat split; congruence.
    + exact H4.
    + rewrite H5. unfold h1. lg. rewrite Nat.eqb_refl. reflexivity.
    + rewrite H6. unfold h1. lg. rewrite Nat.eqb_refl. reflexivity.
    + intros m Hm. destruct (H7 m Hm) as (A&B). rewrite A, B. unfold h1. lg.
      apply Nat.eqb_neq in Hm. rewrite Hm. auto.
    + intros m. rewrite H8. apply L1.
Qed.

Lemma filter_all (f : nat -> bool) l : (forall x, In x l -> f x = true) -> filter f l = l.
Proof.
  induction l as [|a l IH]; simpl; intros H; auto.
  rewrite H by auto. f_equal. auto.
Qed.
Lemma filter_none (f : nat -> bool) l : (forall x, In x l -> f x = false) -> filter f l = [].
Proof.
  induction l as [|a l IH]; simpl; intros H; auto.
  rewrite H by auto. auto.
Qed.

Lemma seg_of_plinks h h' p a a' l :
  seg h p a l None -> plinks h' a' l ->
  (forall m, In m l -> parent (h' m) = parent (h m) /\ next (h' m) = next (h m)) ->
  seg h' p a' l None.
Proof.
  revert a a'; induction l as [|c r IH]; intros a a' S P E; simpl in *; auto.
  destruct S as (S1&S2&S3&S4), P as (P1&P2).
  destruct (E c (or_introl eq_refl)) as (E1&E2).
  repeat split; try congruence. eapply IH; eauto.
Qed.

Lemma retain_children_prefix h k self f fuel :
  Repr h k -> length (k self) < fuel -> drops_prefix f (k self) ->
  exists h', retain_children fuel h self f = Some h' /\
    Repr h' (upd k self (filter f (k self))) /\ forall m, ndata (h' m) = ndata (h m).
Proof.
  intros R Hf (d & r & E & Hd & Hr).
  destruct (retain_children_spec h k self f fuel R Hf)
    as (h' & Eq & H1&H2&H3&H4&H5&H6&H7&H8).
  exists h'. split; [exact Eq|]. split; [|exact H8].
  assert (Ef : filter f (k self) = r).
  { rewrite E, filter_app, filter_none, filter_all by auto. reflexivity. }
  rewrite Ef in *.
  pose proof (r_nodup h k R self) as ND. rewrite E in ND.
  assert (Hin : forall x, In x r -> In x (k self)).
  { intros x Hx. rewrite E. apply in_or_app; auto. }
  constructor.
  - intros p. unfold upd. destruct (Nat.eqb_spec p self) as [->|Hp]; auto.
    destruct (H7 p Hp) as (A&_). rewrite A. apply R.
  - intros p. unfold upd. destruct (Nat.eqb_spec p self) as [->|Hp]; auto.
    destruct (H7 p Hp) as (_&A). rewrite A. apply R.
  - intros p. unfold upd. destruct (Nat.eqb_spec p self) as [->|Hp].
    + pose proof (r_seg h k R self) as S. rewrite E in S. apply seg_app in S. destruct S as [_ S].
      eapply seg_of_plinks; eauto.
    + apply seg_ext with (h := h); [|apply R]. intros x Hx.
      apply H3. intros Hx'. apply Hp. exact (repr_unique h k p self x R Hx Hx').
  - intros p. unfold upd. destruct (Nat.eqb_spec p self) as [->|Hp]; [|apply R].
    eapply nodup_app_r; exact ND.
  - intros c Hc. destruct (in_dec Nat.eq_dec c (k self)) as [Hi|Hi].
    + apply H1; auto. destruct (f c) eqn:Fc; auto. exfalso. apply (Hc self).
      unfold upd. rewrite Nat.eqb_refl. rewrite <- Ef. apply filter_In; auto.
    + destruct (H3 c Hi) as (A&B&C). rewrite A, B, C. apply (r_orphan h k R).
      intros p Hp. destruct (Nat.eq_dec p self) as [->|Hne]; [contradiction|].
      apply (Hc p). unfold upd. apply Nat.eqb_neq in Hne. rewrite Hne. exact Hp.
  - intros p c Hp. rewrite H8. unfold upd in Hp. destruct (Nat.eqb_spec p self) as [->|Hne].
    + eapply R, Hin; eauto.
    + eapply R; eauto.
  - apply acyclic_sub with (k := k); [|apply R]. intros p c Hp. apply t_step. unfold upd in Hp.
    destruct (Nat.eqb_spec p self) as [->|Hne]; auto. apply Hin; auto.
Qed.

Lemma drops_prefix_dec f l :
  drops_prefix f l \/ exists l1 x y l2, l = l1 ++ x :: y :: l2 /\ f x = true /\ f y = false.
Proof.
  induction l as [|a l IH].
  - left. exists [], []. repeat split; simpl; tauto.
  - destruct (f a) eqn:Fa.
    + destruct IH as [(d & r & E & Hd & Hr)|(l1&x&y&l2&E&Hx&Hy)].
      * destruct d as [|b d].
        -- left. exists [], (a :: r). subst l. repeat split; simpl; try tauto.
           intros x [<-|Hx]; auto.
        -- right. exists [], a, b, (d ++ r). subst l. repeat split; auto.
           apply Hd; left; auto.
      * right. exists (a :: l1), x, y, l2. subst l. auto.
    + destruct IH as [(d & r & E & Hd & Hr)|(l1&x&y&l2&E&Hx&Hy)].
      * left. exists (a :: d), r. subst l. repeat split; auto.
        intros x [<-|Hx]; auto.
      * right. exists (a :: l1), x, y, l2. subst l. auto.
Qed.

Lemma repr_next_in h k p x y : Repr h k -> In x (k p) -> next (h x) = Some y -> In y (k p).
Proof.
  intros R Hx N. destruct (in_split _ _ Hx) as (l1&l2&E).
  destruct (repr_links h k p x l1 l2 R E) as (_&_&C). rewrite C in N.
  apply headof_none_in in N. rewrite E. apply in_or_app; simpl; auto.
Qed.

Lemma repr_prev_in h k p x y : Repr h k -> In x (k p) -> prev (h x) = Some y -> In y (k p).
Proof.
  intros R Hx N. destruct (in_split _ _ Hx) as (l1&l2&E).
  destruct (repr_links h k p x l1 l2 R E) as (_&C&_). rewrite C in N.
  apply lastof_none_in in N. rewrite E. apply in_or_app; simpl; auto.
Qed.

Lemma repr_next_prev h k p x y :
  Repr h k -> In x (k p) -> next (h x) = Some y -> prev (h y) = Some x.
Proof.
  intros R Hx N. destruct (in_split _ _ Hx) as (l1&l2&E).
  destruct (repr_links h k p x l1 l2 R E) as (_&_&C). rewrite C in N.
  destruct l2 as [|z l2]; [discriminate|]. simpl in N. injection N as ->.
  destruct (repr_links h k p y (l1 ++ [x]) l2 R) as (_&P&_).
  { rewrite E, <- app_assoc; reflexivity. }
  rewrite P, lastof_snoc. reflexivity.
Qed.

Lemma retain_children_other h k self f fuel :
  Repr h k -> length (k self) < fuel -> ~ drops_prefix f (k self) ->
  exists h', retain_children fuel h self f = Some h' /\ forall k', ~ Repr h' k'.
Proof.
  intros R Hf Hn.
  destruct (retain_children_spec h k self f fuel R Hf)
    as (h' & Eq & H1&H2&H3&H4&H5&H6&H7&H8).
  exists h'. split; [exact Eq|]. intros k' R'.
  destruct (drops_prefix_dec f (k self)) as [D|(l1&x&y&l2&E&Fx&Fy)]; [contradiction|].
  assert (Hx : In x (k self)) by (rewrite E; apply in_or_app; simpl; auto).
  assert (Hy : In y (k self)) by (rewrite E; apply in_or_app; simpl; auto).
  destruct (repr_links h k self x l1 (y :: l2) R E) as (A&_&B). simpl in B.
  destruct (H2 x Hx Fx) as (C&D). destruct (H1 y Hy Fy) as (F&_&_).
  rewrite A in C. rewrite B in D.
  pose proof (repr_in_of_parent h' k' self x R' C) as Hx'.
  pose proof (repr_next_in h' k' self x y R' Hx' D) as Hy'.
  pose proof (repr_parent _ _ _ _ R' Hy'). congruence.
Qed.

(** ** sort_child_elements *)
Lemma relink_frame : forall l h i b m,
  parent (relink h i b l m) = parent (h m) /\ first (relink h i b l m) = first (h m) /\
  last (relink h i b l m) = last (h m) /\ ndata (relink h i b l m) = ndata (h m) /\
  (~ In m l -> prev (relink h i b l m) = prev (h m) /\ next (relink h i b l m) = next (h m)).
Proof.
  induction l as [|c r IH]; intros h i b m; simpl; auto 10.
  match goal with |- context [relink ?h1 (S i) (Some c) r m] =>
    destruct (IH h1 (S i) (Some c) m) as (A&B&C&D&E) end.
  rewrite A, B, C, D. lg.
  assert (G : forall X (g : node -> X), g ((if 0 <? i then set_prev h c b else h) m)
     = if 0 <? i then g (set_prev h c b m) else g (h m)) by (intros; destruct (0 <? i); auto).
  destruct (0 <? i); lg; repeat split; auto; intros; destruct E as (E1&E2); try tauto;
    rewrite ?E1, ?E2; lg; (destruct (Nat.eqb_spec m c); [subst; tauto|auto]).
Qed.

Lemma relink_seg p : forall l h i b,
  NoDup l -> (forall x, In x l -> parent (h x) = Some p) ->
  seg (relink h i b l) p (if 0 <? i then b else match l with [] => None | c :: _ => prev (h c) end)
    l None.
Proof.
  induction l as [|c r IH]; intros h i b ND Hp; simpl; auto.
  inversion ND as [|? ? NI ND']; subst.
  set (h1 := set_next (if 0 <? i then set_prev h c b else h) c (hd_error r)).
  destruct (relink_frame r h1 (S i) (Some c) c) as (A&_&_&_&B). destruct (B NI) as (B1&B2).
  repeat split.
  - rewrite A. unfold h1. destruct (0 <? i); lg; apply Hp; left; auto.
  - rewrite B1. unfold h1. destruct (0 <? i); lg; rewrite ?Nat.eqb_refl; auto.
  - rewrite B2. unfold h1. lg. rewrite Nat.eqb_refl. destruct r; reflexivity.
  - specialize (IH h1 (S i) (Some c) ND'). simpl in IH. apply IH.
    intros x Hx. unfold h1. destruct (0 <? i); lg; apply Hp; right; auto.
Qed.

Lemma last_error_lastof l : last_error l = lastof None l.
Proof.
  unfold last_error. destruct (snoc_case l) as [->|(l'&y&->)]; auto.
  rewrite rev_app_distr, lastof_snoc. reflexivity.
Qed.

Lemma sort_relink_frame h self l m :
  parent (sort_relink h self l m) = parent (h m) /\
  ndata (sort_relink h self l m) = ndata (h m) /\
  first (sort_relink h self l m) = (if m =? self then headof l None else first (h m)) /\
  last (sort_relink h self l m) = (if m =? self then lastof None l else last (h m)) /\
  (~ In m l -> prev (sort_relink h self l m) = prev (h m) /\
               next (sort_relink h self l m) = next (h m)).
Proof.
  unfold sort_relink. rewrite last_error_lastof.
  match goal with |- context [relink ?h1 0 None l m] =>
    destruct (relink_frame l h1 0 None m) as (A&B&C&D&E) end.
  rewrite A, B, C, D. lg. split; [auto|]. split; [auto|]. split; [|split; [auto|]].
  - destruct (m =? self); destruct l; reflexivity.
  - intros Hn. destruct (E Hn) as (E1&E2). rewrite E1, E2. lg. auto.
Qed.

Lemma sort_relink_repr h k self l :
  Repr h k -> Permutation l (k self) -> hd_error l = hd_error (k self) ->
  Repr (sort_relink h self l) (upd k self l).
Proof.
  intros R P Hh.
  assert (ND : NoDup l) by (eapply Permutation_NoDup; [apply Permutation_sym; exact P|apply R]).
  assert (Hin : forall x, In x l <-> In x (k self)).
  { intros x; split; apply Permutation_in; auto using Permutation_sym. }
  assert (F : forall m, _) by (exact (sort_relink_frame h self l)).
  constructor.
  - intros p. destruct (F p) as (_&_&A&_). rewrite A. unfold upd.
    destruct (p =? self); [reflexivity|apply R].
  - intros p. destruct (F p) as (_&_&_&A&_). rewrite A. unfold upd.
    destruct (p =? self); [reflexivity|apply R].
  - intros p. unfold upd. destruct (Nat.eqb_spec p self) as [->|Hp].
    + unfold sort_relink.
      match goal with |- seg (relink ?h1 0 None l) _ _ _ _ =>
        pose proof (relink_seg self l h1 0 None ND) as S end.
      simpl in S. destruct l as [|c r]; [exact I|].
      assert (Hc : prev (h c) = None).
      { destruct (k self) as [|c' r'] eqn:E; [discriminate|]. injection Hh as ->.
        destruct (repr_links h k self c' [] r' R E) as (_&Q&_). exact Q. }
      look. rewrite Hc in S. apply S. intros x Hx. lg.
      apply (repr_parent h k self x R). apply Hin; exact Hx.
    + apply seg_ext with (h := h); [|apply R]. intros x Hx. destruct (F x) as (A&_&_&_&B).
      rewrite A. destruct B as (B1&B2); [|auto].
      intros Hx'. apply Hp. apply (repr_unique h k p self x R Hx). apply Hin; auto.
  - intros p. unfold upd. destruct (p =? self); [exact ND|apply R].
  - intros c Hc. assert (Hn : ~ In c l).
    { specialize (Hc self). unfold upd in Hc. rewrite Nat.eqb_refl in Hc. exact Hc. }
    destruct (F c) as (A&_&_&_&B). destruct (B Hn) as (B1&B2). rewrite A, B1, B2.
    apply (r_orphan h k R). intros p Hp. apply (Hc p). unfold upd.
    destruct (Nat.eqb_spec p self) as [->|]; auto. apply Hin; auto.
  - intros p c Hp. destruct (F p) as (_&A&_). rewrite A. unfold upd in Hp.
    destruct (Nat.eqb_spec p self) as [->|]; [apply Hin in Hp|]; eapply R; eauto.
  - apply acyclic_sub with (k := k); [|apply R]. intros p c Hp. apply t_step. unfold upd in Hp.
    destruct (Nat.eqb_spec p self) as [->|]; [apply Hin in Hp|]; auto.
Qed.

Lemma sort_relink_corrupts h k self l :
  Repr h k -> Permutation l (k self) -> hd_error l <> hd_error (k self) ->
  forall k', ~ Repr (sort_relink h self l) k'.
Proof.
  intros R P Hh k' R'.
  destruct l as [|c r].
  { apply Permutation_nil in P. rewrite P in Hh. congruence. }
  assert (ND : NoDup (c :: r)) by (eapply Permutation_NoDup; [apply Permutation_sym; exact P|apply R]).
  assert (Hc : In c (k self)) by (eapply Permutation_in; [exact P|left; auto]).
  assert (Hp : prev (h c) <> None).
  { destruct (in_split _ _ Hc) as (l1&l2&E).
    destruct (repr_links h k self c l1 l2 R E) as (_&Q&_). rewrite Q.
    destruct (snoc_case l1) as [->|(l'&y&->)]; [|rewrite lastof_snoc; discriminate].
    rewrite E in Hh. exfalso; apply Hh; reflexivity. }
  assert (S : seg (sort_relink h self (c :: r)) self (prev (h c)) (c :: r) None).
  { unfold sort_relink.
    match goal with |- seg (relink ?h1 0 None _) _ _ _ _ =>
      pose proof (relink_seg self (c :: r) h1 0 None ND) as S end.
    simpl in S. look. apply S. intros x Hx. lg. apply (repr_parent h k self x R).
    eapply Permutation_in; [exact P|exact Hx]. }
  destruct (sort_relink_frame h self (c :: r) self) as (_&_&A&_).
  rewrite Nat.eqb_refl in A. simpl in A.
  rewrite (r_first _ _ R') in A. destruct (k' self) as [|c' r'] eqn:E; [discriminate|].
  simpl in A. injection A as ->.
  destruct (repr_links _ _ self c [] r' R' E) as (_&Q&_). simpl in Q.
  simpl in S. destruct S as (_&S2&_). congruence.
Qed.

Lemma sort_ins_perm cmp x l : Permutation (sort_ins cmp x l) (x :: l).
Proof.
  induction l as [|y r IH]; simpl; auto. destruct (cmp x y); auto.
  eapply Permutation_trans; [apply perm_skip; exact IH|apply perm_swap].
Qed.
Lemma sort_by_perm cmp l : Permutation (sort_by cmp l) l.
Proof.
  induction l as [|x r IH]; simpl; auto.
  eapply Permutation_trans; [apply sort_ins_perm|apply perm_skip; exact IH].
Qed.

Lemma sort_ins_sorted f x l : total_preorder f -> sorted f l -> sorted f (sort_ins f x l).
Proof.
  intros T. induction l as [|y r IH]; simpl; intros S.
  - split; [intros z []|exact I].
  - destruct S as (S1&S2). destruct (f x y) eqn:E; simpl.
    + split; [|split; auto]. intros z [<-|Hz]; [congruence|].
      apply (tp_trans f T x y z); auto. congruence.
    + split; [|split; auto]. intros z [<-|Hz]; [congruence|].
      apply (tp_trans f T x y z); auto. congruence.
    + split; [|apply IH; auto]. intros z Hz.
      apply (Permutation_in _ (sort_ins_perm f x r)) in Hz. destruct Hz as [<-|Hz]; auto.
      rewrite (tp_total f T x y E). discriminate.
Qed.
Lemma sort_by_sorted f l : total_preorder f -> sorted f (sort_by f l).
Proof. intros T. induction l as [|x r IH]; simpl; auto. apply sort_ins_sorted; auto. Qed.

Lemma sort_by_ext f g : forall l, (forall a b, In a l -> In b l -> f a b = g a b) ->
  sort_by f l = sort_by g l.
Proof.
  assert (I : forall x l, (forall b, In b l -> f x b = g x b) -> sort_ins f x l = sort_ins g x l).
  { intros x l. induction l as [|y r IH]; simpl; intros H; auto.
    rewrite H by auto. destruct (g x y); auto. f_equal. apply IH. auto. }
  induction l as [|x r IH]; simpl; intros H; auto.
  rewrite IH by auto. apply I. intros b Hb. apply H; auto. right.
  apply (Permutation_in _ (sort_by_perm g r)). exact Hb.
Qed.

(** Stability: elements the comparison calls equal keep their order. *)
Lemma sort_ins_stable f x l q :
  (forall y, In y l -> q x = true -> q y = true -> f x y <> Gt) ->
  filter q (sort_ins f x l) = filter q (x :: l).
Proof.
  induction l as [|y r IH]; simpl; intros H; auto.
  destruct (f x y) eqn:E; auto. simpl. rewrite IH by auto. simpl.
  destruct (q x) eqn:Qx, (q y) eqn:Qy; auto. exfalso. apply (H y); auto.
Qed.
Lemma sort_by_stable f l q :
  (forall x y, q x = true -> q y = true -> f x y <> Gt) ->
  filter q (sort_by f l) = filter q l.
Proof.
  intros H. induction l as [|x r IH]; simpl; auto.
  rewrite sort_ins_stable by auto. simpl. rewrite IH. reflexivity.
Qed.

(** ** set_local_name *)
Lemma set_local_name_repr h k e p n nm attrs nm' :
  Repr h k -> In e (k p) -> ndata (h e) = DElement nm attrs ->
  detached k n -> k n = [] -> n <> p ->
  exists h', set_local_name h e n nm' = Some h' /\
    Repr h' (upd k p (subst_by e [n] (k p))) /\
    forall m, ndata (h' m) = if m =? n then DElement nm' attrs else ndata (h m).
Proof.
  intros R Hin D Dn En Hnp. unfold set_local_name. rewrite D.
  eexists; split; [reflexivity|].
  pose proof (alloc_repr h k n (DElement nm' attrs) R Dn En) as R1.
  assert (Hne : n <> e) by (intros ->; eapply Dn; eauto).
  assert (W : ~ within k n p).
  { intros [E|W]; [auto|].
    assert (G : forall x y, desc k x y -> k x <> []).
    { intros x y W'. apply clos_trans_t1n in W'. destruct W' as [y H|y z H _];
        intros E; unfold child in H; rewrite E in H; inversion H. }
    apply (G _ _ W En). }
  pose proof (replace_with_repr _ k e n p R1 Hin Hne W) as R2.
  split.
  - refine (Repr_ext _ _ _ _ _ _ R2); [intros m; tauto|].
    intros q. unfold upd. rewrite without_all by auto.
    destruct (Nat.eqb_spec q p); [subst|]; auto.
  - intros m. rewrite replace_with_ndata. unfold alloc. destruct (m =? n); reflexivity.
Qed.

(** ** Adding attached nodes *)
Lemma append_child_attached h k self n q :
  Repr h k -> In n (k q) -> n <> self -> forall k', ~ Repr (append_child h self n) k'.
Proof.
  intros R Hin Hns k' R'.
  assert (Pn : parent (append_child h self n n) = Some self).
  { unfold append_child; cbv zeta; lg. destruct (last (h self)); lg; rewrite Nat.eqb_refl; auto. }
  pose proof (repr_in_of_parent _ _ _ _ R' Pn) as Hn'.
  destruct (in_split _ _ Hin) as (l1&l2&E).
  destruct (repr_links h k q n l1 l2 R E) as (A&B&C).
  pose proof (r_nodup h k R q) as ND. rewrite E in ND.
  destruct (nodup_mid _ _ _ ND) as (N1&N2&ND').
  destruct (last (h self)) as [l|] eqn:L.
  - assert (Hl : In l (k self)).
    { rewrite (r_last h k R) in L. apply lastof_none_in in L. exact L. }
    assert (Nl : next (append_child h self n l) = Some n).
    { unfold append_child; cbv zeta; lg. rewrite L. lg. rewrite Nat.eqb_refl; auto. }
    assert (Pv : prev (append_child h self n n) = Some l).
    { unfold append_child; cbv zeta; lg. rewrite L. lg. rewrite Nat.eqb_refl; auto. }
    destruct (Nat.eq_dec l n) as [->|Hln].
    { (* the node is its own neighbour *)
      destruct (in_split _ _ Hn') as (m1&m2&E').
      destruct (repr_links _ _ self n m1 m2 R' E') as (_&B'&_).
      rewrite Pv in B'. symmetry in B'. apply lastof_none_in in B'.
      pose proof (r_nodup _ _ R' self) as ND2. rewrite E' in ND2.
      destruct (nodup_mid _ _ _ ND2) as (X&_&_). contradiction. }
    destruct (snoc_case l1) as [->|(l'&y&->)].
    + (* first child of its old parent: [first_child] still names it *)
      assert (F : first (append_child h self n q) = Some n).
      { unfold append_child; cbv zeta; lg. rewrite L. lg. rewrite (r_first h k R), E. reflexivity. }
      rewrite (r_first _ _ R') in F.
      destruct (k' q) as [|x r] eqn:Eq; [discriminate|]. simpl in F. injection F as ->.
      destruct (repr_links _ _ q n [] r R' Eq) as (_&B'&_). simpl in B'. congruence.
    + rewrite lastof_snoc in B.
      assert (Hy : In y (k q)) by (rewrite E; apply in_or_app; left; apply in_or_app; simpl; auto).
      assert (Ny : next (h y) = Some n).
      { destruct (repr_links h k q y l' (n :: l2) R) as (_&_&Q); [|exact Q].
        rewrite E, <- app_assoc. reflexivity. }
      assert (Hyl : y <> l).
      { intros ->. assert (q = self) by exact (repr_unique h k q self l R Hy Hl). subst q.
        rewrite (r_last h k R), E in L. rewrite <- app_assoc in L. simpl in L.
        rewrite lastof_app in L. simpl in L.
        destruct (lastof_in _ _ _ L) as [[X _]|X].
        - injection X as ->. apply N1. apply in_or_app; simpl; auto.
        - apply (nodup_mid l' l (n :: l2)) ; [rewrite <- app_assoc in ND; exact ND|].
          right; exact X. }
      assert (Hyn : y <> n).
      { intros ->. apply N1. apply in_or_app; simpl; auto. }
      assert (Ny' : next (append_child h self n y) = Some n).
      { unfold append_child; cbv zeta; lg. rewrite L. lg. bool_cases. }
      assert (Py' : parent (append_child h self n y) = Some q).
      { unfold append_child; cbv zeta; lg. rewrite L. lg.
        apply Nat.eqb_neq in Hyn. rewrite Hyn. apply (repr_parent h k q y R Hy). }
      pose proof (repr_in_of_parent _ _ _ _ R' Py') as Hy'.
      pose proof (repr_next_prev _ _ _ _ _ R' Hy' Ny'). congruence.
  - assert (Ek : k self = []).
    { rewrite (r_last h k R) in L. destruct (snoc_case (k self)) as [X|(l'&y&X)]; auto.
      rewrite X, lastof_snoc in L. discriminate. }
    assert (Hqs : q <> self) by (intros ->; rewrite Ek in Hin; inversion Hin).
    destruct (snoc_case l1) as [->|(l'&y&->)].
    + assert (F : first (append_child h self n q) = Some n).
      { unfold append_child; cbv zeta; lg. rewrite L. lg.
        apply Nat.eqb_neq in Hqs. rewrite Hqs. rewrite (r_first h k R), E. reflexivity. }
      rewrite (r_first _ _ R') in F. apply headof_none_in in F.
      apply Hqs. exact (repr_unique _ _ q self n R' F Hn').
    + assert (Hy : In y (k q)) by (rewrite E; apply in_or_app; left; apply in_or_app; simpl; auto).
      assert (Ny : next (h y) = Some n).
      { destruct (repr_links h k q y l' (n :: l2) R) as (_&_&Q); [|exact Q].
        rewrite E, <- app_assoc. reflexivity. }
      assert (Hyn : y <> n) by (intros ->; apply N1; apply in_or_app; simpl; auto).
      assert (Ny' : next (append_child h self n y) = Some n).
      { unfold append_child; cbv zeta; lg. rewrite L. lg. auto. }
      assert (Py' : parent (append_child h self n y) = Some q).
      { unfold append_child; cbv zeta; lg. rewrite L. lg.
        apply Nat.eqb_neq in Hyn. rewrite Hyn. apply (repr_parent h k q y R Hy). }
      pose proof (repr_in_of_parent _ _ _ _ R' Py') as Hy'.
      pose proof (repr_next_in _ _ _ _ _ R' Hy' Ny') as Hn2.
      apply Hqs. exact (repr_unique _ _ q self n R' Hn2 Hn').
Qed.

Lemma prepend_attached h k self n q :
  Repr h k -> In n (k q) -> n <> self -> q <> self -> forall k', ~ Repr (prepend h self n) k'.
Proof.
  intros R Hin Hns Hqs k' R'.
  assert (Pn : parent (prepend h self n n) = Some self).
  { unfold prepend; cbv zeta; lg. rewrite Nat.eqb_refl; auto. }
  pose proof (repr_in_of_parent _ _ _ _ R' Pn) as Hn'.
  destruct (in_split _ _ Hin) as (l1&l2&E).
  pose proof (r_nodup h k R q) as ND. rewrite E in ND.
  destruct (nodup_mid _ _ _ ND) as (N1&N2&ND').
  destruct (snoc_case l1) as [->|(l'&y&->)].
  - assert (F : first (prepend h self n q) = Some n).
    { unfold prepend; cbv zeta; lg. apply Nat.eqb_neq in Hqs.
      destruct (first (h self)); lg; rewrite Hqs, (r_first h k R), E; reflexivity. }
    rewrite (r_first _ _ R') in F. apply headof_none_in in F.
    apply Hqs. exact (repr_unique _ _ q self n R' F Hn').
  - assert (Hy : In y (k q)) by (rewrite E; apply in_or_app; left; apply in_or_app; simpl; auto).
    assert (Ny : next (h y) = Some n).
    { destruct (repr_links h k q y l' (n :: l2) R) as (_&_&Q); [|exact Q].
      rewrite E, <- app_assoc. reflexivity. }
    assert (Hyn : y <> n) by (intros ->; apply N1; apply in_or_app; simpl; auto).
    assert (Ny' : next (prepend h self n y) = Some n).
    { unfold prepend; cbv zeta; lg. apply Nat.eqb_neq in Hyn.
      destruct (first (h self)); lg; rewrite ?Hyn; auto. }
    assert (Py' : parent (prepend h self n y) = Some q).
    { unfold prepend; cbv zeta; lg. apply Nat.eqb_neq in Hyn. rewrite Hyn.
      destruct (first (h self)); lg; apply (repr_parent h k q y R Hy). }
    pose proof (repr_in_of_parent _ _ _ _ R' Py') as Hy'.
    pose proof (repr_next_in _ _ _ _ _ R' Hy' Ny') as Hn2.
    apply Hqs. exact (repr_unique _ _ q self n R' Hn2 Hn').
Qed.

Lemma prepend_attached_self h k self n :
  Repr h k -> In n (k self) -> n <> self -> forall k', ~ Repr (prepend h self n) k'.
Proof.
  intros R Hin Hns k' R'.
  destruct (first (h self)) as [f|] eqn:F.
  2:{ rewrite (r_first h k R) in F. destruct (k self); [inversion Hin|discriminate]. }
  assert (F' : first (prepend h self n self) = Some n).
  { unfold prepend. rewrite F. cbv zeta; lg. rewrite Nat.eqb_refl. reflexivity. }
  assert (P : prev (prepend h self n n) <> None).
  { unfold prepend. rewrite F. cbv zeta; lg. destruct (Nat.eqb_spec n f) as [->|Hnf]; [discriminate|].
    rewrite (r_first h k R) in F. destruct (in_split _ _ Hin) as (l1&l2&E).
    destruct (repr_links h k self n l1 l2 R E) as (_&B&_). rewrite B.
    destruct (snoc_case l1) as [->|(l'&y&->)]; [|rewrite lastof_snoc; discriminate].
    rewrite E in F. simpl in F. congruence. }
  rewrite (r_first _ _ R') in F'. destruct (k' self) as [|x r] eqn:E; [discriminate|].
  simpl in F'. injection F' as ->.
  destruct (repr_links _ _ self n [] r R' E) as (_&B&_). simpl in B. contradiction.
Qed.

(** ** Summaries used by the property theorems *)
Lemma retain_children_exact h k self f fuel :
  Repr h k -> length (k self) < fuel ->
  exists h', retain_children fuel h self f = Some h' /\
    ((exists k', Repr h' k') <-> drops_prefix f (k self)).
Proof.
  intros R Hf. destruct (drops_prefix_dec f (k self)) as [D|N].
  - destruct (retain_children_prefix h k self f fuel R Hf D) as (h'&E&R'&_).
    exists h'. split; [exact E|]. split; [auto|]. intros _. eauto.
  - assert (N' : ~ drops_prefix f (k self)).
    { destruct N as (l1&x&y&l2&E&Fx&Fy). intros (d&r&E'&Hd&Hr).
      rewrite E in E'.
      assert (G : forall l1 d, l1 ++ x :: y :: l2 = d ++ r ->
                  (forall z, In z d -> f z = false) -> False).
      { intros m1; induction m1 as [|a m1 IH]; intros [|b e] E1 Hd1; simpl in E1.
        - subst r. specialize (Hr y). simpl in Hr. rewrite Hr in Fy; [discriminate|auto].
        - injection E1 as <- E1. specialize (Hd1 x). simpl in Hd1.
          rewrite Hd1 in Fx; [discriminate|auto].
        - subst r. specialize (Hr y). rewrite Hr in Fy; [discriminate|].
          simpl. right. apply in_or_app; simpl; auto.
        - injection E1 as <- E1. eapply IH; eauto. intros z Hz; apply Hd1; right; auto. }
      eapply G; eauto. }
    destruct (retain_children_other h k self f fuel R Hf N') as (h'&E&Q).
    exists h'. split; [exact E|]. split; [intros [k' R']; destruct (Q k' R')|tauto].
Qed.

Lemma sort_child_elements_exact h k self f fuel :
  Repr h k -> length (k self) < fuel -> total_preorder f ->
  (forall c, In c (k self) -> is_element_or_document (ndata (h c)) = true) ->
  let l := sort_by f (k self) in
  Permutation l (k self) /\ sorted f l /\
  (forall c, filter (fun x => match f c x, f x c with Eq, Eq => true | _, _ => false end) l =
             filter (fun x => match f c x, f x c with Eq, Eq => true | _, _ => false end) (k self)) /\
  exists h', sort_child_elements fuel h self f = Some h' /\
    (hd_error l = hd_error (k self) ->
       Repr h' (upd k self l) /\ forall m, ndata (h' m) = ndata (h m)) /\
    (hd_error l <> hd_error (k self) -> forall k', ~ Repr h' k').
Proof.
  intros R Hf T El l.
  split; [apply sort_by_perm|]. split; [apply sort_by_sorted; auto|]. split.
  { intros c. apply sort_by_stable. intros x y Hx Hy.
    destruct (f c x) eqn:E1, (f x c) eqn:E2; try discriminate.
    destruct (f c y) eqn:E3, (f y c) eqn:E4; try discriminate.
    apply (tp_trans f T x c y); congruence. }
  unfold sort_child_elements.
  rewrite (collect_spec h k self R fuel [] (k self) [] _ (iter_start h k self R) Hf).
  assert (E : sort_by (sort_cmp h f) (k self) = l).
  { apply sort_by_ext. intros a b Ha Hb. unfold sort_cmp, element_new.
    rewrite (El a Ha), (El b Hb). reflexivity. }
  rewrite E. eexists; split; [reflexivity|]. split.
  - intros Hh. split; [apply sort_relink_repr; auto; apply sort_by_perm|].
    intros m. destruct (sort_relink_frame h self l m) as (_&A&_). exact A.
  - intros Hh. apply sort_relink_corrupts with (k := k); auto. apply sort_by_perm.
Qed.

(** ** A concrete forest *)
Lemma nokids_within k n s : k n = [] -> n <> s -> ~ within k n s.
Proof.
  intros E Hn [H|W]; [auto|].
  apply clos_trans_t1n in W. destruct W as [y H|y z H _]; unfold child in H; rewrite E in H;
    inversion H.
Qed.

Definition blank : heap := fun _ => mkNode None None None None None (DElement 0 []).
Definition none_kids : kidmap := fun _ => [].

Lemma blank_repr : Repr blank none_kids.
Proof.
  constructor; unfold blank, none_kids; simpl; auto; try tauto; try constructor.
  intros x D. apply clos_trans_t1n in D. destruct D as [y H|y z H _]; inversion H.
Qed.

(** 0 has children 1, 2, 3; 1 has children 4, 5. *)
Definition demo : heap :=
  append_child (append_child (append_child (append_child (append_child blank 0 1) 0 2) 0 3) 1 4) 1 5.
Definition demo_kids : kidmap := fun p =>
  match p with 0 => [1; 2; 3] | 1 => [4; 5] | _ => [] end.

Ltac demo_step :=
  apply append_child_repr;
  [ | reflexivity
  | intros p; destruct p as [|[|p]]; unfold upd, none_kids; simpl; intuition discriminate
  | apply nokids_within; [reflexivity|discriminate] ].

Lemma demo_repr : Repr demo demo_kids.
Proof.
  refine (Repr_ext demo demo (upd (upd (upd (upd (upd none_kids 0 [1]) 0 [1;2]) 0 [1;2;3]) 1 [4]) 1 [4;5]) _ _ _ _).
  - intros m; tauto.
  - intros [|[|p]]; reflexivity.
  - unfold demo.
    change (upd none_kids 0 [1]) with (upd none_kids 0 (none_kids 0 ++ [1])).
    do 5 demo_step. exact blank_repr.
Qed.
