(** Lemmas about the DOM model: frame rules for the link setters, and refinement of every
    structural edit to the list edits of DomSpec. *)
From Coq Require Import List Arith Bool Relations Lia.
From Verif Require Import DomModel DomSpec.
Import ListNotations.

Lemma parent_set_parent h n v m : parent (set_parent h n v m) = (if m =? n then v else parent (h m)).
Proof. unfold set_parent; destruct (m =? n); reflexivity. Qed.
Lemma parent_set_next h n v m : parent (set_next h n v m) = parent (h m).
Proof. unfold set_next; destruct (m =? n); reflexivity. Qed.
Lemma parent_set_prev h n v m : parent (set_prev h n v m) = parent (h m).
Proof. unfold set_prev; destruct (m =? n); reflexivity. Qed.
Lemma parent_set_first h n v m : parent (set_first h n v m) = parent (h m).
Proof. unfold set_first; destruct (m =? n); reflexivity. Qed.
Lemma parent_set_last h n v m : parent (set_last h n v m) = parent (h m).
Proof. unfold set_last; destruct (m =? n); reflexivity. Qed.
Lemma next_set_parent h n v m : next (set_parent h n v m) = next (h m).
Proof. unfold set_parent; destruct (m =? n); reflexivity. Qed.
Lemma next_set_next h n v m : next (set_next h n v m) = (if m =? n then v else next (h m)).
Proof. unfold set_next; destruct (m =? n); reflexivity. Qed.
Lemma next_set_prev h n v m : next (set_prev h n v m) = next (h m).
Proof. unfold set_prev; destruct (m =? n); reflexivity. Qed.
Lemma next_set_first h n v m : next (set_first h n v m) = next (h m).
Proof. unfold set_first; destruct (m =? n); reflexivity. Qed.
Lemma next_set_last h n v m : next (set_last h n v m) = next (h m).
Proof. unfold set_last; destruct (m =? n); reflexivity. Qed.
Lemma prev_set_parent h n v m : prev (set_parent h n v m) = prev (h m).
Proof. unfold set_parent; destruct (m =? n); reflexivity. Qed.
Lemma prev_set_next h n v m : prev (set_next h n v m) = prev (h m).
Proof. unfold set_next; destruct (m =? n); reflexivity. Qed.
Lemma prev_set_prev h n v m : prev (set_prev h n v m) = (if m =? n then v else prev (h m)).
Proof. unfold set_prev; destruct (m =? n); reflexivity. Qed.
Lemma prev_set_first h n v m : prev (set_first h n v m) = prev (h m).
Proof. unfold set_first; destruct (m =? n); reflexivity. Qed.
Lemma prev_set_last h n v m : prev (set_last h n v m) = prev (h m).
Proof. unfold set_last; destruct (m =? n); reflexivity. Qed.
Lemma first_set_parent h n v m : first (set_parent h n v m) = first (h m).
Proof. unfold set_parent; destruct (m =? n); reflexivity. Qed.
Lemma first_set_next h n v m : first (set_next h n v m) = first (h m).
Proof. unfold set_next; destruct (m =? n); reflexivity. Qed.
Lemma first_set_prev h n v m : first (set_prev h n v m) = first (h m).
Proof. unfold set_prev; destruct (m =? n); reflexivity. Qed.
Lemma first_set_first h n v m : first (set_first h n v m) = (if m =? n then v else first (h m)).
Proof. unfold set_first; destruct (m =? n); reflexivity. Qed.
Lemma first_set_last h n v m : first (set_last h n v m) = first (h m).
Proof. unfold set_last; destruct (m =? n); reflexivity. Qed.
Lemma last_set_parent h n v m : last (set_parent h n v m) = last (h m).
Proof. unfold set_parent; destruct (m =? n); reflexivity. Qed.
Lemma last_set_next h n v m : last (set_next h n v m) = last (h m).
Proof. unfold set_next; destruct (m =? n); reflexivity. Qed.
Lemma last_set_prev h n v m : last (set_prev h n v m) = last (h m).
Proof. unfold set_prev; destruct (m =? n); reflexivity. Qed.
Lemma last_set_first h n v m : last (set_first h n v m) = last (h m).
Proof. unfold set_first; destruct (m =? n); reflexivity. Qed.
Lemma last_set_last h n v m : last (set_last h n v m) = (if m =? n then v else last (h m)).
Proof. unfold set_last; destruct (m =? n); reflexivity. Qed.
Lemma ndata_set_parent h n v m : ndata (set_parent h n v m) = ndata (h m).
Proof. unfold set_parent; destruct (m =? n); reflexivity. Qed.
Lemma ndata_set_next h n v m : ndata (set_next h n v m) = ndata (h m).
Proof. unfold set_next; destruct (m =? n); reflexivity. Qed.
Lemma ndata_set_prev h n v m : ndata (set_prev h n v m) = ndata (h m).
Proof. unfold set_prev; destruct (m =? n); reflexivity. Qed.
Lemma ndata_set_first h n v m : ndata (set_first h n v m) = ndata (h m).
Proof. unfold set_first; destruct (m =? n); reflexivity. Qed.
Lemma ndata_set_last h n v m : ndata (set_last h n v m) = ndata (h m).
Proof. unfold set_last; destruct (m =? n); reflexivity. Qed.
Global Hint Rewrite parent_set_parent parent_set_next parent_set_prev parent_set_first parent_set_last next_set_parent next_set_next next_set_prev next_set_first next_set_last prev_set_parent prev_set_next prev_set_prev prev_set_first prev_set_last first_set_parent first_set_next first_set_prev first_set_first first_set_last last_set_parent last_set_next last_set_prev last_set_first last_set_last ndata_set_parent ndata_set_next ndata_set_prev ndata_set_first ndata_set_last : look.

Ltac look := autorewrite with look in *.
Ltac eqb_cases :=
  repeat match goal with
  | |- context [?a =? ?b] => destruct (Nat.eqb_spec a b); subst
  end.

(** ** Lists *)
Lemma lastof_app d l r : lastof d (l ++ r) = lastof (lastof d l) r.
Proof. revert d; induction l as [|a l IH]; intros d; simpl; auto. Qed.

Lemma headof_app l r d : headof (l ++ r) d = headof l (headof r d).
Proof. destruct l; reflexivity. Qed.

Lemma lastof_snoc d l x : lastof d (l ++ [x]) = Some x.
Proof. rewrite lastof_app; reflexivity. Qed.

Lemma lastof_cons_irrel d d' a l : lastof d (a :: l) = lastof d' (a :: l).
Proof. reflexivity. Qed.

Lemma snoc_case (l : list nat) : l = [] \/ exists l' y, l = l' ++ [y].
Proof. induction l as [|y l' _] using rev_ind; [left|right]; eauto. Qed.

Lemma without_notin n l : ~ In n l -> without n l = l.
Proof.
  unfold without; induction l as [|a l IH]; simpl; intros H; auto.
  destruct (Nat.eqb_spec a n) as [->|]; simpl.
  - exfalso; auto.
  - f_equal; auto.
Qed.

Lemma without_app n l r : without n (l ++ r) = without n l ++ without n r.
Proof. unfold without; induction l; simpl; auto; destruct (negb _); simpl; congruence. Qed.

Lemma without_split n l1 l2 :
  NoDup (l1 ++ n :: l2) -> without n (l1 ++ n :: l2) = l1 ++ l2.
Proof.
  intros ND. rewrite without_app. simpl. unfold without at 2; simpl.
  rewrite Nat.eqb_refl; simpl. fold (without n l2).
  apply NoDup_remove in ND. destruct ND as [_ NI].
  rewrite !without_notin; auto; intro; apply NI; apply in_or_app; auto.
Qed.

Lemma in_without n x l : In x (without n l) <-> In x l /\ x <> n.
Proof.
  unfold without; rewrite filter_In, negb_true_iff, Nat.eqb_neq; tauto.
Qed.

Lemma NoDup_without n l : NoDup l -> NoDup (without n l).
Proof. apply NoDup_filter. Qed.

Lemma put_before_split r n l1 l2 :
  ~ In r l1 -> put_before r n (l1 ++ r :: l2) = l1 ++ n :: r :: l2.
Proof.
  induction l1 as [|a l1 IH]; simpl; intros H.
  - rewrite Nat.eqb_refl; reflexivity.
  - destruct (Nat.eqb_spec a r); [exfalso; auto|]. f_equal; auto.
Qed.

Lemma put_after_split r n l1 l2 :
  ~ In r l1 -> put_after r n (l1 ++ r :: l2) = l1 ++ r :: n :: l2.
Proof.
  induction l1 as [|a l1 IH]; simpl; intros H.
  - rewrite Nat.eqb_refl; reflexivity.
  - destruct (Nat.eqb_spec a r); [exfalso; auto|]. f_equal; auto.
Qed.

Lemma subst_by_split r ns l1 l2 :
  ~ In r l1 -> subst_by r ns (l1 ++ r :: l2) = l1 ++ ns ++ l2.
Proof.
  induction l1 as [|a l1 IH]; simpl; intros H.
  - rewrite Nat.eqb_refl; reflexivity.
  - destruct (Nat.eqb_spec a r); [exfalso; auto|]. f_equal; auto.
Qed.

Lemma nodup_mid (l1 : list nat) x l2 :
  NoDup (l1 ++ x :: l2) -> ~ In x l1 /\ ~ In x l2 /\ NoDup (l1 ++ l2).
Proof.
  intros H. apply NoDup_remove in H. destruct H as [H1 H2].
  repeat split; auto; intro; apply H2; apply in_or_app; auto.
Qed.

Lemma nodup_app_l (l r : list nat) : NoDup (l ++ r) -> NoDup l.
Proof.
  induction l as [|a l IH]; simpl; intros H; constructor; inversion H; subst; auto.
  intros Hin; apply H2, in_or_app; auto.
Qed.

Lemma nodup_app_r (l r : list nat) : NoDup (l ++ r) -> NoDup r.
Proof. induction l as [|a l IH]; simpl; intros H; auto. inversion H; auto. Qed.

(** ** Segments *)
Lemma seg_app h p a l r b :
  seg h p a (l ++ r) b <-> seg h p a l (headof r b) /\ seg h p (lastof a l) r b.
Proof.
  revert a; induction l as [|c l IH]; intros a; simpl.
  - tauto.
  - rewrite IH, headof_app. tauto.
Qed.

Lemma seg_ext h h' p a l b :
  (forall x, In x l -> parent (h' x) = parent (h x) /\ prev (h' x) = prev (h x) /\
                       next (h' x) = next (h x)) ->
  seg h p a l b -> seg h' p a l b.
Proof.
  revert a; induction l as [|c l IH]; intros a H; simpl; auto.
  intros (H1 & H2 & H3 & H4).
  destruct (H c (or_introl eq_refl)) as (E1 & E2 & E3).
  rewrite E1, E2, E3. repeat split; auto. apply IH; auto.
  intros x Hx; apply H; right; exact Hx.
Qed.

Lemma seg_in_parent h p a l b c : seg h p a l b -> In c l -> parent (h c) = Some p.
Proof.
  revert a; induction l as [|x l IH]; intros a; simpl; [tauto|].
  intros (H1 & _ & _ & H4) [->|Hin]; eauto.
Qed.

(** ** Consequences of [Repr] *)
Lemma repr_parent h k p c : Repr h k -> In c (k p) -> parent (h c) = Some p.
Proof. intros R H. eapply seg_in_parent; [apply (r_seg h k R)|exact H]. Qed.

Lemma repr_unique h k p q c : Repr h k -> In c (k p) -> In c (k q) -> p = q.
Proof.
  intros R Hp Hq. pose proof (repr_parent _ _ _ _ R Hp).
  pose proof (repr_parent _ _ _ _ R Hq). congruence.
Qed.

Lemma repr_in_of_parent h k p c : Repr h k -> parent (h c) = Some p -> In c (k p).
Proof.
  intros R H. destruct (in_dec Nat.eq_dec c (k p)) as [|N]; auto.
  destruct (r_orphan h k R c) as (E & _ & _).
  - intros q Hq. pose proof (repr_parent _ _ _ _ R Hq). assert (q = p) by congruence.
    subst; contradiction.
  - congruence.
Qed.

Lemma repr_case h k c : Repr h k -> detached k c \/ exists p, In c (k p).
Proof.
  intros R. destruct (parent (h c)) as [p|] eqn:E.
  - right; exists p. eapply repr_in_of_parent; eauto.
  - left. intros p Hp. pose proof (repr_parent _ _ _ _ R Hp). congruence.
Qed.

Lemma repr_detached_links h k c : Repr h k -> detached k c ->
  parent (h c) = None /\ prev (h c) = None /\ next (h c) = None.
Proof. intros R D; apply (r_orphan h k R); exact D. Qed.

Definition same_links (h h' : heap) : Prop := forall m,
  parent (h' m) = parent (h m) /\ prev (h' m) = prev (h m) /\ next (h' m) = next (h m) /\
  first (h' m) = first (h m) /\ last (h' m) = last (h m) /\ ndata (h' m) = ndata (h m).

Lemma desc_ext k k' x y : (forall p, k' p = k p) -> desc k' x y -> desc k x y.
Proof.
  intros E H. induction H as [x y H|x y z _ IH1 _ IH2].
  - apply t_step. unfold child in *. rewrite <- E; exact H.
  - eapply t_trans; eauto.
Qed.

Lemma Repr_ext h h' k k' :
  same_links h h' -> (forall p, k' p = k p) -> Repr h k -> Repr h' k'.
Proof.
  intros S E R. constructor; intros.
  - rewrite E. destruct (S p) as (_&_&_&F&_). rewrite F. apply R.
  - rewrite E. destruct (S p) as (_&_&_&_&F&_). rewrite F. apply R.
  - rewrite E. apply seg_ext with (h := h); [|apply R].
    intros x _. destruct (S x) as (A&B&C&_). auto.
  - rewrite E. apply R.
  - destruct (S c) as (A&B&C&_). rewrite A, B, C. apply (r_orphan h k R).
    intros p Hp; apply (H p). rewrite E; exact Hp.
  - rewrite E in H. destruct (S p) as (_&_&_&_&_&F). rewrite F. eapply R; eauto.
  - intros D. apply (r_acyclic h k R x). eapply desc_ext; [|exact D]. auto.
Qed.

(** ** Descendants under edits *)
Lemma desc_sub k k' :
  (forall p c, In c (k' p) -> desc k p c) -> forall x y, desc k' x y -> desc k x y.
Proof.
  intros E x y H. induction H as [x y H|x y z _ IH1 _ IH2].
  - apply E; exact H.
  - eapply t_trans; eauto.
Qed.

Lemma acyclic_sub k k' :
  (forall p c, In c (k' p) -> desc k p c) ->
  (forall x, ~ desc k x x) -> forall x, ~ desc k' x x.
Proof. intros E A x D. apply (A x). eapply desc_sub; eauto. Qed.

Lemma within_trans k x y z : within k x y -> within k y z -> within k x z.
Proof.
  unfold within; intros [->|A] [->|B]; auto. right; eapply t_trans; eauto.
Qed.

(** Adding the single edge [s -> n]. *)
Lemma desc_add k k' s n :
  (forall p c, In c (k' p) -> In c (k p) \/ (p = s /\ c = n)) ->
  forall x y, desc k' x y -> desc k x y \/ (within k x s /\ within k n y).
Proof.
  intros E x y H. induction H as [x y H|x y z _ IH1 _ IH2].
  - destruct (E _ _ H) as [H'|[-> ->]].
    + left; apply t_step; exact H'.
    + right; split; left; reflexivity.
  - destruct IH1 as [A|[A1 A2]], IH2 as [B|[B1 B2]].
    + left; eapply t_trans; eauto.
    + right; split; auto. apply within_trans with y; auto. right; exact A.
    + right; split; auto. apply within_trans with y; auto. right; exact B.
    + right; split; auto.
Qed.

Lemma acyclic_add k k' s n :
  (forall p c, In c (k' p) -> In c (k p) \/ (p = s /\ c = n)) ->
  ~ within k n s ->
  (forall x, ~ desc k x x) -> forall x, ~ desc k' x x.
Proof.
  intros E W A x D. destruct (desc_add _ _ _ _ E _ _ D) as [D'|[D1 D2]].
  - apply (A x D').
  - apply W. apply within_trans with x; auto.
Qed.

(** ** The two local surgeries: detaching and attaching one node *)
Definition is_ (o : option nat) (m : nat) : bool :=
  match o with Some x => m =? x | None => false end.

Lemma is_true o m : is_ o m = true <-> o = Some m.
Proof.
  destruct o as [x|]; simpl; [|split; discriminate].
  rewrite Nat.eqb_eq. split; congruence.
Qed.

Lemma is_false o m : is_ o m = false <-> o <> Some m.
Proof. rewrite <- is_true. destruct (is_ o m); split; congruence. Qed.

Lemma lastof_in d l x : lastof d l = Some x -> (d = Some x /\ l = []) \/ In x l.
Proof.
  revert d; induction l as [|a l IH]; simpl; intros d H; auto.
  destruct (IH _ H) as [[E ->]|]; auto. right; left; congruence.
Qed.

Lemma lastof_none_in l x : lastof None l = Some x -> In x l.
Proof. intros H; destruct (lastof_in _ _ _ H) as [[E _]|]; [discriminate|auto]. Qed.

Lemma headof_none_in l x : headof l None = Some x -> In x l.
Proof. destruct l; simpl; [discriminate|]; intros [=]; auto. Qed.

(** The links of a run when only its right end changes. *)
Lemma seg_right h h' p a l b b' :
  NoDup l ->
  (forall x, In x l -> parent (h' x) = parent (h x) /\ prev (h' x) = prev (h x) /\
     next (h' x) = if is_ (lastof None l) x then b' else next (h x)) ->
  seg h p a l b -> seg h' p a l b'.
Proof.
  intros ND H S. destruct (snoc_case l) as [->|(l' & y & ->)]; [exact I|].
  apply seg_app in S. destruct S as [S1 S2]. apply seg_app.
  apply nodup_mid in ND. destruct ND as (NI & _ & _).
  split.
  - apply seg_ext with (h := h); [|exact S1].
    intros x Hx. destruct (H x) as (E1&E2&E3); [apply in_or_app; auto|].
    rewrite E1, E2, E3. repeat split; auto.
    replace (is_ (lastof None (l' ++ [y])) x) with false; auto.
    symmetry; apply is_false. rewrite lastof_snoc. intros [=]; subst; contradiction.
  - simpl in *. destruct S2 as (A&B&C&_).
    destruct (H y) as (E1&E2&E3); [apply in_or_app; simpl; auto|].
    rewrite E1, E2, E3. repeat split; auto.
    rewrite lastof_snoc. simpl. rewrite Nat.eqb_refl. reflexivity.
Qed.

(** ... and when only its left end changes. *)
Lemma seg_left h h' p a a' l b :
  NoDup l ->
  (forall x, In x l -> parent (h' x) = parent (h x) /\ next (h' x) = next (h x) /\
     prev (h' x) = if is_ (headof l None) x then a' else prev (h x)) ->
  seg h p a l b -> seg h' p a' l b.
Proof.
  intros ND H S. destruct l as [|y l]; [exact I|].
  simpl in *. destruct S as (A&B&C&D).
  inversion ND as [|? ? NI ND']; subst.
  destruct (H y) as (E1&E2&E3); auto. rewrite E1, E2, E3, Nat.eqb_refl.
  repeat split; auto.
  apply seg_ext with (h := h); [|exact D].
  intros x Hx. destruct (H x) as (F1&F2&F3); auto. rewrite F1, F2, F3.
  destruct (Nat.eqb_spec x y); [subst; contradiction|auto].
Qed.

Lemma detach_repr h h' k p n l1 l2 :
  Repr h k -> k p = l1 ++ n :: l2 ->
  (forall m, parent (h' m) = if m =? n then None else parent (h m)) ->
  (forall m, next (h' m) = if m =? n then None
             else if is_ (lastof None l1) m then headof l2 None else next (h m)) ->
  (forall m, prev (h' m) = if m =? n then None
             else if is_ (headof l2 None) m then lastof None l1 else prev (h m)) ->
  (forall m, first (h' m) = if m =? p then headof (l1 ++ l2) None else first (h m)) ->
  (forall m, last (h' m) = if m =? p then lastof None (l1 ++ l2) else last (h m)) ->
  (forall m, ndata (h' m) = ndata (h m)) ->
  Repr h' (fun q => without n (k q)).
Proof.
  intros R E Hp Hn Hv Hf Hl Hd.
  pose proof (r_nodup h k R p) as ND. rewrite E in ND.
  destruct (nodup_mid _ _ _ ND) as (N1 & N2 & ND').
  assert (Ep : without n (k p) = l1 ++ l2) by (rewrite E; apply without_split; exact ND).
  assert (Hinp : In n (k p)) by (rewrite E; apply in_or_app; simpl; auto).
  assert (Eq : forall q, q <> p -> without n (k q) = k q).
  { intros q Hq. apply without_notin. intros Hin. apply Hq.
    eapply repr_unique; eauto. }
  constructor.
  - intros q. rewrite Hf. destruct (Nat.eqb_spec q p) as [->|Hq].
    + rewrite Ep; reflexivity.
    + rewrite Eq by auto. apply R.
  - intros q. rewrite Hl. destruct (Nat.eqb_spec q p) as [->|Hq].
    + rewrite Ep; reflexivity.
    + rewrite Eq by auto. apply R.
  - intros q. destruct (Nat.eq_dec q p) as [->|Hq].
    + rewrite Ep. pose proof (r_seg h k R p) as S. rewrite E in S.
      apply seg_app in S. destruct S as [S1 S2]. simpl in S2.
      destruct S2 as (A&B&C&S2).
      apply seg_app. split.
      * apply seg_right with (h := h) (b := Some n).
        -- apply nodup_app_l in ND; exact ND.
        -- intros x Hx. rewrite Hp, Hn, Hv.
           assert (x <> n) by (intro; subst; contradiction).
           replace (x =? n) with false by (symmetry; apply Nat.eqb_neq; auto).
           repeat split; auto.
           replace (is_ (headof l2 None) x) with false; auto.
           symmetry; apply is_false. intros Hh. apply headof_none_in in Hh.
           apply NoDup_remove_1 in ND.
           clear - ND Hx Hh. induction l1; simpl in *; [tauto|].
           inversion ND; subst. destruct Hx as [->|]; auto.
           apply H1. apply in_or_app; auto.
        -- exact S1.
      * apply seg_left with (h := h) (a := Some n).
        -- apply NoDup_remove_1, nodup_app_r in ND; exact ND.
        -- intros x Hx. rewrite Hp, Hn, Hv.
           assert (x <> n) by (intro; subst; contradiction).
           replace (x =? n) with false by (symmetry; apply Nat.eqb_neq; auto).
           repeat split; auto.
           replace (is_ (lastof None l1) x) with false; auto.
           symmetry; apply is_false. intros Hh. apply lastof_none_in in Hh.
           apply NoDup_remove_1 in ND.
           clear - ND Hx Hh. induction l1; simpl in *; [tauto|].
           inversion ND; subst. destruct Hh as [->|]; auto.
           apply H1. apply in_or_app; auto.
        -- exact S2.
    + rewrite Eq by auto. apply seg_ext with (h := h); [|apply R].
      intros x Hx. rewrite Hp, Hn, Hv.
      assert (Hxp : ~ In x (k p)).
      { intros Hin. apply Hq. eapply repr_unique; eauto. }
      assert (x <> n) by (intro; subst; contradiction).
      replace (x =? n) with false by (symmetry; apply Nat.eqb_neq; auto).
      rewrite E in Hxp.
      replace (is_ (headof l2 None) x) with false.
      2:{ symmetry; apply is_false; intros Hh; apply headof_none_in in Hh.
          apply Hxp, in_or_app; simpl; auto. }
      replace (is_ (lastof None l1) x) with false.
      2:{ symmetry; apply is_false; intros Hh; apply lastof_none_in in Hh.
          apply Hxp, in_or_app; simpl; auto. }
      auto.
  - intros q. apply NoDup_without, R.
  - intros c Hc. rewrite Hp, Hn, Hv.
    destruct (Nat.eqb_spec c n) as [->|Hcn]; auto.
    assert (Hc' : forall q, ~ In c (k q)).
    { intros q Hin. apply (Hc q). apply in_without; auto. }
    destruct (r_orphan h k R c Hc') as (A&B&C).
    pose proof (Hc' p) as Hcp. rewrite E in Hcp.
    replace (is_ (headof l2 None) c) with false.
    2:{ symmetry; apply is_false; intros Hh; apply headof_none_in in Hh.
        apply Hcp, in_or_app; simpl; auto. }
    replace (is_ (lastof None l1) c) with false.
    2:{ symmetry; apply is_false; intros Hh; apply lastof_none_in in Hh.
        apply Hcp, in_or_app; simpl; auto. }
    auto.
  - intros q c Hin. rewrite Hd. apply in_without in Hin. destruct Hin as [Hin _].
    eapply R; eauto.
  - apply acyclic_sub with (k := k); [|apply R].
    intros q c Hin. apply in_without in Hin. apply t_step. apply Hin.
Qed.

Lemma attach_repr h h' k p n l1 l2 :
  Repr h k -> detached k n -> ~ within k n p ->
  is_element_or_document (ndata (h p)) = true ->
  k p = l1 ++ l2 ->
  (forall m, parent (h' m) = if m =? n then Some p else parent (h m)) ->
  (forall m, next (h' m) = if m =? n then headof l2 None
             else if is_ (lastof None l1) m then Some n else next (h m)) ->
  (forall m, prev (h' m) = if m =? n then lastof None l1
             else if is_ (headof l2 None) m then Some n else prev (h m)) ->
  (forall m, first (h' m) = if m =? p then headof (l1 ++ [n]) None else first (h m)) ->
  (forall m, last (h' m) = if m =? p then lastof (Some n) l2 else last (h m)) ->
  (forall m, ndata (h' m) = ndata (h m)) ->
  Repr h' (upd k p (l1 ++ n :: l2)).
Proof.
  intros R D W K E Hp Hn Hv Hf Hl Hd.
  pose proof (r_nodup h k R p) as ND. rewrite E in ND.
  assert (Dp : ~ In n (l1 ++ l2)) by (rewrite <- E; apply D).
  assert (D1 : ~ In n l1) by (intro; apply Dp, in_or_app; auto).
  assert (D2 : ~ In n l2) by (intro; apply Dp, in_or_app; auto).
  assert (Disj : forall x, In x l1 -> In x l2 -> False).
  { clear - ND. intros x H1 H2. induction l1; simpl in *; [tauto|].
    inversion ND; subst. destruct H1 as [->|]; auto.
    apply H3. apply in_or_app; auto. }
  constructor.
  - intros q. rewrite Hf. unfold upd. destruct (Nat.eqb_spec q p) as [->|Hq].
    + rewrite !headof_app. reflexivity.
    + apply R.
  - intros q. rewrite Hl. unfold upd. destruct (Nat.eqb_spec q p) as [->|Hq].
    + rewrite lastof_app. reflexivity.
    + apply R.
  - intros q. unfold upd. destruct (Nat.eqb_spec q p) as [->|Hq].
    + pose proof (r_seg h k R p) as S. rewrite E in S.
      apply seg_app in S. destruct S as [S1 S2].
      apply seg_app. split.
      * apply seg_right with (h := h) (b := headof l2 None).
        -- apply nodup_app_l in ND; exact ND.
        -- intros x Hx. rewrite Hp, Hn, Hv.
           assert (x <> n) by (intro; subst; contradiction).
           replace (x =? n) with false by (symmetry; apply Nat.eqb_neq; auto).
           repeat split; auto.
           replace (is_ (headof l2 None) x) with false; auto.
           symmetry; apply is_false. intros Hh. apply headof_none_in in Hh. eauto.
        -- exact S1.
      * simpl. rewrite Hp, Hn, Hv, Nat.eqb_refl. repeat split; auto.
        apply seg_left with (h := h) (a := lastof None l1).
        -- apply nodup_app_r in ND; exact ND.
        -- intros x Hx. rewrite Hp, Hn, Hv.
           assert (x <> n) by (intro; subst; contradiction).
           replace (x =? n) with false by (symmetry; apply Nat.eqb_neq; auto).
           repeat split; auto.
           replace (is_ (lastof None l1) x) with false; auto.
           symmetry; apply is_false. intros Hh. apply lastof_none_in in Hh. eauto.
        -- exact S2.
    + apply seg_ext with (h := h); [|apply R].
      intros x Hx. rewrite Hp, Hn, Hv.
      assert (Hxp : ~ In x (k p)).
      { intros Hin. apply Hq. eapply repr_unique; eauto. }
      assert (x <> n) by (intro; subst; eapply D; eauto).
      replace (x =? n) with false by (symmetry; apply Nat.eqb_neq; auto).
      rewrite E in Hxp.
      replace (is_ (headof l2 None) x) with false.
      2:{ symmetry; apply is_false; intros Hh; apply headof_none_in in Hh.
          apply Hxp, in_or_app; simpl; auto. }
      replace (is_ (lastof None l1) x) with false.
      2:{ symmetry; apply is_false; intros Hh; apply lastof_none_in in Hh.
          apply Hxp, in_or_app; simpl; auto. }
      auto.
  - intros q. unfold upd. destruct (Nat.eqb_spec q p) as [->|Hq]; [|apply R].
    apply NoDup_Add with (a := n) (l := l1 ++ l2); [apply Add_app|]. split; auto.
  - intros c Hc. rewrite Hp, Hn, Hv.
    assert (Hcn : c <> n).
    { intros ->. apply (Hc p). unfold upd. rewrite Nat.eqb_refl.
      apply in_or_app; simpl; auto. }
    replace (c =? n) with false by (symmetry; apply Nat.eqb_neq; auto).
    assert (Hcp : ~ In c (l1 ++ n :: l2)).
    { specialize (Hc p). unfold upd in Hc. rewrite Nat.eqb_refl in Hc. exact Hc. }
    assert (Hc' : forall q, ~ In c (k q)).
    { intros q Hin. destruct (Nat.eq_dec q p) as [->|Hq].
      - rewrite E in Hin. apply Hcp. apply in_app_or in Hin.
        apply in_or_app; simpl; tauto.
      - apply (Hc q). unfold upd. apply Nat.eqb_neq in Hq. rewrite Hq. exact Hin. }
    destruct (r_orphan h k R c Hc') as (A&B&C).
    replace (is_ (headof l2 None) c) with false.
    2:{ symmetry; apply is_false; intros Hh; apply headof_none_in in Hh.
        apply Hcp, in_or_app; simpl; auto. }
    replace (is_ (lastof None l1) c) with false.
    2:{ symmetry; apply is_false; intros Hh; apply lastof_none_in in Hh.
        apply Hcp, in_or_app; simpl; auto. }
    auto.
  - intros q c Hin. rewrite Hd. unfold upd in Hin.
    destruct (Nat.eqb_spec q p) as [->|Hq]; [exact K|]. eapply R; eauto.
  - apply acyclic_add with (k := k) (s := p) (n := n); [|exact W|apply R].
    intros q c Hin. unfold upd in Hin.
    destruct (Nat.eqb_spec q p) as [->|Hq]; [|auto].
    rewrite E. apply in_app_or in Hin. simpl in Hin.
    destruct Hin as [?|[?|?]]; [left|right|left]; auto; apply in_or_app; auto.
Qed.

(** ** Reading the links of a child *)
Lemma repr_links h k p n l1 l2 : Repr h k -> k p = l1 ++ n :: l2 ->
  parent (h n) = Some p /\ prev (h n) = lastof None l1 /\ next (h n) = headof l2 None.
Proof.
  intros R E. pose proof (r_seg h k R p) as S. rewrite E in S.
  apply seg_app in S. destruct S as [_ S]. simpl in S. tauto.
Qed.

Ltac bool_cases :=
  repeat match goal with
  | |- context [?a =? ?b] =>
      destruct (Nat.eqb_spec a b); try subst; try congruence
  end; try congruence; auto.

Lemma headof_app_none l1 l2 :
  headof (l1 ++ l2) None = match lastof None l1 with
                           | Some _ => headof l1 None | None => headof l2 None end.
Proof.
  destruct (snoc_case l1) as [->|(l' & y & ->)]; auto.
  rewrite lastof_snoc. rewrite headof_app. destruct l'; reflexivity.
Qed.

Lemma lastof_app_none l1 l2 :
  lastof None (l1 ++ l2) = match headof l2 None with
                           | Some _ => lastof None l2 | None => lastof None l1 end.
Proof.
  rewrite lastof_app. destruct l2; reflexivity.
Qed.

Lemma remove_repr h k n : Repr h k -> Repr (remove h n) (fun p => without n (k p)).
Proof.
  intros R. destruct (repr_case h k n R) as [D|[p Hin]].
  - destruct (repr_detached_links _ _ _ R D) as (A&B&C).
    apply Repr_ext with (h := h) (k := k); auto.
    + intros m. unfold remove; cbv zeta; look.
      rewrite A, B, C. look.
      repeat split; bool_cases.
    + intros q. apply without_notin, D.
  - destruct (in_split _ _ Hin) as (l1 & l2 & E).
    destruct (repr_links _ _ _ _ _ _ R E) as (A&B&C).
    pose proof (r_nodup h k R p) as ND. rewrite E in ND.
    destruct (nodup_mid _ _ _ ND) as (N1 & N2 & ND').
    assert (Fp : first (h p) = headof (l1 ++ n :: l2) None) by (rewrite <- E; apply R).
    assert (Lp : last (h p) = lastof None (l1 ++ n :: l2)) by (rewrite <- E; apply R).
    rewrite headof_app_none in Fp. rewrite lastof_app_none in Lp. simpl in Fp, Lp.
    apply (detach_repr h (remove h n) k p n l1 l2 R E); intros m;
      rewrite ?headof_app_none, ?lastof_app_none;
      unfold remove; cbv zeta; look; rewrite A, B, C;
      destruct (lastof None l1) as [y|] eqn:Ey; destruct (headof l2 None) as [z|] eqn:Ez;
      simpl is_;
      try (assert (Hy : y <> n) by
             (intros ->; apply N1; apply lastof_none_in; exact Ey));
      try (assert (Hz : z <> n) by
             (intros ->; apply N2; apply headof_none_in; exact Ez));
      look; bool_cases.
    + rewrite Lp. destruct l2; [discriminate|reflexivity].
    + rewrite Lp. destruct l2; [discriminate|reflexivity].
Qed.

Lemma remove_ndata h n m : ndata (remove h n m) = ndata (h m).
Proof.
  unfold remove; cbv zeta; look.
  destruct (prev (h n)), (next (h n)), (parent (h n)); look; reflexivity.
Qed.

Lemma within_without k n x y : within (fun p => without n (k p)) x y -> within k x y.
Proof.
  intros [->|D]; [left; auto|right].
  apply (desc_sub k (fun p => without n (k p))); [|exact D].
  intros p c Hin. apply in_without in Hin. apply t_step, Hin.
Qed.

Lemma detached_without k n : detached (fun p => without n (k p)) n.
Proof. intros p Hin. apply in_without in Hin. tauto. Qed.

Lemma insert_before_repr h k self new ref :
  Repr h k -> In ref (k self) -> new <> ref -> ~ within k new self ->
  Repr (insert_before h self new ref)
    (fun p => if p =? self then put_before ref new (without new (k p)) else without new (k p)).
Proof.
  intros R Hr Hne W.
  pose proof (remove_repr h k new R) as R1.
  set (h1 := remove h new) in *. set (k1 := fun p => without new (k p)) in *.
  assert (Hin : In ref (k1 self)) by (apply in_without; auto).
  destruct (in_split _ _ Hin) as (l1 & l2 & E).
  pose proof (r_nodup h1 k1 R1 self) as ND. rewrite E in ND.
  destruct (nodup_mid _ _ _ ND) as (N1 & N2 & _).
  destruct (repr_links _ _ _ _ _ _ R1 E) as (A&B&C).
  apply Repr_ext with (h := insert_before h self new ref)
                      (k := upd k1 self (l1 ++ new :: ref :: l2)).
  { intros m; tauto. }
  { intros p. unfold upd. destruct (p =? self) eqn:Ep; [|reflexivity].
    apply Nat.eqb_eq in Ep; subst p. fold (k1 self). rewrite E.
    apply put_before_split; exact N1. }
  assert (Fp : first (h1 self) = headof (l1 ++ ref :: l2) None) by (rewrite <- E; apply R1).
  assert (Lp : last (h1 self) = lastof None (l1 ++ ref :: l2)) by (rewrite <- E; apply R1).
  apply (attach_repr h1 _ k1 self new l1 (ref :: l2) R1).
  - apply detached_without.
  - intros W'. apply W. eapply within_without; exact W'.
  - unfold h1. rewrite remove_ndata. eapply R; eauto.
  - exact E.
  - intros m. unfold insert_before; fold h1; cbv zeta. look. rewrite B.
    destruct (lastof None l1); look; bool_cases.
  - intros m. unfold insert_before; fold h1; cbv zeta. look. rewrite B.
    destruct (lastof None l1) eqn:Ey; simpl; look; bool_cases.
  - intros m. unfold insert_before; fold h1; cbv zeta. look. rewrite B.
    assert (prev (h1 new) = None).
    { apply (repr_detached_links h1 k1 new R1), detached_without. }
    destruct (lastof None l1) eqn:Ey; simpl; look; bool_cases.
  - intros m. unfold insert_before; fold h1; cbv zeta. look. rewrite B.
    rewrite headof_app_none in Fp. rewrite headof_app_none.
    destruct (lastof None l1) eqn:Ey; simpl; look; bool_cases.
  - intros m. unfold insert_before; fold h1; cbv zeta. look. rewrite B.
    rewrite lastof_app_none in Lp. simpl in Lp.
    destruct (lastof None l1) eqn:Ey; simpl; look; bool_cases.
  - intros m. unfold insert_before; fold h1; cbv zeta. look. rewrite B.
    destruct (lastof None l1) eqn:Ey; look; reflexivity.
Qed.

Lemma insert_after_repr h k self new ref :
  Repr h k -> In ref (k self) -> new <> ref -> ~ within k new self ->
  Repr (insert_after h self new ref)
    (fun p => if p =? self then put_after ref new (without new (k p)) else without new (k p)).
Proof.
  intros R Hr Hne W.
  pose proof (remove_repr h k new R) as R1.
  set (h1 := remove h new) in *. set (k1 := fun p => without new (k p)) in *.
  assert (Hin : In ref (k1 self)) by (apply in_without; auto).
  destruct (in_split _ _ Hin) as (l1 & l2 & E).
  pose proof (r_nodup h1 k1 R1 self) as ND. rewrite E in ND.
  destruct (nodup_mid _ _ _ ND) as (N1 & N2 & _).
  destruct (repr_links _ _ _ _ _ _ R1 E) as (A&B&C).
  apply Repr_ext with (h := insert_after h self new ref)
                      (k := upd k1 self ((l1 ++ [ref]) ++ new :: l2)).
  { intros m; tauto. }
  { intros p. unfold upd. destruct (p =? self) eqn:Ep; [|reflexivity].
    apply Nat.eqb_eq in Ep; subst p. fold (k1 self). rewrite E.
    rewrite put_after_split by exact N1. rewrite <- app_assoc. reflexivity. }
  assert (Fp : first (h1 self) = headof (l1 ++ ref :: l2) None) by (rewrite <- E; apply R1).
  assert (Lp : last (h1 self) = lastof None (l1 ++ ref :: l2)) by (rewrite <- E; apply R1).
  assert (Nn : next (h1 new) = None).
  { apply (repr_detached_links h1 k1 new R1), detached_without. }
  apply (attach_repr h1 _ k1 self new (l1 ++ [ref]) l2 R1).
  - apply detached_without.
  - intros W'. apply W. eapply within_without; exact W'.
  - unfold h1. rewrite remove_ndata. eapply R; eauto.
  - rewrite E, <- app_assoc; reflexivity.
  - intros m. unfold insert_after; fold h1; cbv zeta. look. rewrite C.
    destruct (headof l2 None); look; bool_cases.
  - intros m. unfold insert_after; fold h1; cbv zeta. look. rewrite C, lastof_snoc.
    destruct (headof l2 None) eqn:Ey; simpl; look; bool_cases.
  - intros m. unfold insert_after; fold h1; cbv zeta. look. rewrite C, lastof_snoc.
    destruct (headof l2 None) eqn:Ey; simpl; look; bool_cases.
  - intros m. unfold insert_after; fold h1; cbv zeta. look. rewrite C.
    rewrite headof_app_none in Fp.
    rewrite headof_app_none, lastof_snoc. rewrite headof_app_none.
    destruct (headof l2 None) eqn:Ey; simpl; look; destruct (lastof None l1); bool_cases.
  - intros m. unfold insert_after; fold h1; cbv zeta. look. rewrite C.
    rewrite lastof_app_none in Lp. simpl in Lp.
    destruct l2 as [|z l2]; simpl; look; bool_cases.
  - intros m. unfold insert_after; fold h1; cbv zeta. look. rewrite C.
    destruct (headof l2 None); look; reflexivity.
Qed.

(** Adding a detached node at the end or at the front. *)
Lemma append_child_repr h k self n :
  Repr h k -> is_element_or_document (ndata (h self)) = true ->
  detached k n -> ~ within k n self ->
  Repr (append_child h self n) (upd k self (k self ++ [n])).
Proof.
  intros R K D W.
  pose proof (r_last h k R self) as Lp. pose proof (r_first h k R self) as Fp.
  destruct (repr_detached_links _ _ _ R D) as (A&B&C).
  assert (Hns : n <> self) by (intros ->; apply W; left; reflexivity).
  assert (NL : forall y, lastof None (k self) = Some y -> y <> n).
  { intros y Hy ->. apply (D self). apply lastof_none_in; exact Hy. }
  apply (attach_repr h _ k self n (k self) [] R); auto.
  - rewrite app_nil_r; reflexivity.
  - intros m. unfold append_child; cbv zeta. look. rewrite Lp.
    destruct (lastof None (k self)); look; bool_cases.
  - intros m. unfold append_child; cbv zeta. look. rewrite Lp.
    destruct (lastof None (k self)) eqn:Ey; simpl; look; bool_cases;
      exfalso; eapply NL; eauto.
  - intros m. unfold append_child; cbv zeta. look. rewrite Lp.
    destruct (lastof None (k self)) eqn:Ey; simpl; look; bool_cases.
  - intros m. unfold append_child; cbv zeta. look. rewrite Lp.
    rewrite headof_app_none.
    destruct (lastof None (k self)) eqn:Ey; simpl; look; bool_cases.
  - intros m. unfold append_child; cbv zeta. look. rewrite Lp. simpl.
    destruct (lastof None (k self)) eqn:Ey; simpl; look; bool_cases.
  - intros m. unfold append_child; cbv zeta. look. rewrite Lp.
    destruct (lastof None (k self)); look; reflexivity.
Qed.

Lemma prepend_repr h k self n :
  Repr h k -> is_element_or_document (ndata (h self)) = true ->
  detached k n -> ~ within k n self ->
  Repr (prepend h self n) (upd k self (n :: k self)).
Proof.
  intros R K D W.
  pose proof (r_last h k R self) as Lp. pose proof (r_first h k R self) as Fp.
  destruct (repr_detached_links _ _ _ R D) as (A&B&C).
  assert (Hns : n <> self) by (intros ->; apply W; left; reflexivity).
  assert (NL : forall y, headof (k self) None = Some y -> y <> n).
  { intros y Hy ->. apply (D self). apply headof_none_in; exact Hy. }
  apply (attach_repr h _ k self n [] (k self) R); auto; intros m;
    unfold prepend; cbv zeta; look; rewrite Fp; simpl;
    destruct (k self) as [|z r] eqn:Ek; simpl in *; look; bool_cases;
    exfalso; eapply NL; eauto.
Qed.

Lemma append_repr h k self n :
  Repr h k -> is_element_or_document (ndata (h self)) = true -> ~ within k n self ->
  Repr (append h self n)
    (fun p => if p =? self then without n (k p) ++ [n] else without n (k p)).
Proof.
  intros R K W.
  pose proof (remove_repr h k n R) as R1.
  assert (E : same_links (append_child (remove h n) self n) (append h self n)).
  { assert (Hns : n <> self) by (intros ->; apply W; left; reflexivity).
    intros m. unfold append, append_child; cbv zeta. look.
    destruct (last (remove h n self)); look; repeat split; bool_cases. }
  apply Repr_ext with (h := append_child (remove h n) self n)
     (k := upd (fun p => without n (k p)) self (without n (k self) ++ [n])); auto.
  - intros p. unfold upd. destruct (Nat.eqb_spec p self); subst; reflexivity.
  - apply append_child_repr with (k := fun p => without n (k p)); auto.
    + rewrite remove_ndata; exact K.
    + apply detached_without.
    + intros W'. apply W. eapply within_without; exact W'.
Qed.
