(** More lemmas about the DOM model: [after], [replace_with], [replace_child], [flatten],
    [insert] and whole edit histories. *)
From Coq Require Import List Arith Bool Lia Relations.
From Verif Require Import DomModel DomSpec DomProofs.
Import ListNotations.

Lemma after_repr h k e n p :
  Repr h k -> In e (k p) -> n <> e -> ~ within k n p ->
  Repr (after h e n)
    (fun q => if q =? p then put_after e n (without n (k q)) else without n (k q)).
Proof.
  intros R Hin Hne W. unfold after, parent_node, element_new.
  rewrite (repr_parent _ _ _ _ R Hin), (r_kind h k R p e Hin).
  apply insert_after_repr; auto.
Qed.

Lemma after_detached h k e n : Repr h k -> detached k e -> after h e n = h.
Proof.
  intros R D. unfold after, parent_node.
  destruct (repr_detached_links _ _ _ R D) as (A&_). rewrite A. reflexivity.
Qed.

Lemma replace_with_repr h k e n p :
  Repr h k -> In e (k p) -> n <> e -> ~ within k n p ->
  Repr (replace_with h e n)
    (fun q => if q =? p then subst_by e [n] (without n (k q)) else without n (k q)).
Proof.
  intros R Hin Hne W.
  pose proof (after_repr h k e n p R Hin Hne W) as R1.
  pose proof (remove_repr _ _ e R1) as R2.
  unfold replace_with. refine (Repr_ext _ _ _ _ _ _ R2); [intros m; tauto|].
  intros q. simpl.
  assert (Hin' : In e (without n (k p))) by (apply in_without; auto).
  destruct (in_split _ _ Hin') as (l1 & l2 & E).
  pose proof (NoDup_without n _ (r_nodup h k R p)) as ND. rewrite E in ND.
  destruct (nodup_mid _ _ _ ND) as (N1 & N2 & ND').
  destruct (Nat.eqb_spec q p) as [->|Hq].
  - rewrite E, put_after_split, subst_by_split by exact N1.
    change (l1 ++ e :: n :: l2) with (l1 ++ e :: (n :: l2)).
    rewrite without_app. unfold without at 2. simpl. rewrite Nat.eqb_refl. simpl.
    destruct (Nat.eqb_spec n e); [congruence|]. simpl.
    fold (without e l2). rewrite !without_notin by auto. reflexivity.
  - symmetry. apply without_notin. intros H. apply in_without in H. destruct H as [H _].
    apply Hq. exact (repr_unique h k q p e R H Hin).
Qed.

Lemma replace_child_repr h k self new old :
  Repr h k -> In old (k self) -> detached k new -> ~ within k new self ->
  Repr (replace_child h self new old) (upd k self (subst_by old [new] (k self))).
Proof.
  intros R Hin D W.
  pose proof (remove_repr h k old R) as R1.
  set (h1 := remove h old) in *. set (k1 := fun p => without old (k p)) in *.
  destruct (in_split _ _ Hin) as (l1 & l2 & E).
  pose proof (r_nodup h k R self) as ND. rewrite E in ND.
  destruct (nodup_mid _ _ _ ND) as (N1 & N2 & ND').
  destruct (repr_links _ _ _ _ _ _ R E) as (A&B&C).
  assert (Hno : new <> old) by (intros ->; apply (D self); exact Hin).
  assert (Ek1 : k1 self = l1 ++ l2).
  { unfold k1. rewrite E. apply without_split; exact ND. }
  apply Repr_ext with (h := replace_child h self new old)
                      (k := upd k1 self (l1 ++ new :: l2)).
  { intros m; tauto. }
  { intros q. unfold upd. destruct (Nat.eqb_spec q self) as [->|Hq].
    - rewrite E, subst_by_split by exact N1. reflexivity.
    - unfold k1. symmetry. apply without_notin. intros H. apply Hq.
      exact (repr_unique h k q self old R H Hin). }
  destruct (repr_detached_links _ _ _ R D) as (Dp&Dv&Dn).
  assert (Fp : first (h self) = headof (l1 ++ old :: l2) None) by (rewrite <- E; apply R).
  assert (Lp : last (h self) = lastof None (l1 ++ old :: l2)) by (rewrite <- E; apply R).
  rewrite headof_app_none in Fp. rewrite lastof_app_none in Lp. simpl in Fp, Lp.
  assert (Y : forall y, lastof None l1 = Some y -> y <> old /\ y <> new /\ In y l1).
  { intros y Hy. apply lastof_none_in in Hy. split; [|split]; auto.
    - intros ->; contradiction.
    - intros ->. apply (D self). rewrite E. apply in_or_app; auto. }
  assert (Z : forall z, headof l2 None = Some z -> z <> old /\ z <> new /\ In z l2).
  { intros z Hz. apply headof_none_in in Hz. split; [|split]; auto.
    - intros ->; contradiction.
    - intros ->. apply (D self). rewrite E. apply in_or_app; simpl; auto. }
  assert (LL : forall z d, headof l2 None = Some z -> lastof d l2 = lastof None l2).
  { intros z d Hz. destruct l2; [discriminate|reflexivity]. }
  assert (L0 : forall d, headof l2 None = None -> lastof d l2 = d).
  { intros d Hz. destruct l2; [reflexivity|discriminate]. }
  assert (Disj : forall x, In x l1 -> In x l2 -> False).
  { clear - ND'. intros x H1 H2. induction l1; simpl in *; [tauto|].
    inversion ND'; subst. destruct H1 as [->|]; auto.
    apply H3. apply in_or_app; auto. }
  apply (attach_repr h1 _ k1 self new l1 l2 R1); auto.
  - intros p Hp. unfold k1 in Hp. apply in_without in Hp. eapply D; apply Hp.
  - intros W'. apply W. eapply within_without; exact W'.
  - unfold h1. rewrite remove_ndata. eapply R; eauto.
  - intros m. unfold replace_child, h1, remove; cbv zeta. look. rewrite A, B, C.
    destruct (lastof None l1) as [y|], (headof l2 None) as [z|]; look; bool_cases.
  - intros m. unfold replace_child, h1, remove; cbv zeta. look. rewrite A, B, C.
    destruct (lastof None l1) as [y|] eqn:Ey; destruct (headof l2 None) as [z|] eqn:Ez;
      simpl is_; try destruct (Y _ eq_refl) as (?&?&?); try destruct (Z _ eq_refl) as (?&?&?);
      look; bool_cases.
  - intros m. unfold replace_child, h1, remove; cbv zeta. look. rewrite A, B, C.
    destruct (lastof None l1) as [y|] eqn:Ey; destruct (headof l2 None) as [z|] eqn:Ez;
      simpl is_; try destruct (Y _ eq_refl) as (?&?&?); try destruct (Z _ eq_refl) as (?&?&?);
      look; bool_cases.
  - intros m. unfold replace_child, h1, remove; cbv zeta. look. rewrite A, B, C.
    rewrite headof_app_none.
    destruct (lastof None l1) as [y|] eqn:Ey; destruct (headof l2 None) as [z|] eqn:Ez;
      simpl; look; bool_cases.
  - intros m. unfold replace_child, h1, remove; cbv zeta. look. rewrite A, B, C.
    destruct (lastof None l1) as [y|] eqn:Ey; destruct (headof l2 None) as [z|] eqn:Ez;
      simpl; look; rewrite ?(LL _ _ eq_refl), ?(L0 _ eq_refl); bool_cases;
      rewrite Lp; destruct l2; simpl in *; congruence.
  - intros m. unfold replace_child, h1, remove; cbv zeta. look. rewrite A, B, C.
    destruct (lastof None l1), (headof l2 None); look; reflexivity.
Qed.

(** ** Flatten *)
Lemma seg_rebuild h h' p p' a a' l b b' :
  NoDup l ->
  (forall x, In x l -> parent (h' x) = Some p' /\
     prev (h' x) = (if is_ (headof l None) x then a' else prev (h x)) /\
     next (h' x) = (if is_ (lastof None l) x then b' else next (h x))) ->
  seg h p a l b -> seg h' p' a' l b'.
Proof.
  revert a a'; induction l as [|c r IH]; intros a a' ND H S; [exact I|].
  inversion ND as [|? ? NI ND']; subst.
  simpl in S. destruct S as (S1&S2&S3&S4).
  destruct (H c (or_introl eq_refl)) as (E1&E2&E3).
  simpl in E2. rewrite Nat.eqb_refl in E2.
  assert (LE : forall x, In x r -> is_ (lastof None (c :: r)) x = is_ (lastof None r) x).
  { intros x Hx. destruct r; [inversion Hx|reflexivity]. }
  simpl. repeat split; auto.
  - rewrite E3. destruct r as [|d r].
    + simpl. rewrite Nat.eqb_refl. reflexivity.
    + replace (is_ (lastof None (c :: d :: r)) c) with false.
      * simpl in *. exact S3.
      * symmetry. apply is_false. intros Hl.
        change (lastof None (c :: d :: r)) with (lastof None (d :: r)) in Hl.
        apply lastof_none_in in Hl. contradiction.
  - apply IH with (a := Some c); auto.
    intros x Hx. destruct (H x (or_intror Hx)) as (F1&F2&F3).
    rewrite F1, F2, F3. repeat split; auto.
    + simpl. destruct (Nat.eqb_spec x c); [subst; contradiction|].
      destruct r as [|d r]; [inversion Hx|]. simpl.
      destruct (Nat.eqb_spec x d); auto. subst. simpl in S4. tauto.
    + rewrite LE; auto.
Qed.

Lemma reparent_from_spec p e : forall l h a fuel,
  seg h e a l None -> NoDup l -> length l < fuel ->
  exists h', reparent_from fuel h (headof l None) p = Some h' /\
    forall m, parent (h' m) = (if in_dec Nat.eq_dec m l then p else parent (h m)) /\
      prev (h' m) = prev (h m) /\ next (h' m) = next (h m) /\ first (h' m) = first (h m) /\
      last (h' m) = last (h m) /\ ndata (h' m) = ndata (h m).
Proof.
  induction l as [|c r IH]; intros h a fuel S ND Hf; simpl.
  - destruct fuel; [lia|]. simpl. exists h. split; auto 10.
  - destruct fuel; [simpl in Hf; lia|]. simpl in *.
    destruct S as (S1&S2&S3&S4). inversion ND as [|? ? NI ND']; subst.
    rewrite next_set_parent, S3.
    destruct (IH (set_parent h c p) (Some c) fuel) as (h' & E & H'); auto; [|lia|].
    + apply seg_ext with (h := h); auto.
      intros x Hx. look. destruct (Nat.eqb_spec x c); [subst; contradiction|auto].
    + exists h'. split; [exact E|]. intros m.
      destruct (H' m) as (P&V&N&F&L&D). rewrite P, V, N, F, L, D. look.
      repeat split; auto.
      destruct (Nat.eq_dec c m) as [->|Hne].
      * rewrite Nat.eqb_refl. destruct (in_dec Nat.eq_dec m r); auto.
      * destruct (in_dec Nat.eq_dec m r); auto.
        destruct (Nat.eqb_spec m c); [subst; congruence|auto].
Qed.

Lemma splice_repr h h' k p e l1 l2 :
  Repr h k -> k p = l1 ++ e :: l2 ->
  (forall m, parent (h' m) = if m =? e then None
             else if in_dec Nat.eq_dec m (k e) then Some p else parent (h m)) ->
  (forall m, prev (h' m) = if m =? e then None
             else if is_ (headof (k e) None) m then lastof None l1
             else if is_ (headof l2 None) m then lastof (lastof None l1) (k e)
             else prev (h m)) ->
  (forall m, next (h' m) = if m =? e then None
             else if is_ (lastof None (k e)) m then headof l2 None
             else if is_ (lastof None l1) m then headof (k e) (headof l2 None)
             else next (h m)) ->
  (forall m, first (h' m) = if m =? e then None
             else if m =? p then headof l1 (headof (k e) (headof l2 None)) else first (h m)) ->
  (forall m, last (h' m) = if m =? e then None
             else if m =? p then lastof (lastof (lastof None l1) (k e)) l2 else last (h m)) ->
  (forall m, ndata (h' m) = ndata (h m)) ->
  Repr h' (fun q => if q =? p then subst_by e (k e) (k q) else if q =? e then [] else k q).
Proof.
  intros R E Hp Hv Hn Hf Hl Hd.
  pose proof (r_nodup h k R p) as ND. rewrite E in ND.
  destruct (nodup_mid _ _ _ ND) as (N1 & N2 & ND').
  pose proof (r_nodup h k R e) as NDe.
  assert (Hin : In e (k p)) by (rewrite E; apply in_or_app; simpl; auto).
  assert (Hpe : p <> e).
  { intros ->. apply (r_acyclic h k R e). apply t_step; exact Hin. }
  assert (Hce : forall x, In x (k e) -> x <> e /\ x <> p /\ ~ In x l1 /\ ~ In x l2).
  { intros x Hx. split; [|split; [|split]].
    - intros ->. apply (r_acyclic h k R e). apply t_step; exact Hx.
    - intros ->. apply (r_acyclic h k R e). eapply t_trans; apply t_step; eauto.
    - intros Hx'. apply Hpe. apply (repr_unique h k p e x R); auto.
      rewrite E; apply in_or_app; auto.
    - intros Hx'. apply Hpe. apply (repr_unique h k p e x R); auto.
      rewrite E; apply in_or_app; simpl; auto. }
  assert (Disj : forall x, In x l1 -> In x l2 -> False).
  { clear - ND'. intros x H1 H2. induction l1; simpl in *; [tauto|].
    inversion ND'; subst. destruct H1 as [->|]; auto.
    apply H3. apply in_or_app; auto. }
  assert (Sp : subst_by e (k e) (k p) = l1 ++ k e ++ l2).
  { rewrite E. apply subst_by_split; exact N1. }
  assert (FE : forall x, In x l1 \/ In x l2 -> is_ (headof (k e) None) x = false).
  { intros x Hx. apply is_false. intros Hh. apply headof_none_in in Hh.
    destruct (Hce x Hh) as (_&_&?&?). tauto. }
  assert (LE : forall x, In x l1 \/ In x l2 -> is_ (lastof None (k e)) x = false).
  { intros x Hx. apply is_false. intros Hh. apply lastof_none_in in Hh.
    destruct (Hce x Hh) as (_&_&?&?). tauto. }
  assert (PE : forall x, In x l1 \/ In x l2 -> (if in_dec Nat.eq_dec x (k e)
              then Some p else parent (h x)) = parent (h x)).
  { intros x Hx. destruct (in_dec Nat.eq_dec x (k e)) as [Hh|]; auto.
    destruct (Hce x Hh) as (_&_&?&?). tauto. }
  assert (NE : forall x, In x l1 \/ In x l2 -> (x =? e) = false).
  { intros x Hx. apply Nat.eqb_neq. intros ->. tauto. }
  constructor.
  - intros q. rewrite Hf. destruct (Nat.eqb_spec q p) as [->|Hq].
    + apply Nat.eqb_neq in Hpe. rewrite Hpe, Sp, !headof_app. reflexivity.
    + destruct (q =? e); [reflexivity|]. apply R.
  - intros q. rewrite Hl. destruct (Nat.eqb_spec q p) as [->|Hq].
    + apply Nat.eqb_neq in Hpe. rewrite Hpe, Sp, !lastof_app. reflexivity.
    + destruct (q =? e); [reflexivity|]. apply R.
  - intros q. destruct (Nat.eqb_spec q p) as [->|Hq].
    + rewrite Sp. pose proof (r_seg h k R p) as S. rewrite E in S.
      apply seg_app in S. destruct S as [S1 S2]. simpl in S2. destruct S2 as (A&B&C&S2).
      apply seg_app. split; [|apply seg_app; split].
      * apply seg_right with (h := h) (b := Some e).
        -- eapply nodup_app_l; exact ND.
        -- intros x Hx. rewrite Hp, Hv, Hn, NE, PE, FE, LE by auto.
           replace (is_ (headof l2 None) x) with false.
           2:{ symmetry; apply is_false; intros Hh; apply headof_none_in in Hh; eauto. }
           rewrite headof_app. auto.
        -- exact S1.
      * apply seg_rebuild with (h := h) (p := e) (a := None) (b := None); [exact NDe| |apply R].
        intros x Hx. destruct (Hce x Hx) as (X1&X2&X3&X4).
        rewrite Hp, Hv, Hn. apply Nat.eqb_neq in X1. rewrite X1.
        replace (is_ (headof l2 None) x) with false.
        2:{ symmetry; apply is_false; intros Hh; apply headof_none_in in Hh; eauto. }
        replace (is_ (lastof None l1) x) with false.
        2:{ symmetry; apply is_false; intros Hh; apply lastof_none_in in Hh; eauto. }
        destruct (in_dec Nat.eq_dec x (k e)); [auto|contradiction].
      * apply seg_left with (h := h) (a := Some e).
        -- eapply nodup_app_r, ND'.
        -- intros x Hx. rewrite Hp, Hv, Hn, NE, PE, FE, LE by auto.
           replace (is_ (lastof None l1) x) with false.
           2:{ symmetry; apply is_false; intros Hh; apply lastof_none_in in Hh; eauto. }
           auto.
        -- exact S2.
    + destruct (Nat.eqb_spec q e) as [->|Hqe]; [exact I|].
      apply seg_ext with (h := h); [|apply R].
      intros x Hx. rewrite Hp, Hv, Hn.
      assert (Hxp : ~ In x (k p)) by (intros Hh; apply Hq; eapply repr_unique; eauto).
      assert (Hxe : ~ In x (k e)) by (intros Hh; apply Hqe; eapply repr_unique; eauto).
      replace (x =? e) with false.
      2:{ symmetry; apply Nat.eqb_neq. intros ->. contradiction. }
      rewrite E in Hxp.
      replace (is_ (headof l2 None) x) with false.
      2:{ symmetry; apply is_false; intros Hh; apply headof_none_in in Hh.
          apply Hxp, in_or_app; simpl; auto. }
      replace (is_ (lastof None l1) x) with false.
      2:{ symmetry; apply is_false; intros Hh; apply lastof_none_in in Hh.
          apply Hxp, in_or_app; simpl; auto. }
      replace (is_ (headof (k e) None) x) with false.
      2:{ symmetry; apply is_false; intros Hh; apply headof_none_in in Hh; auto. }
      replace (is_ (lastof None (k e)) x) with false.
      2:{ symmetry; apply is_false; intros Hh; apply lastof_none_in in Hh; auto. }
      destruct (in_dec Nat.eq_dec x (k e)); [contradiction|auto].
  - intros q. destruct (Nat.eqb_spec q p) as [->|Hq].
    + rewrite Sp. clear - NDe ND' Hce. induction l1 as [|a l1 IH]; simpl in *.
      * induction (k e) as [|c r IHr]; simpl in *; auto.
        inversion NDe; subst. constructor.
        -- rewrite in_app_iff. intros [?|?]; auto.
           destruct (Hce c (or_introl eq_refl)) as (_&_&_&?). auto.
        -- apply IHr; auto.
      * inversion ND'; subst. constructor.
        -- rewrite !in_app_iff in *. intros [?|[?|?]]; auto.
           destruct (Hce a H) as (_&_&Q&_). apply Q. left; reflexivity.
        -- apply IH; auto. intros x Hx. destruct (Hce x Hx) as (?&?&Q&?).
           repeat split; auto.
    + destruct (q =? e); [constructor|apply R].
  - intros c Hc. rewrite Hp, Hv, Hn. destruct (Nat.eqb_spec c e) as [->|Hce']; auto.
    assert (Hcp : ~ In c (l1 ++ k e ++ l2)).
    { specialize (Hc p). simpl in Hc. rewrite Nat.eqb_refl, Sp in Hc. exact Hc. }
    rewrite !in_app_iff in Hcp.
    assert (Hc' : forall q, ~ In c (k q)).
    { intros q Hq. destruct (Nat.eq_dec q p) as [->|].
      - rewrite E in Hq. apply in_app_or in Hq. simpl in Hq.
        destruct Hq as [|[|]]; [tauto|congruence|tauto].
      - destruct (Nat.eq_dec q e) as [->|]; [tauto|].
        apply (Hc q). simpl. apply Nat.eqb_neq in n, n0. rewrite n, n0. exact Hq. }
    destruct (r_orphan h k R c Hc') as (A&B&C).
    replace (is_ (headof l2 None) c) with false.
    2:{ symmetry; apply is_false; intros Hh; apply headof_none_in in Hh; tauto. }
    replace (is_ (lastof None l1) c) with false.
    2:{ symmetry; apply is_false; intros Hh; apply lastof_none_in in Hh; tauto. }
    replace (is_ (headof (k e) None) c) with false.
    2:{ symmetry; apply is_false; intros Hh; apply headof_none_in in Hh; tauto. }
    replace (is_ (lastof None (k e)) c) with false.
    2:{ symmetry; apply is_false; intros Hh; apply lastof_none_in in Hh; tauto. }
    destruct (in_dec Nat.eq_dec c (k e)); [tauto|auto].
  - intros q c Hq. rewrite Hd. destruct (Nat.eqb_spec q p) as [->|Hqp].
    + eapply R; eauto.
    + destruct (Nat.eqb_spec q e) as [->|Hqe]; [inversion Hq|]. eapply R; eauto.
  - apply acyclic_sub with (k := k); [|apply R].
    intros q c Hq. destruct (Nat.eqb_spec q p) as [->|Hqp].
    + rewrite Sp in Hq. rewrite !in_app_iff in Hq.
      destruct Hq as [Hq|[Hq|Hq]].
      * apply t_step. unfold child. rewrite E; apply in_or_app; auto.
      * eapply t_trans; apply t_step; eauto.
      * apply t_step. unfold child. rewrite E; apply in_or_app; simpl; auto.
    + destruct (q =? e); [inversion Hq|]. apply t_step; exact Hq.
Qed.

Lemma flatten_repr h k e p fuel :
  Repr h k -> In e (k p) -> length (k e) < fuel ->
  exists h', flatten fuel h e = Some h' /\
    (forall m, ndata (h' m) = ndata (h m)) /\
    Repr h' (fun q => if q =? p then subst_by e (k e) (k q) else if q =? e then [] else k q).
Proof.
  intros R Hin Hf.
  destruct (in_split _ _ Hin) as (l1 & l2 & E).
  destruct (repr_links _ _ _ _ _ _ R E) as (A&B&C).
  pose proof (r_nodup h k R p) as ND. rewrite E in ND.
  destruct (nodup_mid _ _ _ ND) as (N1 & N2 & ND').
  assert (Hpe : p <> e).
  { intros ->. apply (r_acyclic h k R e). apply t_step; exact Hin. }
  assert (Hce : forall x, In x (k e) -> x <> e /\ x <> p /\ ~ In x l1 /\ ~ In x l2).
  { intros x Hx. split; [|split; [|split]].
    - intros ->. apply (r_acyclic h k R e). apply t_step; exact Hx.
    - intros ->. apply (r_acyclic h k R e). eapply t_trans; apply t_step; eauto.
    - intros Hx'. apply Hpe. apply (repr_unique h k p e x R); auto.
      rewrite E; apply in_or_app; auto.
    - intros Hx'. apply Hpe. apply (repr_unique h k p e x R); auto.
      rewrite E; apply in_or_app; simpl; auto. }
  assert (Disj : forall x, In x l1 -> In x l2 -> False).
  { clear - ND'. intros x H1 H2. induction l1; simpl in *; [tauto|].
    inversion ND'; subst. destruct H1 as [->|]; auto.
    apply H3. apply in_or_app; auto. }
  destruct (reparent_from_spec (Some p) e (k e) (set_parent h e None) None fuel)
    as (h1 & E1 & H1); auto.
  { apply seg_ext with (h := h); [|apply R]. intros x Hx. look.
    destruct (Hce x Hx) as (X&_). apply Nat.eqb_neq in X. rewrite X. auto. }
  { apply R. }
  unfold flatten; cbv zeta. look.
  rewrite A, (r_first h k R e), E1. eexists; split; [reflexivity|].
  destruct (H1 e) as (_&V&N&F&L&_). look.
  rewrite V, N, F, L, B, C, (r_first h k R e), (r_last h k R e).
  assert (Fp : first (h p) = headof (l1 ++ e :: l2) None) by (rewrite <- E; apply R).
  assert (Lp : last (h p) = lastof None (l1 ++ e :: l2)) by (rewrite <- E; apply R).
  rewrite headof_app_none in Fp. rewrite lastof_app_none in Lp. simpl in Fp, Lp.
  assert (Hh : forall x, headof (k e) None = Some x -> prev (h x) = None).
  { intros x Hx. pose proof (r_seg h k R e) as S. destruct (k e); [discriminate|].
    simpl in *. injection Hx as ->. tauto. }
  assert (Ht : forall x, lastof None (k e) = Some x -> next (h x) = None).
  { intros x Hx. pose proof (r_seg h k R e) as S.
    destruct (snoc_case (k e)) as [E0|(l' & y & E0)]; rewrite E0 in *; [discriminate|].
    rewrite lastof_snoc in Hx. injection Hx as ->.
    apply seg_app in S. simpl in S. tauto. }
  assert (Y : forall y, lastof None l1 = Some y -> y <> e /\ ~ In y (k e) /\ ~ In y l2).
  { intros y Hy. apply lastof_none_in in Hy. split; [|split].
    - intros ->; contradiction.
    - intros Hx. destruct (Hce y Hx) as (_&_&?&_); auto.
    - intros Hx; eauto. }
  assert (Z : forall z, headof l2 None = Some z -> z <> e /\ ~ In z (k e) /\ ~ In z l1).
  { intros z Hz. apply headof_none_in in Hz. split; [|split].
    - intros ->; contradiction.
    - intros Hx. destruct (Hce z Hx) as (_&_&_&?); auto.
    - intros Hx; eauto. }
  assert (FC : forall x, headof (k e) None = Some x -> In x (k e))
    by (intros; apply headof_none_in; auto).
  assert (LC : forall x, lastof None (k e) = Some x -> In x (k e))
    by (intros; apply lastof_none_in; auto).
  assert (Cons : (headof (k e) None = None /\ lastof None (k e) = None /\ k e = []) \/
                 exists f l, headof (k e) None = Some f /\ lastof None (k e) = Some l /\
                   (forall d, headof (k e) d = Some f) /\ (forall d, lastof d (k e) = Some l)).
  { destruct (k e) as [|c r]; [left; auto|right]. simpl.
    assert (HL : exists l, lastof (Some c) r = Some l).
    { clear. revert c; induction r as [|d r IH]; intros c; simpl; eauto. }
    destruct HL as [l Hl]. exists c, l. auto. }
  split.
  { intros m. destruct (H1 m) as (_&_&_&_&_&D).
    destruct (headof (k e) None), (lastof None l1), (lastof None (k e)), (headof l2 None);
      look; congruence. }
  assert (Fp' : forall x, lastof None l1 = Some x -> forall d, headof l1 d = headof l1 None).
  { intros x Hx d. destruct l1; [discriminate|reflexivity]. }
  assert (Fp0 : lastof None l1 = None -> forall d, headof l1 d = d).
  { intros Hx d. destruct (snoc_case l1) as [->|(l'&y&->)]; [reflexivity|].
    rewrite lastof_snoc in Hx; discriminate. }
  assert (Lp' : forall x, headof l2 None = Some x -> forall d, lastof d l2 = lastof None l2).
  { intros x Hx d. destruct l2; [discriminate|reflexivity]. }
  assert (Lp0 : headof l2 None = None -> forall d, lastof d l2 = d).
  { intros Hx d. destruct l2; [reflexivity|discriminate]. }
  assert (Lpz : forall x, headof l2 None = Some x -> last (h p) = lastof None l2).
  { intros x Hx. rewrite Lp. destruct l2; [discriminate|reflexivity]. }
  assert (NIe : ~ In e (k e)) by (intros Hx; destruct (Hce e Hx) as (Q&_); congruence).
  assert (NIp : ~ In p (k e)) by (intros Hx; destruct (Hce p Hx) as (_&Q&_); congruence).
  apply (splice_repr h _ k p e l1 l2 R E);
    intros m; destruct (H1 m) as (Hpm&Hvm&Hnm&Hfm&Hlm&Hdm); look;
    destruct (lastof None l1) as [y|] eqn:Ey; destruct (headof l2 None) as [z|] eqn:Ez;
    destruct Cons as [(K1&K2&K3)|(f&l&K1&K2&K3&K4)];
    repeat match goal with
           | H : forall y0, Some y = Some y0 -> _ |- _ => specialize (H _ eq_refl)
           | H : forall y0, Some z = Some y0 -> _ |- _ => specialize (H _ eq_refl)
           | H : None = None -> _ |- _ => specialize (H eq_refl)
           | H : Some _ = None -> _ |- _ => clear H
           end;
    rewrite ?K1, ?K2; try rewrite ?K3 in *; try rewrite ?K4; rewrite ?Fp', ?Fp0, ?Lp', ?Lp0;
    simpl is_; look;
    try (assert (Hfi : In f (k e)) by (apply FC; exact K1));
    try (assert (Hli : In l (k e)) by (apply LC; exact K2));
    rewrite ?Hpm, ?Hvm, ?Hnm, ?Hfm, ?Hlm, ?Hdm;
    try (destruct (in_dec Nat.eq_dec m (k e)));
    bool_cases; try tauto; try (exfalso; tauto).
Qed.
