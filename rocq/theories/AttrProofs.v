(** Proofs about names, sorting and attribute lists. *)
From Coq Require Import String List NArith Bool Arith Lia Permutation.
From Verif Require Import Chars NameModel AttrTable AttrModel AttrSpec.
Import ListNotations.

(* ------------------------------------------------------------------ comparisons *)

Lemma preorder_lex {A} (c1 c2 : A -> A -> comparison) : total_preorder c1 -> total_preorder c2 ->
  total_preorder (fun x y => match c1 x y with Eq => c2 x y | c => c end).
Proof.
  intros [S1 T1] [S2 T2]. split.
  - intros x y. rewrite (S1 x y). destruct (c1 x y); simpl; auto.
  - intros x y z H1 H2.
    assert (A1 : c1 x y <> Gt) by (destruct (c1 x y); congruence).
    assert (A2 : c1 y z <> Gt) by (destruct (c1 y z); congruence).
    pose proof (T1 _ _ _ A1 A2) as A3.
    destruct (c1 x z) eqn:E; [|congruence|congruence].
    assert (Zx : c1 z x <> Gt) by (rewrite (S1 x z), E; discriminate).
    assert (E1 : c1 x y = Eq).
    { assert (c1 y x <> Gt) by (eapply T1; eauto). rewrite (S1 x y) in H. destruct (c1 x y); simpl in *; congruence. }
    assert (E2 : c1 y z = Eq).
    { assert (c1 z y <> Gt) by (eapply T1; eauto). rewrite (S1 y z) in H. destruct (c1 y z); simpl in *; congruence. }
    rewrite E1 in H1. rewrite E2 in H2. eapply T2; eauto.
Qed.

Lemma preorder_map {A B} (f : A -> B) c : total_preorder c -> total_preorder (fun x y => c (f x) (f y)).
Proof. intros [S T]. split; intros; auto. eapply T; eauto. Qed.

Lemma preorder_nat : total_preorder Nat.compare.
Proof.
  split; [intros; apply Nat.compare_antisym|].
  intros x y z H1 H2. apply Nat.compare_le_iff in H1, H2. apply Nat.compare_le_iff. lia.
Qed.

Lemma text_cmp_eq a : forall b, text_cmp a b = Eq <-> a = b.
Proof.
  induction a as [|x a IH]; intros [|y b]; simpl; split; try discriminate; auto.
  - destruct (N.compare_spec x y) as [->| |]; try discriminate. intros H. f_equal. apply IH. auto.
  - intros E; inversion E; subst. rewrite N.compare_refl. apply IH. auto.
Qed.

Lemma preorder_text : total_preorder text_cmp.
Proof.
  split.
  - induction x as [|a x IH]; intros [|b y]; simpl; auto.
    rewrite (N.compare_antisym a b). destruct (N.compare a b); simpl; auto.
  - induction x as [|a x IH]; intros [|b y] [|c z]; simpl; try congruence.
    destruct (N.compare_spec a b) as [->| |], (N.compare_spec b c) as [->| |]; try congruence; intros.
    + eapply IH; eauto.
    + rewrite (proj2 (N.compare_lt_iff a c)) by lia. discriminate.
    + rewrite (proj2 (N.compare_lt_iff a c)) by lia. discriminate.
Qed.

Lemma option_cmp_eq a b : option_cmp a b = Eq <-> a = b.
Proof.
  destruct a, b; simpl; split; try discriminate; auto.
  - intros H. f_equal. apply text_cmp_eq; auto.
  - intros E; inversion E; subst. apply text_cmp_eq. auto.
Qed.

Lemma preorder_option : total_preorder option_cmp.
Proof.
  split.
  - intros [x|] [y|]; simpl; auto. apply preorder_text.
  - intros [x|] [y|] [z|]; simpl; try congruence. apply preorder_text.
Qed.

Lemma preorder_prefix : total_preorder prefix_cmp.
Proof. apply (preorder_map prefix_value option_cmp preorder_option). Qed.

Lemma preorder_id : total_preorder id_cmp.
Proof.
  apply (preorder_lex (fun a b => prefix_cmp (id_prefix a) (id_prefix b))
                      (fun a b => text_cmp (id_local a) (id_local b))).
  - apply (preorder_map id_prefix _ preorder_prefix).
  - apply (preorder_map id_local _ preorder_text).
Qed.

(* ------------------------------------------------------------------ equality of names *)

Lemma known_eqb_spec a b : known_eqb a b = true <-> a = b.
Proof. destruct a, b; simpl; split; congruence. Qed.

Lemma uri_inj a b : known_uri a = known_uri b -> a = b.
Proof. destruct a, b; vm_compute; congruence. Qed.

Lemma ns_new_uri u : ns_uri (ns_new u) = u.
Proof.
  unfold ns_new. destruct (find _ _) eqn:E; auto. apply find_some in E as [_ E].
  apply text_eqb_spec in E. exact E.
Qed.

Lemma is_ns_spec p : prefix_ok p -> forall n, is_ns p n = ns_eqb (prefix_ns p) n.
Proof.
  induction p as [k|nm m|p IH a]; simpl; intros OK n; auto.
  destruct m; [tauto|]. destruct n; auto.
Qed.

Lemma ns_eqb_spec a b : ns_eqb a b = true <-> a = b.
Proof.
  destruct a, b; simpl; split; try discriminate.
  - intros H. f_equal. apply known_eqb_spec; auto.
  - intros E; inversion E; subst. apply known_eqb_spec; auto.
  - intros H. f_equal. apply text_eqb_spec; auto.
  - intros E; inversion E; subst. apply text_eqb_refl.
Qed.

Lemma prefix_eqb_spec p q : prefix_ok p -> (prefix_eqb p q = true <-> prefix_ns p = prefix_ns q).
Proof. intros OK. unfold prefix_eqb. rewrite is_ns_spec by auto. apply ns_eqb_spec. Qed.

Lemma find_known_in u : match find (fun k => text_eqb (known_uri k) u) all_known with
  | Some k => known_uri k = u | None => forall k, known_uri k <> u end.
Proof.
  destruct (find _ _) eqn:E.
  - apply find_some in E as [_ E]. apply text_eqb_spec in E. exact E.
  - intros k H. assert (I : In k all_known) by (destruct k; simpl; tauto).
    apply (find_none _ _ E) in I. rewrite H, text_eqb_refl in I. discriminate.
Qed.

Lemma prefix_new_ok u n : prefix_ok (prefix_new u n).
Proof.
  unfold prefix_new.
  destruct (find (fun k => text_eqb (known_uri k) u && otext_eqb (known_name k) n) all_known); [exact I|].
  unfold ns_new. destruct (find (fun k => text_eqb (known_uri k) u) all_known); [exact I|].
  destruct u, n; exact I.
Qed.

Lemma prefix_new_value u n : prefix_value (prefix_new u n) = n.
Proof.
  unfold prefix_new. destruct (find (fun k => text_eqb (known_uri k) u && otext_eqb (known_name k) n) all_known) eqn:E.
  - apply find_some in E as [_ E]. apply andb_true_iff in E as [_ E]. simpl.
    destruct (known_name k), n; simpl in E; try discriminate; auto.
    apply text_eqb_spec in E. congruence.
  - destruct (find (fun k => text_eqb (known_uri k) u) all_known); simpl; auto.
    destruct u, n; auto.
Qed.

Lemma prefix_new_ns u n : ns_uri (prefix_ns (prefix_new u n)) = namespace u n.
Proof.
  unfold prefix_new. destruct (find (fun k => text_eqb (known_uri k) u && otext_eqb (known_name k) n) all_known) eqn:E.
  - apply find_some in E as [_ E]. apply andb_true_iff in E as [E _]. apply text_eqb_spec in E. simpl.
    rewrite E. destruct k, u; simpl in E; try discriminate; reflexivity.
  - pose proof (find_known_in u) as F.
    destruct (find (fun k => text_eqb (known_uri k) u) all_known).
    + simpl. rewrite F. destruct k, u; simpl in F; try discriminate; reflexivity.
    + destruct u as [|c u], n; simpl; try reflexivity; rewrite ns_new_uri; reflexivity.
Qed.

Lemma prefix_new_ns_norm u n : prefix_ns (prefix_new u n) = ns_new (namespace u n).
Proof.
  unfold prefix_new. destruct (find (fun k => text_eqb (known_uri k) u && otext_eqb (known_name k) n) all_known) eqn:E.
  - apply find_some in E as [_ E]. apply andb_true_iff in E as [E _]. apply text_eqb_spec in E. subst u.
    destruct k, n; reflexivity.
  - pose proof (find_known_in u) as F.
    destruct (find (fun k => text_eqb (known_uri k) u) all_known).
    + subst u. destruct k, n; reflexivity.
    + destruct u as [|c u], n; reflexivity.
Qed.

Lemma prefix_eqb_new u n u' n' :
  prefix_eqb (prefix_new u n) (prefix_new u' n') = true <-> namespace u n = namespace u' n'.
Proof.
  rewrite prefix_eqb_spec by apply prefix_new_ok. rewrite !prefix_new_ns_norm.
  split; [|congruence]. intros H. apply (f_equal ns_uri) in H. rewrite !ns_new_uri in H. exact H.
Qed.

Lemma prefix_equivalence : (forall p, prefix_ok p -> prefix_eqb p p = true) /\
  (forall p q, prefix_ok p -> prefix_ok q -> prefix_eqb q p = prefix_eqb p q) /\
  (forall p q r, prefix_ok p -> prefix_ok q -> prefix_eqb p q = true -> prefix_eqb q r = true -> prefix_eqb p r = true).
Proof.
  split; [|split].
  - intros p H. apply prefix_eqb_spec; auto.
  - intros p q Hp Hq. apply eq_iff_eq_true. rewrite !prefix_eqb_spec by auto. split; auto.
  - intros p q r Hp Hq. rewrite !prefix_eqb_spec by auto. congruence.
Qed.

Lemma prefix_hash_eq p q : prefix_ok p -> prefix_eqb p q = true -> prefix_hash p = prefix_hash q.
Proof. intros OK H. apply prefix_eqb_spec in H; auto. unfold prefix_hash. congruence. Qed.

Lemma one_to_one_agrees scope p q : one_to_one scope -> declared scope p -> declared scope q ->
  (prefix_cmp p q = Eq <-> prefix_eqb p q = true).
Proof.
  intros O (n & u & I & ->) (n' & u' & I' & ->). rewrite prefix_eqb_new, <- (O n u n' u' I I').
  unfold prefix_cmp. rewrite !prefix_new_value. apply option_cmp_eq.
Qed.

Lemma qual_name_agrees scope a b : one_to_one scope ->
  declared scope (q_prefix a) -> declared scope (q_prefix b) ->
  (id_cmp (ABase (BUnknown a)) (ABase (BUnknown b)) = Eq <->
   id_eqb (ABase (BUnknown a)) (ABase (BUnknown b)) = true).
Proof.
  intros O Da Db. unfold id_cmp, id_eqb, id_local. simpl. unfold qual_name_eqb.
  rewrite andb_true_iff, <- (one_to_one_agrees scope) by eauto. rewrite text_eqb_spec.
  destruct (prefix_cmp _ _); rewrite ?text_cmp_eq; split; try tauto; try discriminate; intros [? ?]; discriminate.
Qed.

Lemma declared_ok scope p : declared scope p -> prefix_ok p.
Proof. intros (n & u & _ & ->). apply prefix_new_ok. Qed.

Lemma id_hash_base scope a b : 
  (forall q, a = BUnknown q -> declared scope (q_prefix q)) ->
  id_eqb (ABase a) (ABase b) = true -> id_hash (ABase a) = id_hash (ABase b).
Proof.
  intros D. unfold id_eqb. destruct a as [k|q], b as [k'|q']; simpl; try discriminate.
  - intros H. apply text_eqb_spec in H. congruence.
  - unfold qual_name_eqb. rewrite andb_true_iff, text_eqb_spec. intros [H1 H2].
    unfold qual_name_hash. rewrite H2. f_equal. f_equal. apply prefix_hash_eq; auto.
    eapply declared_ok. eauto.
Qed.

(* ------------------------------------------------------------------ sorting *)

Section Sort.
  Context {A : Type} (cmp : A -> A -> comparison) (P : total_preorder cmp).

  Lemma cmp_refl x : cmp x x = Eq.
  Proof. destruct P as [S _]. specialize (S x x). destruct (cmp x x); simpl in S; congruence. Qed.

  Lemma insert_perm x l : Permutation (x :: l) (insert_by cmp x l).
  Proof.
    induction l as [|y l IH]; simpl; auto.
    destruct (cmp x y); auto. rewrite perm_swap. constructor. exact IH.
  Qed.

  Lemma sort_perm l : Permutation l (stable_sort cmp l).
  Proof. induction l as [|x l IH]; simpl; auto. rewrite IH at 1. apply insert_perm. Qed.

  Lemma insert_ordered x l : ordered cmp l -> ordered cmp (insert_by cmp x l).
  Proof.
    destruct P as [S T]. induction l as [|y l IH]; simpl; [tauto|]. intros [H O].
    destruct (cmp x y) eqn:E; simpl.
    - split; [|auto]. intros z [<-|Hz]; [congruence|]. eapply T; [|apply H; auto]. congruence.
    - split; [|auto]. intros z [<-|Hz]; [congruence|]. eapply T; [|apply H; auto]. congruence.
    - split; [|auto]. intros z Hz. apply (Permutation_in _ (Permutation_sym (insert_perm x l))) in Hz.
      destruct Hz as [<-|Hz]; [|auto]. rewrite (S x y), E. discriminate.
  Qed.

  Lemma sort_ordered l : ordered cmp (stable_sort cmp l).
  Proof. induction l as [|x l IH]; simpl; auto. apply insert_ordered; auto. Qed.

  Lemma insert_stable x l : stable cmp (x :: l) (insert_by cmp x l).
  Proof.
    destruct P as [S T]. induction l as [|y l IH]; intros z; simpl; auto.
    destruct (cmp x y) eqn:E; auto. simpl. rewrite (IH z). simpl.
    destruct (cmp z y) eqn:E1, (cmp z x) eqn:E2; auto.
    exfalso. assert (cmp x y <> Gt); [|congruence].
    apply (T x z y); [rewrite (S z x), E2; discriminate|congruence].
  Qed.

  Lemma sort_stable l : stable cmp l (stable_sort cmp l).
  Proof.
    induction l as [|x l IH]; intros z; simpl; auto.
    rewrite (insert_stable x (stable_sort cmp l) z). simpl. rewrite (IH z). reflexivity.
  Qed.

  Lemma ordered_unique l1 : forall l2, ordered cmp l1 -> ordered cmp l2 -> stable cmp l1 l2 -> l1 = l2.
  Proof.
    destruct P as [S T]. induction l1 as [|a l1 IH]; intros l2 O1 O2 St.
    - destruct l2 as [|b l2]; auto. specialize (St b). simpl in St. rewrite cmp_refl in St. discriminate.
    - destruct l2 as [|b l2]; [specialize (St a); simpl in St; rewrite cmp_refl in St; discriminate|].
      simpl in O1, O2. destruct O1 as [H1 O1], O2 as [H2 O2].
      assert (Ia : In a (b :: l2)).
      { assert (I : In a (filter (fun y => match cmp a y with Eq => true | _ => false end) (b :: l2))).
        { rewrite (St a). simpl. rewrite cmp_refl. left; auto. }
        apply filter_In in I. tauto. }
      assert (Ib : In b (a :: l1)).
      { assert (I : In b (filter (fun y => match cmp b y with Eq => true | _ => false end) (a :: l1))).
        { rewrite <- (St b). simpl. rewrite cmp_refl. left; auto. }
        apply filter_In in I. tauto. }
      assert (L1 : cmp a b <> Gt) by (destruct Ib as [->|Ib]; [rewrite cmp_refl; discriminate|auto]).
      assert (L2 : cmp b a <> Gt) by (destruct Ia as [->|Ia]; [rewrite cmp_refl; discriminate|auto]).
      assert (E : cmp a b = Eq) by (rewrite (S a b) in L2; destruct (cmp a b); simpl in *; congruence).
      assert (a = b) as <-.
      { pose proof (St a) as F. simpl in F. rewrite cmp_refl, E in F. congruence. }
      f_equal. apply IH; auto. intros z. specialize (St z). simpl in St.
      destruct (cmp z a); congruence.
  Qed.

  Lemma sort_unique l l' : ordered cmp l' -> stable cmp l l' -> l' = stable_sort cmp l.
  Proof.
    intros O St. apply ordered_unique; auto; [apply sort_ordered|].
    intros z. rewrite (sort_stable l z), (St z). reflexivity.
  Qed.

  Lemma sort_sorted l : ordered cmp l -> stable_sort cmp l = l.
  Proof. intros O. symmetry. apply sort_unique; auto. intros z; auto. Qed.

  Lemma perm_filter (f : A -> bool) l1 l2 : Permutation l1 l2 -> Permutation (filter f l1) (filter f l2).
  Proof.
    induction 1; simpl; auto.
    - destruct (f x); auto.
    - destruct (f x), (f y); auto. constructor.
    - etransitivity; eauto.
  Qed.

  (** With distinct keys the result does not depend on the input order. *)
  Lemma sort_independent l1 l2 : Permutation l1 l2 ->
    (forall a b, In a l1 -> In b l1 -> cmp a b = Eq -> a = b) -> NoDup l1 ->
    stable_sort cmp l1 = stable_sort cmp l2.
  Proof.
    intros Pm D N. destruct P as [S T]. apply sort_unique; [apply sort_ordered|].
    intros z. rewrite (sort_stable l1 z).
    set (f := fun y => match cmp z y with Eq => true | _ => false end).
    assert (U : forall l, NoDup l -> (forall a b, In a l -> In b l -> cmp a b = Eq -> a = b) ->
                 length (filter f l) <= 1).
    { clear -S T. intros l N D. assert (Nf : NoDup (filter f l)) by (apply NoDup_filter; auto).
      assert (forall a b, In a (filter f l) -> In b (filter f l) -> a = b).
      { intros a b Ha Hb. apply filter_In in Ha as [Ha Fa], Hb as [Hb Fb]. unfold f in Fa, Fb.
        apply D; auto. destruct (cmp z a) eqn:Ea; try discriminate. destruct (cmp z b) eqn:Eb; try discriminate.
        assert (cmp a b <> Gt) by (apply (T a z b); [rewrite (S z a), Ea; discriminate|congruence]).
        assert (cmp b a <> Gt) by (apply (T b z a); [rewrite (S z b), Eb; discriminate|congruence]).
        rewrite (S a b) in H0. destruct (cmp a b); simpl in *; congruence. }
      destruct (filter f l) as [|x [|y r]]; simpl; auto. exfalso.
      inversion Nf; subst. apply H2. rewrite (H x y); simpl; auto. }
    pose proof (perm_filter f _ _ Pm) as PF. pose proof (U l1 N D) as U1.
    destruct (filter f l1) as [|x [|y r]] eqn:E1; simpl in U1; [| |lia].
    - apply Permutation_nil in PF. auto.
    - apply Permutation_length_1_inv in PF. auto.
  Qed.
End Sort.

Lemma position_spec order s : match position order s with
  | Some i => rank order s = i /\ i < length order
  | None => rank order s = length order end.
Proof.
  induction order as [|x order IH]; simpl; auto.
  destruct (text_eqb x s) eqn:E.
  - apply text_eqb_spec in E. destruct (text_eq_dec x s); [|congruence]. split; [auto|lia].
  - apply text_eqb_neq in E. destruct (text_eq_dec x s); [congruence|].
    destruct (position order s); simpl; lia.
Qed.

Lemma rank_inj order s t : rank order s = rank order t -> rank order s < length order -> s = t.
Proof.
  induction order as [|x order IH]; simpl; [lia|].
  destruct (text_eq_dec x s), (text_eq_dec x t); try congruence; try lia. intros. apply IH; lia.
Qed.

Lemma group_priority front a :
  N.of_nat (3 - group front a) = get_ns_priority (attr_name a) front /\ group front a <= 3.
Proof.
  unfold group, get_ns_priority, is_prefix, kind_eqb_id.
  destruct (id_unaliased (attr_name a)) as [k|q].
  - destruct front; simpl.
    + destruct (text_eqb (kind_id k) (lit "XMLNS")); simpl; auto.
      destruct (prefix_unaliased (id_prefix (attr_name a))) as [[]| |]; simpl; auto.
    + destruct (prefix_unaliased (id_prefix (attr_name a))) as [[]| |]; simpl; auto.
  - destruct front; simpl;
      destruct (prefix_unaliased (id_prefix (attr_name a))) as [[]| |]; simpl; auto.
Qed.

Lemma attr_cmp_key order front a b : attr_cmp order front a b = key_cmp order front a b.
Proof.
  unfold attr_cmp, key_cmp.
  destruct (group_priority front a) as [Pa La], (group_priority front b) as [Pb Lb].
  rewrite <- Pa, <- Pb.
  destruct (Nat.compare_spec (group front a) (group front b)) as [E|L|L].
  - rewrite E, N.eqb_refl. cbn [negb]. unfold shown_name. cbn [fst snd].
    change (match option_cmp (prefix_value (id_prefix (attr_name a))) (prefix_value (id_prefix (attr_name b))) with
            | Eq => text_cmp (attr_local a) (attr_local b) | c => c end)
      with (id_cmp (attr_name a) (attr_name b)).
    destruct (text_eqb (part (attr_local a)) (part (attr_local b))) eqn:Ep; cbn [negb].
    + apply text_eqb_spec in Ep. rewrite Ep, Nat.compare_refl. reflexivity.
    + apply text_eqb_neq in Ep.
      pose proof (position_spec order (part (attr_local a))) as Qa.
      pose proof (position_spec order (part (attr_local b))) as Qb.
      destruct (position order (part (attr_local a))) as [i|], (position order (part (attr_local b))) as [j|].
      * destruct Qa as [Qa La'], Qb as [Qb Lb']. rewrite Qa, Qb.
        destruct (Nat.compare_spec i j); auto. subst. exfalso. apply Ep. apply (rank_inj order); lia.
      * destruct Qa as [Qa La']. rewrite Qa, Qb. apply Nat.compare_lt_iff in La'. rewrite La'. reflexivity.
      * destruct Qb as [Qb Lb']. rewrite Qa, Qb. apply Nat.compare_gt_iff in Lb'. rewrite Lb'. reflexivity.
      * rewrite Qa, Qb, Nat.compare_refl. reflexivity.
  - assert (N.eqb (N.of_nat (3 - group front a)) (N.of_nat (3 - group front b)) = false) as -> by (apply N.eqb_neq; lia).
    cbn [negb]. apply N.compare_lt_iff. lia.
  - assert (N.eqb (N.of_nat (3 - group front a)) (N.of_nat (3 - group front b)) = false) as -> by (apply N.eqb_neq; lia).
    cbn [negb]. apply N.compare_gt_iff. lia.
Qed.

Lemma preorder_key order front : total_preorder (key_cmp order front).
Proof.
  apply (preorder_lex (fun a b => Nat.compare (group front a) (group front b))); [apply (preorder_map (group front) _ preorder_nat)|].
  apply (preorder_lex (fun a b => Nat.compare (rank order (part (attr_local a))) (rank order (part (attr_local b)))));
    [apply (preorder_map (fun a => rank order (part (attr_local a))) _ preorder_nat)|].
  apply (preorder_lex (fun a b => option_cmp (fst (shown_name a)) (fst (shown_name b))));
    [apply (preorder_map (fun a => fst (shown_name a)) _ preorder_option)|].
  apply (preorder_map (fun a => snd (shown_name a)) _ preorder_text).
Qed.

Lemma preorder_attr order front : total_preorder (attr_cmp order front).
Proof.
  destruct (preorder_key order front) as [S T]. split.
  - intros x y. rewrite !attr_cmp_key. auto.
  - intros x y z. rewrite !attr_cmp_key. eauto.
Qed.

Lemma ordered_ext {A} (c1 c2 : A -> A -> comparison) l : (forall a b, c1 a b = c2 a b) -> ordered c1 l -> ordered c2 l.
Proof.
  intros E. induction l as [|x l IH]; simpl; auto. intros [H O]. split; auto.
  intros y Hy. rewrite <- E. auto.
Qed.

Lemma sort_attributes_spec order front l : let r := sort_attributes order front l in
  Permutation l r /\ ordered (key_cmp order front) r /\ stable (key_cmp order front) l r.
Proof.
  simpl. unfold sort_attributes. split; [apply sort_perm|]. split.
  - eapply ordered_ext; [apply attr_cmp_key|]. apply sort_ordered, preorder_attr.
  - intros x. pose proof (sort_stable _ (preorder_attr order front) l x) as St.
    erewrite filter_ext; [|intros y; rewrite <- attr_cmp_key; reflexivity].
    rewrite St. apply filter_ext. intros y. rewrite attr_cmp_key. reflexivity.
Qed.

Lemma sort_attributes_idem order front l :
  sort_attributes order front (sort_attributes order front l) = sort_attributes order front l.
Proof. apply sort_sorted; [apply preorder_attr|]. apply sort_ordered, preorder_attr. Qed.

Lemma key_eq_shown order front a b : key_cmp order front a b = Eq -> shown_name a = shown_name b.
Proof.
  unfold key_cmp. destruct (Nat.compare _ _); try discriminate.
  destruct (Nat.compare _ _); try discriminate.
  destruct (option_cmp _ _) eqn:E; try discriminate. apply option_cmp_eq in E.
  intros H. apply text_cmp_eq in H. destruct (shown_name a), (shown_name b); simpl in *; congruence.
Qed.

Lemma sort_attributes_independent order front l1 l2 : Permutation l1 l2 -> NoDup (map shown_name l1) ->
  sort_attributes order front l1 = sort_attributes order front l2.
Proof.
  intros Pm N. apply sort_independent; auto.
  - apply preorder_attr.
  - intros a b Ia Ib H. rewrite attr_cmp_key in H. apply key_eq_shown in H.
    clear -N Ia Ib H. induction l1 as [|x l IH]; [destruct Ia|]. simpl in N. inversion N; subst.
    destruct Ia as [<-|Ia], Ib as [<-|Ib]; auto.
    + exfalso. apply H2. rewrite H. apply in_map; auto.
    + exfalso. apply H2. rewrite <- H. apply in_map; auto.
  - eapply NoDup_map_inv; eauto.
Qed.
