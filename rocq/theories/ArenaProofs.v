(** Lemmas about allocation ids. *)
From Coq Require Import List Arith Bool Lia Relations Permutation.
From Verif Require Import DomModel DomSpec DomProofs DomProofs2 DomProofs3 DomProofs4 ArenaModel ArenaSpec.
Import ListNotations.

Lemma preorder_ind' (k : kidmap) (P : nat -> list nat -> Prop) :
  (forall n ls, Forall2 (preorder k) (k n) ls -> Forall2 P (k n) ls -> P n (n :: concat ls)) ->
  forall n l, preorder k n l -> P n l.
Proof.
  intros H. fix IH 3. intros n l [n' ls F]. apply H; [exact F|].
  induction F as [|c l' cs ls' Hc F IHF]; constructor; auto.
Qed.

(** ** Numbering *)
Fixpoint number (l : list nat) (i : nat) (f : nat -> nat) : nat -> nat :=
  match l with
  | [] => f
  | x :: r => number r (S i) (set_id f x i)
  end.

Lemma number_app l1 l2 i f : number (l1 ++ l2) i f = number l2 (i + length l1) (number l1 i f).
Proof.
  revert i f; induction l1 as [|x r IH]; intros i f; simpl.
  - rewrite Nat.add_0_r. reflexivity.
  - rewrite IH. f_equal. lia.
Qed.

Lemma number_notin l i f p : ~ In p l -> number l i f p = f p.
Proof.
  revert i f; induction l as [|x r IH]; intros i f H; simpl; auto.
  rewrite IH by (intros ?; apply H; right; auto).
  unfold set_id. destruct (Nat.eqb_spec p x); [subst; exfalso; apply H; left; auto|auto].
Qed.

Lemma number_nth l i f j p : NoDup l -> nth_error l j = Some p -> number l i f p = i + j.
Proof.
  revert i f j; induction l as [|x r IH]; intros i f j ND E; [destruct j; discriminate|].
  inversion ND; subst. destruct j as [|j]; simpl in *.
  - injection E as ->. rewrite number_notin by auto. unfold set_id. rewrite Nat.eqb_refl. lia.
  - rewrite (IH (S i) _ j) by auto. lia.
Qed.

Lemma reorder_internal_spec h k n l : Repr h k -> preorder k n l ->
  exists F, forall fuel, F <= fuel -> forall f id,
    reorder_internal fuel h f n id = Some (number l id f, id + length l - 1).
Proof.
  intros R P. revert n l P. apply preorder_ind'. intros n ls FP IH.
  assert (NN : Forall2 (fun _ l => l <> []) (k n) ls).
  { clear - FP. induction FP as [|c l cs ls Hc _ IH]; constructor; auto.
    inversion Hc. discriminate. }
  assert (Sib : forall cs ls c0 a, seg h n a (c0 :: cs) None ->
    Forall2 (fun n l => exists F, forall fuel, F <= fuel -> forall f id,
      reorder_internal fuel h f n id = Some (number l id f, id + length l - 1)) cs ls ->
    Forall2 (fun _ l => l <> []) cs ls ->
    exists F, forall fuel, F <= fuel -> forall f id,
      reorder_siblings fuel h f c0 id = Some (number (concat ls) (S id) f, id + length (concat ls))).
  { induction cs as [|c cs IHc]; intros ls' c0 a Sg Fa Fn.
    - inversion Fa; subst. exists 1. intros fuel Hf f id. destruct fuel; [lia|]. simpl.
      simpl in Sg. destruct Sg as (_&_&N&_). rewrite N. rewrite Nat.add_0_r. reflexivity.
    - inversion Fa as [|? l0 ? ls0 (F1&H1) Fa']; subst. inversion Fn as [|? ? ? ? Hl0 Fn']; subst.
      destruct Sg as (_&_&N&Sg).
      destruct (IHc ls0 c (Some c0) Sg Fa' Fn') as (F2&H2).
      exists (S (max F1 F2)). intros fuel Hf f id. destruct fuel; [lia|]. simpl.
      rewrite N. simpl headof. cbv iota. rewrite H1 by lia. rewrite H2 by lia.
      destruct l0 as [|x0 l0]; [congruence|].
      rewrite number_app, !app_length. simpl length.
      replace (S (S id + S (length l0) - 1)) with (S id + S (length l0)) by lia.
      do 2 f_equal. lia. }
  destruct (k n) as [|c cs] eqn:Ek.
  - inversion IH; subst. exists 1. intros fuel Hf f id. destruct fuel; [lia|]. simpl.
    rewrite (r_first h k R), Ek. simpl. do 2 f_equal. lia.
  - inversion IH as [|? l0 ? ls0 (F1&H1) Fa']; subst. inversion NN as [|? ? ? ? Hl0 Fn']; subst.
    pose proof (r_seg h k R n) as Sg. rewrite Ek in Sg.
    destruct (Sib cs ls0 c None Sg Fa' Fn') as (F2&H2).
    exists (S (max F1 F2)). intros fuel Hf f id. destruct fuel; [lia|]. simpl.
    rewrite (r_first h k R), Ek. simpl headof. cbv iota.
    rewrite H1 by lia. rewrite H2 by lia.
    destruct l0 as [|x0 l0]; [congruence|].
    rewrite number_app, !app_length. simpl length.
    replace (S (S id + S (length l0) - 1)) with (S id + S (length l0)) by lia.
    do 2 f_equal. lia.
Qed.

(** ** The preorder list has no duplicates *)
Lemma preorder_within k n l : preorder k n l -> forall x, In x l -> within k n x.
Proof.
  intros P. revert n l P. apply (preorder_ind' k (fun n l => forall x, In x l -> within k n x)).
  intros n ls _ IH x [<-|Hx]; [left; reflexivity|].
  assert (G : forall cs ls, Forall2 (fun n l => forall x, In x l -> within k n x) cs ls ->
              In x (concat ls) -> exists c, In c cs /\ within k c x).
  { clear. induction 1 as [|c l cs ls Hc _ IH]; simpl; [tauto|].
    intros H. apply in_app_or in H. destruct H as [H|H].
    - exists c; auto.
    - destruct (IH H) as (d&?&?). exists d; auto. }
  destruct (G _ _ IH Hx) as (c & Hc & W).
  right. destruct W as [<-|D].
  - apply t_step; exact Hc.
  - eapply t_trans; [apply t_step; exact Hc|exact D].
Qed.

Lemma within_step h k a x p : Repr h k -> within k a x -> In x (k p) -> a = x \/ within k a p.
Proof.
  intros R [->|D] Hp; [left; auto|right].
  apply clos_trans_tn1 in D. destruct D as [y H|y z H D].
  - left. exact (repr_unique h k a p y R H Hp).
  - right. assert (y = p) by exact (repr_unique h k y p z R H Hp). subst y.
    apply clos_tn1_trans. exact D.
Qed.

Lemma within_linear h k a b x : Repr h k -> within k a x -> within k b x ->
  within k a b \/ within k b a.
Proof.
  intros R Wa [<-|D]; [left; auto|].
  revert Wa. apply clos_trans_tn1 in D. induction D as [y H|y z H D IH]; intros Wa.
  - destruct (within_step h k a y b R Wa H) as [->|W]; [right|left; auto].
    right; apply t_step; exact H.
  - destruct (within_step h k a z y R Wa H) as [->|W]; auto.
    right. right. apply clos_tn1_trans. exact (Relation_Operators.tn1_trans _ _ _ _ _ H D).
Qed.

Lemma siblings_disjoint h k p a b x : Repr h k ->
  In a (k p) -> In b (k p) -> a <> b -> within k a x -> within k b x -> False.
Proof.
  intros R Ha Hb Hab Wa Wb.
  assert (G : forall a b, In a (k p) -> In b (k p) -> a <> b -> within k a b -> False).
  { intros c d Hc Hd Hcd W. destruct (within_step h k c d p R W Hd) as [?|W']; [auto|].
    apply (r_acyclic h k R c). destruct W' as [->|D].
    - apply t_step; exact Hc.
    - eapply t_trans; [exact D|apply t_step; exact Hc]. }
  destruct (within_linear h k a b x R Wa Wb) as [W|W].
  - apply (G a b); auto.
  - apply (G b a); auto.
Qed.

Lemma nodup_app_intro (l1 l2 : list nat) :
  NoDup l1 -> NoDup l2 -> (forall x, In x l1 -> In x l2 -> False) -> NoDup (l1 ++ l2).
Proof.
  induction l1 as [|a l1 IH]; simpl; intros N1 N2 D; auto.
  inversion N1; subst. constructor.
  - intros H. apply in_app_or in H. destruct H; [auto|]. eapply D; eauto.
  - apply IH; auto. intros x Hx. apply D. right; auto.
Qed.

Lemma preorder_nodup h k n l : Repr h k -> preorder k n l -> NoDup l.
Proof.
  intros R P. revert n l P. apply preorder_ind'. intros n ls FP IH. constructor.
  - intros H.
    assert (G : forall cs ls, Forall2 (preorder k) cs ls -> In n (concat ls) ->
              exists c, In c cs /\ within k c n).
    { clear. induction 1 as [|c l cs ls Hc _ IH]; simpl; [tauto|].
      intros H. apply in_app_or in H. destruct H as [H|H].
      - exists c; split; auto. eapply preorder_within; eauto.
      - destruct (IH H) as (d&?&?). exists d; auto. }
    destruct (G _ _ FP H) as (c & Hc & W). apply (r_acyclic h k R n).
    destruct W as [->|D].
    + apply t_step; exact Hc.
    + eapply t_trans; [apply t_step; exact Hc|exact D].
  - assert (G : forall cs ls, incl cs (k n) -> NoDup cs -> Forall2 (preorder k) cs ls ->
                Forall2 (fun _ l => NoDup l) cs ls -> NoDup (concat ls)).
    { intros cs ls' Hi Hn FP' FN. revert Hi Hn FN.
      induction FP' as [|c l cs ls' Hc FP' IH']; intros Hi Hn FN; simpl; [constructor|].
      inversion Hn; subst. inversion FN; subst.
      apply nodup_app_intro; auto.
      - apply IH'; auto. intros x Hx; apply Hi; right; auto.
      - intros x Hx Hx'.
        assert (G2 : forall cs ls, Forall2 (preorder k) cs ls -> In x (concat ls) ->
              exists c, In c cs /\ within k c x).
        { clear. induction 1 as [|c l cs ls Hc _ IH]; simpl; [tauto|].
          intros H. apply in_app_or in H. destruct H as [H|H].
          - exists c; split; auto. eapply preorder_within; eauto.
          - destruct (IH H) as (d&?&?). exists d; auto. }
        destruct (G2 _ _ FP' Hx') as (d & Hd & W).
        apply (siblings_disjoint h k n c d x R); auto.
        + apply Hi; left; auto.
        + apply Hi; right; auto.
        + intros ->; contradiction.
        + eapply preorder_within; eauto. }
    eapply G; eauto. + apply incl_refl. + apply R.
Qed.

(** ** Reset and rest *)
Lemma reset_ids_in table f len p : In p table -> reset_ids f table len p = len.
Proof.
  revert f; induction table as [|x r IH]; intros f; simpl; [tauto|].
  intros H. destruct (in_dec Nat.eq_dec p r) as [Hr|Hr]; [apply IH; auto|].
  destruct H as [->|]; [|contradiction].
  assert (G : forall f, reset_ids f r len p = f p).
  { clear - Hr. induction r as [|y r IH]; intros f; simpl; auto.
    rewrite IH by (intros ?; apply Hr; right; auto). unfold set_id.
    destruct (Nat.eqb_spec p y); auto. subst. exfalso; apply Hr; left; auto. }
  rewrite G. unfold set_id. rewrite Nat.eqb_refl. reflexivity.
Qed.

Lemma renumber_rest_spec len : forall table f index,
  NoDup table ->
  renumber_rest f table len index = number (filter (fun p => f p =? len) table) index f.
Proof.
  induction table as [|x r IH]; intros f index ND; simpl; auto.
  inversion ND; subst. destruct (f x =? len) eqn:E; simpl.
  - rewrite IH by auto. f_equal. apply filter_ext_in. intros y Hy. unfold set_id.
    destruct (Nat.eqb_spec y x); [subst; contradiction|reflexivity].
  - apply IH; auto.
Qed.

(** A list whose keys are its positions is what sorting by key produces. *)
Lemma sorted_unique (f : nat -> nat) : forall l1 l2,
  Permutation l1 l2 -> NoDup l1 -> (forall x y, In x l1 -> In y l1 -> f x = f y -> x = y) ->
  sorted (fun x y => Nat.compare (f x) (f y)) l1 ->
  sorted (fun x y => Nat.compare (f x) (f y)) l2 -> l1 = l2.
Proof.
  induction l1 as [|x l1 IH]; intros l2 P ND Inj S1 S2.
  - apply Permutation_nil in P. auto.
  - destruct l2 as [|y l2]; [apply Permutation_sym, Permutation_nil in P; discriminate|].
    simpl in S1, S2. destruct S1 as (A1&A2), S2 as (B1&B2).
    assert (Hy : In y (x :: l1)) by (eapply Permutation_in; [apply Permutation_sym; exact P|left; auto]).
    assert (Hx : In x (y :: l2)) by (eapply Permutation_in; [exact P|left; auto]).
    assert (x = y).
    { destruct Hy as [->|Hy]; auto. destruct Hx as [->|Hx]; auto.
      apply Inj; [left; auto|right; auto|].
      specialize (A1 y Hy). specialize (B1 x Hx). rewrite Nat.compare_le_iff in *. lia. }
    subst y. f_equal. inversion ND; subst. apply IH; auto.
    + eapply Permutation_cons_inv; eauto.
    + intros a b Ha Hb. apply Inj; right; auto.
Qed.

Lemma positions_sorted (f : nat -> nat) l :
  (forall i p, nth_error l i = Some p -> f p = i) ->
  sorted (fun x y => Nat.compare (f x) (f y)) l.
Proof.
  intros H. assert (G : forall l b, (forall i p, nth_error l i = Some p -> f p = b + i) ->
    sorted (fun x y => Nat.compare (f x) (f y)) l).
  { clear. induction l as [|x l IH]; intros b H; simpl; auto. split.
    - intros y Hy. apply In_nth_error in Hy. destruct Hy as [j Hj].
      rewrite (H 0 x eq_refl), (H (S j) y Hj). rewrite Nat.compare_le_iff. lia.
    - apply (IH (S b)). intros i p Hp. rewrite (H (S i) p Hp). lia. }
  apply (G l 0). simpl. exact H.
Qed.

Lemma compare_preorder (f : nat -> nat) : total_preorder (fun x y => Nat.compare (f x) (f y)).
Proof.
  constructor; intros.
  - rewrite Nat.compare_gt_iff in *. rewrite Nat.compare_lt_iff. lia.
  - rewrite Nat.compare_le_iff in *. lia.
Qed.

Definition memb (p : nat) (l : list nat) : bool := existsb (Nat.eqb p) l.
Lemma memb_true p l : memb p l = true <-> In p l.
Proof.
  unfold memb. rewrite existsb_exists. split.
  - intros (x & Hx & E). apply Nat.eqb_eq in E. subst; auto.
  - intros H. exists p. rewrite Nat.eqb_refl. auto.
Qed.
Lemma memb_false p l : memb p l = false <-> ~ In p l.
Proof. rewrite <- memb_true. destruct (memb p l); split; congruence. Qed.

Lemma perm_split (l t : list nat) : NoDup l -> NoDup t -> incl l t ->
  Permutation (l ++ filter (fun p => negb (memb p l)) t) t.
Proof.
  intros Nl Nt I. apply NoDup_Permutation; auto.
  - apply nodup_app_intro; auto using NoDup_filter.
    intros x H1 H2. apply filter_In in H2. rewrite negb_true_iff, memb_false in H2. tauto.
  - intros x. rewrite in_app_iff, filter_In, negb_true_iff, memb_false.
    split; [intros [H|[H _]]; auto|].
    intros H. destruct (in_dec Nat.eq_dec x l); auto.
Qed.

Lemma reorder_spec h k a root l : Repr h k -> IdsOk a -> preorder k root l -> incl l (nodes a) ->
  exists F, forall fuel, F <= fuel -> exists a',
    reorder fuel h a root = Some (a', length l) /\
    nodes a' = nodes a /\
    indices a' = l ++ filter (fun p => negb (memb p l)) (indices a) /\
    IdsOk a'.
Proof.
  intros R OK P I.
  destruct (reorder_internal_spec h k root l R P) as (F & HF).
  exists F. intros fuel Hf. unfold reorder. rewrite HF by exact Hf.
  assert (Hl : l <> []) by (inversion P; discriminate).
  assert (Ll : 0 + length l - 1 + 1 = length l) by (destruct l; [congruence|simpl; lia]).
  rewrite Ll.
  set (len := length (nodes a)).
  set (f0 := reset_ids (ids a) (indices a) len).
  set (f1 := number l 0 f0).
  pose proof (preorder_nodup h k root l R P) as Nl.
  assert (Nt : NoDup (indices a)).
  { eapply Permutation_NoDup; [apply Permutation_sym, OK|apply OK]. }
  assert (It : incl l (indices a)).
  { intros x Hx. eapply Permutation_in; [apply Permutation_sym, OK|]. apply I; auto. }
  assert (Hlen : length l <= len).
  { unfold len. apply NoDup_incl_length; auto. }
  set (rest := filter (fun p => negb (memb p l)) (indices a)).
  assert (Er : filter (fun p => f1 p =? len) (indices a) = rest).
  { apply filter_ext_in. intros p Hp. unfold f1.
    destruct (memb p l) eqn:M; simpl.
    - apply memb_true in M. destruct (In_nth_error _ _ M) as [j Hj].
      rewrite (number_nth l 0 f0 j p Nl Hj). apply Nat.eqb_neq.
      assert (j < length l) by (apply nth_error_Some; congruence). lia.
    - apply memb_false in M. rewrite number_notin by auto. unfold f0.
      rewrite reset_ids_in by auto. apply Nat.eqb_refl. }
  rewrite renumber_rest_spec by exact Nt. rewrite Er.
  set (f2 := number rest (length l) f1).
  assert (Ef2 : f2 = number (l ++ rest) 0 f0).
  { unfold f2, f1. rewrite number_app. reflexivity. }
  assert (Pm : Permutation (l ++ rest) (indices a)) by (apply perm_split; auto).
  assert (Nlr : NoDup (l ++ rest)) by (eapply Permutation_NoDup; [apply Permutation_sym; exact Pm|auto]).
  assert (Pos : forall i p, nth_error (l ++ rest) i = Some p -> f2 p = i).
  { intros i p Hi. rewrite Ef2. rewrite (number_nth (l ++ rest) 0 f0 i p Nlr Hi). reflexivity. }
  assert (Es : sort_by (fun x y => f2 x ?= f2 y) (indices a) = l ++ rest).
  { symmetry. apply sorted_unique with (f := f2).
    - eapply Permutation_trans; [exact Pm|]. apply Permutation_sym, sort_by_perm.
    - exact Nlr.
    - intros x y Hx Hy E. destruct (In_nth_error _ _ Hx) as [i Hi].
      destruct (In_nth_error _ _ Hy) as [j Hj].
      rewrite (Pos i x Hi), (Pos j y Hj) in E. congruence.
    - apply positions_sorted; exact Pos.
    - apply sort_by_sorted, compare_preorder. }
  eexists. split; [reflexivity|]. simpl. rewrite Es. split; [reflexivity|]. split; [reflexivity|].
  constructor; simpl.
  - eapply Permutation_trans; [exact Pm|apply OK].
  - apply OK.
  - exact Pos.
Qed.

Lemma empty_ok : IdsOk empty_arena.
Proof. constructor; simpl; [constructor|constructor|intros [|i]; discriminate]. Qed.

Lemma alloc_ok a : storage_ok a -> IdsOk a ->
  storage_ok (fst (alloc_node a)) /\ IdsOk (fst (alloc_node a)) /\
  get (fst (alloc_node a)) (length (indices a)) = Found (snd (alloc_node a)) /\
  (forall p, In p (nodes a) -> ids (fst (alloc_node a)) p = ids a p) /\
  ~ In (snd (alloc_node a)) (nodes a).
Proof.
  intros St OK. unfold alloc_node; simpl.
  assert (Nf : ~ In (length (nodes a)) (nodes a)).
  { intros H. unfold storage_ok in St. rewrite St in H.
    rewrite seq_length, in_seq in H. lia. }
  assert (Nfi : ~ In (length (nodes a)) (indices a)).
  { intros H. apply Nf. eapply Permutation_in; [apply OK|exact H]. }
  split; [|split; [|split; [|split; [|exact Nf]]]].
  - unfold storage_ok in *; simpl. rewrite app_length, seq_app. simpl. f_equal. exact St.
  - constructor; simpl.
    + apply Permutation_app_tail, OK.
    + apply nodup_app_intro; [apply OK|repeat constructor; simpl; tauto|].
      intros x Hx [<-|[]]. contradiction.
    + intros i p Hi. unfold set_id.
      destruct (Nat.lt_ge_cases i (length (indices a))) as [Hlt|Hge].
      * rewrite nth_error_app1 in Hi by auto.
        destruct (Nat.eqb_spec p (length (nodes a))) as [->|].
        -- exfalso. apply Nfi. eapply nth_error_In; eauto.
        -- apply OK; auto.
      * rewrite nth_error_app2 in Hi by auto.
        destruct (i - length (indices a)) as [|[|j]] eqn:Ej; simpl in Hi; try discriminate.
        injection Hi as <-. rewrite Nat.eqb_refl. lia.
  - unfold get; simpl. rewrite nth_error_app2, Nat.sub_diag by auto. simpl.
    unfold set_id. rewrite Nat.eqb_refl, Nat.eqb_refl. reflexivity.
  - intros p Hp. unfold set_id. destruct (Nat.eqb_spec p (length (nodes a))); auto. subst; contradiction.
Qed.

Lemma get_ok a : IdsOk a ->
  (forall p, In p (nodes a) -> get a (ids a p) = Found p) /\
  (forall i, i < length (nodes a) -> exists p, get a i = Found p /\ ids a p = i /\ In p (nodes a)) /\
  (forall i, length (nodes a) <= i -> get a i = Missing) /\
  (forall p q, In p (nodes a) -> In q (nodes a) -> ids a p = ids a q -> p = q).
Proof.
  intros OK.
  assert (H1 : forall p, In p (nodes a) -> nth_error (indices a) (ids a p) = Some p).
  { intros p Hp. apply (Permutation_in _ (Permutation_sym (ok_perm a OK))) in Hp.
    destruct (In_nth_error _ _ Hp) as [i Hi]. rewrite (ok_ids a OK i p Hi). exact Hi. }
  assert (Ln : length (indices a) = length (nodes a)) by (apply Permutation_length, OK).
  repeat split.
  - intros p Hp. unfold get. rewrite (H1 p Hp), Nat.eqb_refl. reflexivity.
  - intros i Hi. destruct (nth_error (indices a) i) as [p|] eqn:E.
    + exists p. unfold get. rewrite E, (ok_ids a OK i p E), Nat.eqb_refl. repeat split.
      eapply Permutation_in; [apply OK|]. eapply nth_error_In; eauto.
    + apply nth_error_None in E. lia.
  - intros i Hi. unfold get. destruct (nth_error (indices a) i) eqn:E; auto.
    assert (i < length (indices a)) by (apply nth_error_Some; congruence). lia.
  - intros p q Hp Hq E. pose proof (H1 p Hp). pose proof (H1 q Hq). congruence.
Qed.

Lemma history_ok fuel a ops a' : history fuel a ops a' ->
  storage_ok a -> IdsOk a -> storage_ok a' /\ IdsOk a'.
Proof.
  induction 1 as [a|a ops a' H IH|a h k root l a1 n ops a' R P I E H IH]; intros St OK; auto.
  - destruct (alloc_ok a St OK) as (S1&O1&_). auto.
  - destruct (reorder_spec h k a root l R OK P I) as (F & HF).
    destruct (HF (max F fuel)) as (a2 & E2 & N2 & _ & O2); [lia|].
    (* reordering with more fuel gives the same answer *)
    assert (Mono : forall n1 h f x id r, reorder_internal n1 h f x id = Some r ->
               forall n2, n1 <= n2 -> reorder_internal n2 h f x id = Some r).
    { clear. intros n1.
      cut (forall h f x id r, (reorder_internal n1 h f x id = Some r ->
               forall n2, n1 <= n2 -> reorder_internal n2 h f x id = Some r) /\
             (reorder_siblings n1 h f x id = Some r ->
               forall n2, n1 <= n2 -> reorder_siblings n2 h f x id = Some r)).
      { intros G h f x id r. apply G. }
      induction n1 as [|n1 IH]; intros h f x id r; split; intros E n2 Hn; try discriminate E;
        (destruct n2 as [|n2]; [lia|]); simpl in *.
      - destruct (first (h x)); auto.
        destruct (reorder_internal n1 h (set_id f x id) n (S id)) as [[f1 id1]|] eqn:E1; [|discriminate].
        destruct (IH h (set_id f x id) n (S id) (f1, id1)) as [G _]. rewrite (G E1 n2) by lia.
        destruct (IH h f1 n id1 r) as [_ G2]. apply G2; auto. lia.
      - destruct (next (h x)); auto.
        destruct (reorder_internal n1 h f n (S id)) as [[f1 id1]|] eqn:E1; [|discriminate].
        destruct (IH h f n (S id) (f1, id1)) as [G _]. rewrite (G E1 n2) by lia.
        destruct (IH h f1 n id1 r) as [_ G2]. apply G2; auto. lia. }
    assert (a2 = a1).
    { unfold reorder in E, E2.
      destruct (reorder_internal fuel h _ root 0) as [[f1 id1]|] eqn:E1; [|discriminate].
      rewrite (Mono _ _ _ _ _ _ E1 (max F fuel)) in E2 by lia. congruence. }
    subst a2. apply IH; auto. unfold storage_ok. rewrite N2. exact St.
Qed.

(** ** Rebuilding the table *)
Lemma set_nth_ok l i v : i < length l -> exists l', set_nth l i v = Some l' /\
  length l' = length l /\ nth_error l' i = Some v /\
  forall j, j <> i -> nth_error l' j = nth_error l j.
Proof.
  revert i; induction l as [|x r IH]; intros i Hi; simpl in *; [lia|].
  destruct i as [|i].
  - exists (v :: r). repeat split; auto. intros [|j] Hj; [congruence|reflexivity].
  - destruct (IH i) as (l' & E & L & N & O); [lia|]. rewrite E. exists (x :: l'). simpl.
    repeat split; auto. intros [|j] Hj; auto. apply O. lia.
Qed.

Lemma new_loop_ok f len : forall ns table,
  0 < len -> (ns <> [] \/ table <> []) -> (table = [] \/ length table = len) ->
  (forall p, In p ns -> f p < len) ->
  (forall p q, In p ns -> In q ns -> f p = f q -> p = q) ->
  exists t, new_loop f len ns table = Some t /\ length t = len /\
    (forall p, In p ns -> nth_error t (f p) = Some p) /\
    (forall i, (forall p, In p ns -> f p <> i) -> table <> [] -> nth_error t i = nth_error table i).
Proof.
  intros ns; induction ns as [|p ns IH]; intros table Hl Hne Ht Hr Inj; simpl.
  - destruct Hne as [?|Hne]; [congruence|]. exists table.
    destruct Ht as [->|Ht]; [congruence|]. repeat split; auto. intros p [].
  - set (tb := match table with [] => repeat p len | _ => table end).
    assert (Lt : length tb = len).
    { unfold tb. destruct Ht as [->|Ht]; [apply repeat_length|]. destruct table; auto.
      simpl in Ht. lia. }
    destruct (set_nth_ok tb (f p) p) as (t1 & E1 & L1 & N1 & O1).
    { rewrite Lt. apply Hr; left; auto. }
    rewrite E1.
    assert (T1 : t1 <> []) by (intros ->; simpl in L1; lia).
    destruct (IH t1) as (t & E & L & N & O); auto.
    { right. lia. }
    { intros q Hq. apply Hr; right; auto. }
    { intros q r Hq Hr'. apply Inj; right; auto. }
    exists t. split; [exact E|]. split; [exact L|]. split.
    + intros q [<-|Hq]; [|apply N; auto].
      destruct (in_dec Nat.eq_dec p ns) as [Hp|Hp]; [apply N; auto|].
      rewrite O; auto. intros q Hq Eq. apply Hp.
      rewrite (Inj p q); auto; [left; auto|right; auto].
    + intros i Hi Htb. rewrite O; auto. rewrite O1 by (intros ->; apply (Hi p); auto).
      unfold tb. destruct table; [congruence|reflexivity].
Qed.

Lemma nth_ext_all (l1 l2 : list nat) : (forall i, nth_error l1 i = nth_error l2 i) -> l1 = l2.
Proof.
  revert l2; induction l1 as [|x l1 IH]; intros [|y l2] H; auto.
  - specialize (H 0); discriminate.
  - specialize (H 0); discriminate.
  - pose proof (H 0) as H0. injection H0 as ->. f_equal. apply IH. intros i. apply (H (S i)).
Qed.

Lemma new_allocator_ok a : IdsOk a -> new_allocator (nodes a) (ids a) = Some a.
Proof.
  intros OK. destruct (get_ok a OK) as (G1&G2&G3&G4).
  assert (Ln : length (indices a) = length (nodes a)) by (apply Permutation_length, OK).
  unfold new_allocator. destruct (nodes a) as [|p ns] eqn:En.
  - destruct a as [n i t]; simpl in *. subst n. destruct t; [reflexivity|discriminate].
  - destruct (new_loop_ok (ids a) (length (p :: ns)) (p :: ns) []) as (t & E & L & N & _).
    + simpl; lia.
    + left; discriminate.
    + left; reflexivity.
    + intros q Hq. rewrite <- Ln. apply nth_error_Some.
      specialize (G1 q Hq). unfold get in G1.
      destruct (nth_error (indices a) (ids a q)); discriminate.
    + exact G4.
    + rewrite E. destruct a as [n i tb]; simpl in *. subst n. do 2 f_equal.
      apply nth_ext_all. intros j. destruct (nth_error tb j) as [q|] eqn:Ej.
      * pose proof (ok_ids _ OK j q Ej) as Ej'. simpl in Ej'.
        rewrite <- Ej'. apply N.
        exact (Permutation_in q (ok_perm _ OK) (nth_error_In _ _ Ej)).
      * apply nth_error_None in Ej. apply nth_error_None. lia.
Qed.
