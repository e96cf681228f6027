From Coq Require Import String List NArith Bool Arith Lia.
From Verif Require Import Chars InfoModel.
Import ListNotations.

Lemma has_in t l : has t l = true <-> In t l.
Proof.
  unfold has. rewrite existsb_exists. split.
  - intros (x & H & E). apply text_eqb_spec in E. subst. exact H.
  - intros H. exists t. split; auto. apply text_eqb_refl.
Qed.
Lemma lookup_in l k v : NoDup (map fst l) -> (lookup k l = Some v <-> In (k, v) l).
Proof.
  induction l as [|[a b] l IH]; cbn; intros N; [split; [discriminate|intros []]|].
  inversion N as [|x xs N1 N2]; subst. destruct (text_eqb a k) eqn:E.
  - apply text_eqb_spec in E. subst. split.
    + intros H. injection H as ->. auto.
    + intros [H|H]; [congruence|]. exfalso. apply N1. apply (in_map fst) in H. exact H.
  - rewrite IH by auto. split; auto. intros [H|H]; auto. injection H as -> ->. rewrite text_eqb_refl in E. discriminate.
Qed.
Lemma nodup_filter {A} (f : A -> bool) (g : A -> text) l : NoDup (map g l) -> NoDup (map g (filter f l)).
Proof.
  induction l as [|a l IH]; cbn; intros N; auto. inversion N as [|x xs N1 N2]; subst.
  destruct (f a); cbn; auto. constructor; auto. intros H. apply N1. apply in_map_iff in H as (y & E & H).
  apply filter_In in H as [H _]. rewrite <- E. apply in_map. exact H.
Qed.

Section Info.
  Variable categories : text -> N.
  Variable elements : text -> list text.
  Variable groups : text -> N.
  Variable attributes : text -> list text.
  Variables all_categories all_groups : N.
  Notation turn := (turn categories elements groups attributes).
  Notation turns := (turns categories elements groups attributes).
  Notation new_info := (new_info categories elements groups attributes all_categories all_groups).

  Definition plain (e : element) : Prop := NoDup (map fst (el_attrs e)).

  Lemma turns_lists l : Forall plain l -> forall c, NoDup (map fst (c_values c)) ->
    (forall x, In x (c_elements (turns false c l)) <-> In x (c_elements c) /\ Forall (fun e => In x (elements (el_name e))) l) /\
    (forall x, In x (c_attributes (turns false c l)) <-> In x (c_attributes c) /\ Forall (fun e => In x (attributes (el_name e))) l) /\
    (forall x, In x (c_values (turns false c l)) <-> In x (c_values c) /\ Forall (fun e => In x (el_attrs e)) l).
  Proof.
    induction 1 as [|e l P _ IH]; intros c N.
    { cbn. split; [|split]; intros x; split; try tauto; intros H; split; auto. }
    change (turns false c (e :: l)) with (turns false (turn false c e) l).
    destruct (IH (turn false c e)) as (H1 & H2 & H3).
    { cbn. apply nodup_filter. exact P. }
    split; [|split]; intros x.
    - rewrite H1. cbn [c_elements turn]. rewrite filter_In, Forall_cons_iff. cbn [orb]. rewrite has_in. tauto.
    - rewrite H2. cbn [c_attributes turn]. rewrite filter_In, Forall_cons_iff. cbn [orb]. rewrite has_in. tauto.
    - rewrite H3. cbn [c_values turn]. rewrite filter_In, Forall_cons_iff. cbn [orb].
      assert (E : match lookup (fst x) (c_values c) with Some v => text_eqb v (snd x) | None => false end = true <-> In x (c_values c)).
      { destruct x as [k v]. cbn. rewrite <- lookup_in by auto. destruct (lookup k (c_values c)) as [w|].
        - rewrite text_eqb_spec. split; congruence.
        - split; discriminate. }
      rewrite E. tauto.
  Qed.
  Lemma filter_true {A} (l : list A) : filter (fun _ => true) l = l.
  Proof. induction l; cbn; congruence. Qed.
  Lemma info_lists e l : Forall plain (e :: l) ->
    let c := turns true (start all_categories all_groups) (e :: l) in
    (forall x, In x (c_elements c) <-> Forall (fun e => In x (elements (el_name e))) (e :: l)) /\
    (forall x, In x (c_attributes c) <-> Forall (fun e => In x (attributes (el_name e))) (e :: l)) /\
    (forall x, In x (c_values c) <-> Forall (fun e => In x (el_attrs e)) (e :: l)).
  Proof.
    intros F. inversion F as [|x xs P F']; subst. cbv zeta.
    change (turns true ?c (e :: l)) with (turns false (turn true c e) l).
    destruct (turns_lists l F' (turn true (start all_categories all_groups) e)) as (H1 & H2 & H3).
    { cbn. rewrite filter_true. exact P. }
    cbn [turn c_elements c_attributes c_values orb] in *. rewrite !filter_true in *.
    split; [|split]; intros x; rewrite Forall_cons_iff; auto.
  Qed.

  Lemma all_elements_some nodes l : all_elements nodes = Some l <-> nodes = map Some l.
  Proof.
    revert l. induction nodes as [|[e|] nodes IH]; intros l; cbn.
    - split; [intros H; injection H as <-; reflexivity|]. destruct l; [reflexivity|discriminate].
    - destruct (all_elements nodes) as [r|] eqn:E; cbn.
      + split; intros H.
        * injection H as <-. cbn. f_equal. apply IH. reflexivity.
        * destruct l as [|e' l]; [discriminate|]. injection H as -> H. apply IH in H. congruence.
      + split; [discriminate|]. intros H. destruct l as [|e' l]; [discriminate|]. injection H as -> H.
        apply IH in H. discriminate.
    - split; [discriminate|]. destruct l; discriminate.
  Qed.
  Lemma all_elements_none nodes : all_elements nodes = None <-> In None nodes.
  Proof.
    induction nodes as [|[e|] nodes IH]; cbn.
    - split; [discriminate|intros []].
    - destruct (all_elements nodes); cbn; split; try discriminate; intros H.
      + destruct H as [H|H]; [discriminate|]. apply IH in H. discriminate.
      + right. apply IH. reflexivity.
      + reflexivity.
    - tauto.
  Qed.

  (** The set of names. *)
  Lemma insert_in n m l : In m (insert n l) <-> m = n \/ In m l.
  Proof.
    unfold insert. destruct (has n l) eqn:H.
    - apply has_in in H. split; auto. intros [->|]; auto.
    - rewrite in_app_iff. cbn. split; [intros [|[<-|[]]]; auto|intros [->|]; auto].
  Qed.
  Lemma insert_nodup n l : NoDup l -> NoDup (insert n l).
  Proof.
    intros N. unfold insert. destruct (has n l) eqn:H; auto. apply NoDup_rev in N. rewrite <- (rev_involutive (l ++ [n])).
    apply NoDup_rev. rewrite rev_app_distr. cbn. constructor; auto. rewrite <- in_rev. intros I. apply has_in in I. congruence.
  Qed.
  Lemma turns_ids l : forall first c, NoDup (c_ids c) ->
    NoDup (c_ids (turns first c l)) /\
    forall n, In n (c_ids (turns first c l)) <-> In n (c_ids c) \/ In n (map el_name l).
  Proof.
    induction l as [|e l IH]; intros first c N; cbn [InfoModel.turns map]; [split; auto; intros; cbn; tauto|].
    destruct (IH false (turn first c e)) as [H1 H2]; [apply insert_nodup; auto|]. split; auto.
    intros n. rewrite H2. cbn [turn c_ids]. rewrite insert_in. cbn. split; [intros [[->|]|]; auto|intros [|[<-|]]; auto].
  Qed.
  Lemma single_iff (l : list text) n : NoDup l -> (match l with [m] => Some m | _ => None end = Some n <-> l <> [] /\ forall m, In m l -> m = n).
  Proof.
    intros N. destruct l as [|a [|b l]].
    - split; [discriminate|]. intros [[] _]. reflexivity.
    - split.
      + intros H. injection H as ->. split; [discriminate|]. intros m [<-|[]]. reflexivity.
      + intros [_ H]. f_equal. apply H. left. reflexivity.
    - split; [discriminate|]. intros [_ H]. exfalso. inversion N as [|x xs N1 _]; subst. apply N1.
      left. rewrite (H a), (H b); cbn; auto.
  Qed.

  Theorem info_common e l i : Forall plain (e :: l) -> new_info (map Some (e :: l)) = Some i ->
    (forall x, In x (permitted_elements i) <-> Forall (fun e => In x (elements (el_name e))) (e :: l)) /\
    (forall x, In x (expected_attributes i) <-> Forall (fun e => In x (attributes (el_name e))) (e :: l)) /\
    (forall x, In x (values i) <-> Forall (fun e => In x (el_attrs e)) (e :: l)) /\
    (forall n, element_id i = Some n <-> Forall (fun e => el_name e = n) (e :: l)).
  Proof.
    intros F. unfold InfoModel.new_info.
    replace (all_elements (map Some (e :: l))) with (Some (e :: l)) by (symmetry; apply all_elements_some; reflexivity).
    intros H. injection H as <-. cbn [permitted_elements expected_attributes values element_id].
    destruct (info_lists e l F) as (H1 & H2 & H3). split; [exact H1|]. split; [exact H2|]. split; [exact H3|].
    intros n. destruct (turns_ids (e :: l) true (start all_categories all_groups) (NoDup_nil _)) as [N I].
    rewrite (single_iff _ n) by exact N. split.
    - intros [_ H]. apply Forall_forall. intros x Hx. apply H. apply I. right. apply in_map. exact Hx.
    - intros A. split.
      + intros E. assert (X : In (el_name e) []); [|destruct X]. rewrite <- E. apply I. right. left. reflexivity.
      + intros m Hm. apply I in Hm as [[]|Hm]. apply in_map_iff in Hm as (x & <- & Hx).
        rewrite Forall_forall in A. auto.
  Qed.
  Theorem info_none nodes : new_info nodes = None <-> In None nodes.
  Proof.
    rewrite <- all_elements_none. unfold InfoModel.new_info. destruct (all_elements nodes); split; congruence.
  Qed.

  (** The flags. *)
  Lemma turns_categories l : forall first c, N.lor (c_categories c) all_categories = c_categories c ->
    N.lor (c_categories (turns first c l)) all_categories = c_categories (turns first c l).
  Proof.
    induction l as [|e l IH]; intros first c H; auto. cbn [InfoModel.turns]. apply IH. cbn [turn c_categories].
    rewrite <- N.lor_assoc, (N.lor_comm _ all_categories), N.lor_assoc, H. reflexivity.
  Qed.
  Theorem info_categories e l i : (forall n, N.lor all_categories (categories n) = all_categories) ->
    new_info (map Some (e :: l)) = Some i -> permitted_categories i = all_categories.
  Proof.
    intros A. unfold InfoModel.new_info.
    replace (all_elements (map Some (e :: l))) with (Some (e :: l)) by (symmetry; apply all_elements_some; reflexivity).
    intros H. injection H as <-. cbn [permitted_categories].
    destruct (turns_ids (e :: l) true (start all_categories all_groups) (NoDup_nil _)) as [_ I].
    destruct (c_ids _) eqn:E.
    - exfalso. assert (X : In (el_name e) []); [|destruct X]. apply I. right. left. reflexivity.
    - clear -A. assert (G : forall l first c, c_categories c = all_categories -> c_categories (turns first c l) = all_categories).
      { induction l0 as [|x l0 IH]; intros first c H; auto. apply IH. cbn. rewrite H. apply A. }
      apply (G (e :: l)). reflexivity.
  Qed.
End Info.
