From Coq Require Import List Arith Bool Lia Permutation.
From Verif Require Import SelectModel SelectSpec.
Import ListNotations.

(** ** The id table *)
Definition sound (t : list nat) : Prop := NoDup t /\ Forall (fun p => p < length t) t.

Lemma sound_fresh t n : sound t -> sound (t ++ fresh t n).
Proof.
  intros [N F]. unfold fresh. rewrite Forall_forall in F. split.
  - assert (D : forall x, In x t -> ~ In x (seq (length t) n)).
    { intros x Hx Hs. apply in_seq in Hs. specialize (F x Hx). lia. }
    clear F. generalize (seq_NoDup n (length t)). generalize dependent (seq (length t) n).
    intros s D S. induction N as [|x t Hx N IH]; cbn; auto. constructor.
    + rewrite in_app_iff. intros [H|H]; auto. apply (D x); cbn; auto.
    + apply IH. intros y Hy. apply D. cbn; auto.
  - apply Forall_forall. intros x. rewrite in_app_iff, app_length, seq_length. intros [H|H].
    + specialize (F x H). lia.
    + apply in_seq in H. lia.
Qed.

Lemma mem_in p l : mem p l = true <-> In p l.
Proof.
  unfold mem. rewrite existsb_exists. split.
  - intros (x & H & E). apply Nat.eqb_eq in E. subst. exact H.
  - intros H. exists p. split; auto. apply Nat.eqb_refl.
Qed.
Lemma reorder_perm tree t : NoDup tree -> NoDup t -> incl tree t -> Permutation (reorder tree t) t.
Proof.
  intros N1 N2 I. unfold reorder. apply NoDup_Permutation; auto.
  - assert (D : forall x, In x tree -> ~ In x (filter (fun p => negb (mem p tree)) t)).
    { intros x Hx H. apply filter_In in H as [_ H]. apply mem_in in Hx. rewrite Hx in H. discriminate. }
    assert (N3 : NoDup (filter (fun p => negb (mem p tree)) t)) by (apply NoDup_filter; auto).
    clear I. revert D N3. generalize (filter (fun p => negb (mem p tree)) t). intros s D N3.
    induction N1 as [|x tree Hx N1 IH]; cbn; auto. constructor.
    + rewrite in_app_iff. intros [H|H]; auto. apply (D x); cbn; auto.
    + apply IH. intros y Hy. apply D. cbn; auto.
  - intros x. rewrite in_app_iff, filter_In. split.
    + intros [H|[H _]]; auto.
    + intros H. destruct (mem x tree) eqn:M; [left; apply mem_in; auto|right; auto].
Qed.
Lemma sound_reorder tree t : NoDup tree -> incl tree t -> sound t -> sound (reorder tree t).
Proof.
  intros N I [N2 F]. assert (P := reorder_perm tree t N N2 I). split.
  - eapply Permutation_NoDup; [apply Permutation_sym; exact P|auto].
  - rewrite (Permutation_length P). eapply Permutation_Forall; [apply Permutation_sym; exact P|auto].
Qed.

Lemma id_of_get t p : In p t -> nth_error t (id_of t p) = Some p.
Proof.
  induction t as [|q t IH]; [intros []|]. cbn. destruct (Nat.eqb_spec q p) as [->|E]; [reflexivity|].
  intros [H|H]; [congruence|]. cbn. auto.
Qed.
Lemma id_of_app t s p : In p t -> id_of (t ++ s) p = id_of t p.
Proof.
  induction t as [|q t IH]; [intros []|]. cbn. destruct (Nat.eqb_spec q p) as [->|E]; [reflexivity|].
  intros [H|H]; [congruence|]. rewrite IH; auto.
Qed.

(** ** Names *)
Lemma names_app t s ids ps : names t ids ps -> names (t ++ s) ids ps.
Proof.
  unfold names. induction 1 as [|i p ids ps H _ IH]; constructor; auto.
  rewrite nth_error_app1; auto. apply nth_error_Some. congruence.
Qed.
Lemma names_ids t ps : Forall (fun p => In p t) ps -> names t (map (id_of t) ps) ps.
Proof. unfold names. induction 1; cbn; constructor; auto using id_of_get. Qed.
Lemma names_in t ids ps : names t ids ps -> Forall (fun p => In p t) ps.
Proof. unfold names. induction 1 as [|i p ids ps H _ IH]; constructor; auto. eapply nth_error_In; eauto. Qed.
Lemma names_get t ids ps : names t ids ps -> filter_map (get t) ids = ps.
Proof. unfold names. induction 1 as [|i p ids ps H _ IH]; auto. cbn. unfold get at 1. rewrite H, IH. reflexivity. Qed.
Lemma names_nil t ids ps : names t ids ps -> (ids = [] <-> ps = []).
Proof. unfold names. destruct 1; split; congruence. Qed.
Lemma names_both t a b p q : names t a p -> names t b q -> names t (a ++ b) (p ++ q).
Proof. unfold names. apply Forall2_app. Qed.

(** ** Steps *)
Definition ok (a : actor) (sel : list nat) : Prop := sound (table a) /\ names (table a) (derived a) sel.
(** The selection element is in the document, unless there is none yet. *)
Definition shown (a : actor) : Prop :=
  (cached a <> None -> attached a = true) /\ (derived a <> [] -> embedded a = true) /\ cached a <> Some (Some []).

Lemma alloc_ok k a sel : ok a sel -> ok (alloc k a) sel.
Proof. intros [S N]. split; cbn; auto using sound_fresh. apply names_app. exact N. Qed.
Lemma alloc_shown k a : shown a -> shown (alloc k a).
Proof. intros H. exact H. Qed.
Lemma get_selections_ok a sel : ok a sel -> ok (get_selections a) sel.
Proof.
  intros O. unfold get_selections. destruct (cached a) eqn:C; auto.
  destruct (alloc_ok 1 a sel O) as [S N]. split; auto.
  unfold derived, ids_list in *. cbn in *. rewrite C in N. exact N.
Qed.
Lemma get_selections_shown a : shown a -> shown (get_selections a).
Proof.
  intros (H1 & H2 & H3). unfold get_selections. destruct (cached a) eqn:C; [unfold shown; rewrite C; auto|].
  split; cbn; auto. split; [congruence|discriminate].
Qed.
Lemma get_selections_table a : exists s, table (get_selections a) = table a ++ s.
Proof. unfold get_selections. destruct (cached a); [exists []; now rewrite app_nil_r|]. eexists. reflexivity. Qed.
Lemma get_selections_embedded a : embedded (get_selections a) = embedded a.
Proof. unfold get_selections. destruct (cached a); reflexivity. Qed.
Lemma get_selections_cached a : cached (get_selections a) <> None.
Proof. unfold get_selections. destruct (cached a) eqn:C; [congruence|discriminate]. Qed.

Lemma effect_selection_ok ids a sel : sound (table a) -> names (table a) ids sel -> ok (effect_selection ids a) sel.
Proof.
  intros S N. destruct (get_selections_table a) as [s T].
  assert (O : sound (table (get_selections a))).
  { unfold get_selections. destruct (cached a); auto. apply sound_fresh; auto. }
  unfold effect_selection. destruct ids as [|i ids].
  - split; auto. inversion N. constructor.
  - split; auto. cbn [table derived ids_list cached]. rewrite T. apply names_app. exact N.
Qed.
Lemma effect_selection_shown ids a : shown a -> ids <> [] -> shown (effect_selection ids a).
Proof.
  intros H N. unfold effect_selection. destruct ids as [|i ids]; [congruence|].
  destruct (get_selections_shown a H) as (H1 & _ & _). split; cbn; [|split; auto; congruence].
  intros _. apply H1. apply get_selections_cached.
Qed.
Lemma effect_tree_ok tree a sel : ok a sel -> NoDup tree -> incl tree (table a) -> ok (effect_tree tree a) sel.
Proof.
  intros O N I. destruct (get_selections_table a) as [s T].
  destruct (get_selections_ok a sel O) as [S M]. unfold effect_tree.
  assert (I' : incl tree (table (get_selections a))) by (rewrite T; intros x H; apply in_or_app; auto).
  assert (S' : sound (reorder tree (table (get_selections a)))) by (apply sound_reorder; auto).
  unfold derived in M. destruct (ids_list (get_selections a)) as [ids|] eqn:E.
  - rewrite (names_get _ _ _ M). apply effect_selection_ok; [exact S'|]. cbn [table].
    apply names_ids. apply names_in in M. eapply Forall_impl; [|exact M]. intros p Hp.
    eapply Permutation_in; [apply Permutation_sym, reorder_perm; auto; apply S|exact Hp].
  - split; auto. unfold derived, ids_list in *. cbn [cached table]. rewrite E. inversion M. constructor.
Qed.
Lemma effect_tree_shown tree a sel : ok a sel -> shown a -> shown (effect_tree tree a).
Proof.
  intros O H. apply get_selections_shown in H. destruct (get_selections_ok a sel O) as [S M]. unfold effect_tree.
  unfold derived in M. destruct (ids_list (get_selections a)) as [ids|] eqn:E; [|exact H].
  apply effect_selection_shown; [exact H|]. rewrite (names_get _ _ _ M). intros X.
  apply map_eq_nil in X. apply (names_nil _ _ _ M) in X. subst. destruct H as (_ & _ & H).
  apply H. unfold ids_list in E. destruct (cached (get_selections a)); congruence.
Qed.

Lemma asked_names t q a : table a = t -> query_ok a q -> forall s b, table b = t ++ s ->
  names (t ++ s) (select_internal q b) (asked t q).
Proof.
  intros <- Q s b B. destruct q as [ids|nodes]; cbn in *.
  - apply names_app. unfold names. induction Q as [|i ids H _ IH]; cbn; [constructor|].
    destruct (nth_error (table a) i) eqn:E; [|apply nth_error_None in E; lia]. cbn. constructor; auto.
  - rewrite B. apply names_ids. eapply Forall_impl; [|exact Q]. intros p H. apply in_or_app. auto.
Qed.

Lemma step_ok a sel na : ok a sel -> act_ok a na -> ok (step a na) (select_step a sel (snd na)).
Proof.
  intros O K. destruct na as [k x]. unfold step. cbn [fst snd] in *.
  assert (O1 := alloc_ok k a sel O).
  destruct x as [q|q| | | |created tree chosen]; cbn [act_ok snd fst] in K; cbn [select_step].
  - apply effect_selection_ok; [apply O1|]. eapply asked_names; eauto.
  - assert (O2 := get_selections_ok _ _ O1). destruct (get_selections_table (alloc k a)) as [s T].
    apply effect_selection_ok; [apply O2|]. apply names_both; [apply O2|].
    rewrite T. cbn [alloc table]. rewrite <- app_assoc. eapply asked_names; eauto.
    rewrite T. cbn [alloc table]. rewrite <- app_assoc. reflexivity.
  - apply effect_selection_ok; [apply O1|constructor].
  - assert (O2 := effect_selection_ok [] (alloc k a) [] (proj1 O1) (Forall2_nil _)). exact O2.
  - apply get_selections_ok; auto.
  - cbv zeta in K. destruct K as (N & I & C).
    assert (O2 := alloc_ok created _ _ (get_selections_ok _ _ O1)).
    set (b := alloc created (get_selections (alloc k a))) in *.
    apply effect_tree_ok; auto.
    + destruct chosen as [nodes|]; [|exact O2]. apply effect_selection_ok; [apply O2|].
      apply names_ids. apply Forall_forall. exact C.
    + destruct chosen as [nodes|]; [|exact I]. unfold effect_selection.
      destruct (get_selections_table b) as [s T].
      assert (I' : incl tree (table (get_selections b))) by (rewrite T; intros y Hy; apply in_or_app; auto).
      destruct (map (id_of (table b)) nodes); exact I'.
Qed.
Lemma step_shown a sel na : ok a sel -> shown a -> act_ok a na -> keeps a sel (snd na) -> shown (step a na).
Proof.
  intros O H K P. destruct na as [k x]. unfold step. cbn [fst snd] in *.
  assert (O1 := alloc_ok k a sel O). assert (H1 := alloc_shown k a H).
  destruct x as [q|q| | | |created tree chosen]; cbn [act_ok snd fst] in K; cbn [keeps select_step] in P; try tauto.
  - apply effect_selection_shown; auto. intros E. apply P.
    assert (M := asked_names (table a) q a eq_refl K _ (alloc k a) eq_refl). apply (names_nil _ _ _ M). exact E.
  - assert (O2 := get_selections_ok _ _ O1). destruct (get_selections_table (alloc k a)) as [s T].
    apply effect_selection_shown; [apply get_selections_shown; auto|]. intros E. apply P.
    assert (M : names (table (get_selections (alloc k a)))
      (derived (get_selections (alloc k a)) ++ select_internal q (get_selections (alloc k a))) (sel ++ asked (table a) q)).
    { apply names_both; [apply O2|]. rewrite T. cbn [alloc table]. rewrite <- app_assoc. eapply asked_names; eauto.
      rewrite T. cbn [alloc table]. rewrite <- app_assoc. reflexivity. }
    apply (names_nil _ _ _ M). exact E.
  - apply get_selections_shown; auto.
  - cbv zeta in K. destruct K as (N & I & C).
    assert (O2 := alloc_ok created _ _ (get_selections_ok _ _ O1)).
    assert (H2 := alloc_shown created _ (get_selections_shown _ H1)).
    set (b := alloc created (get_selections (alloc k a))) in *.
    destruct chosen as [nodes|].
    + apply effect_tree_shown with (sel := nodes).
      * apply effect_selection_ok; [apply O2|]. apply names_ids. apply Forall_forall. exact C.
      * apply effect_selection_shown; auto. intros E. apply map_eq_nil in E. congruence.
    + apply effect_tree_shown with (sel := sel); auto.
Qed.

Lemma new_ok n : ok (new_actor n) [].
Proof.
  split; [|constructor]. split.
  - apply seq_NoDup.
  - apply Forall_forall. unfold new_actor. cbn [table]. intros x Hx. apply in_seq in Hx. rewrite seq_length. lia.
Qed.
Theorem reached_ok n a sel : reached n a sel -> ok a sel.
Proof. induction 1; auto using new_ok, step_ok. Qed.
Lemma selecting_reached n a sel : reached_selecting n a sel -> reached n a sel.
Proof. induction 1; constructor; auto. Qed.
Theorem reached_shown n a sel : reached_selecting n a sel -> sel <> [] ->
  exists ids, in_document a = Some ids /\ names (table a) ids sel.
Proof.
  intros R NE.
  assert (G : shown a).
  { clear NE. induction R.
    - split; cbn; [congruence|]. split; [congruence|discriminate].
    - eapply step_shown; eauto. apply (reached_ok n). apply selecting_reached; auto. }
  destruct (reached_ok n a sel (selecting_reached _ _ _ R)) as [_ M].
  destruct G as (G1 & G2 & G3). unfold in_document, derived in *.
  destruct (ids_list a) as [ids|] eqn:E.
  - rewrite G1, G2; [exists ids; auto| |].
    + intros X. apply NE. apply (names_nil _ _ _ M). exact X.
    + unfold ids_list in E. destruct (cached a); congruence.
  - exfalso. apply NE. apply (names_nil _ _ _ M). reflexivity.
Qed.
