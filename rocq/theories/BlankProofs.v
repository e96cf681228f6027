(** Proofs about attributes without a value. *)
From Coq Require Import String List NArith Bool.
From Verif Require Import Chars NameModel AttrTable ElemTable ElemModel BlankModel BlankSpec.
Import ListNotations.

Lemma named_key : forall p n a, named p n a = true <-> (prefix_value (id_prefix (fst a)), id_local (fst a)) = (p, n).
Proof.
  intros p n a. unfold named. destruct (prefix_value (id_prefix (fst a))) as [q|], p as [p|]; split; intros H; try discriminate.
  - apply andb_true_iff in H. destruct H as [A B]. apply text_eqb_spec in A. apply text_eqb_spec in B. subst. reflexivity.
  - injection H as -> ->. rewrite !text_eqb_refl. reflexivity.
  - apply text_eqb_spec in H. subst. reflexivity.
  - injection H as ->. apply text_eqb_refl.
Qed.
Lemma get_filter : forall f p n l, distinct l -> get p n (filter f l) = match find (named p n) l with Some a => if f a then Some (snd a) else None | None => None end.
Proof.
  intros f p n l. unfold get, distinct. induction l as [|a l IH]; intros D; [reflexivity|]. cbn [map] in D. inversion D as [|k ks N D']; subst. cbn [filter find].
  destruct (named p n a) eqn:E.
  - destruct (f a) eqn:F; [cbn [find]; rewrite E; reflexivity|]. apply named_key in E.
    assert (Z : find (named p n) (filter f l) = None).
    { destruct (find (named p n) (filter f l)) as [b|] eqn:B; [|reflexivity]. exfalso. apply find_some in B. destruct B as [B1 B2]. apply filter_In in B1. apply named_key in B2.
      apply N. rewrite E, <- B2. apply (in_map (fun a => (prefix_value (id_prefix (fst a)), id_local (fst a)))), B1. }
    rewrite Z. reflexivity.
  - destruct (f a); [cbn [find]; rewrite E|]; apply IH, D'.
Qed.
Lemma get_kept : forall p n l, distinct l -> (forall c, get p n l = Some c -> is_empty c = false) -> get p n (filter keep l) = get p n l.
Proof.
  intros p n l D H. rewrite get_filter by exact D. unfold get in *. destruct (find (named p n) l) as [a|]; [|reflexivity]. cbn [option_map] in *.
  unfold keep. rewrite (H _ eq_refl). destruct (ElemModel.contains _ _); reflexivity.
Qed.
Theorem value_kept : forall on p n l, distinct l -> value p n (element on l) = value p n l.
Proof.
  intros [|] p n l D; [|reflexivity]. unfold value, element. rewrite get_filter by exact D. unfold get. destruct (find (named p n) l) as [a|]; [|reflexivity]. cbn [option_map].
  unfold keep. destruct (ElemModel.contains (id_groups (fst a)) g_conditional); [reflexivity|]. destruct (is_empty (snd a)) eqn:E; cbn [negb]; [reflexivity|]. rewrite E. reflexivity.
Qed.
Theorem get_same : forall on p n l, distinct l -> (forall c, get p n l = Some c -> is_empty c = false) -> get p n (element on l) = get p n l.
Proof. intros [|] p n l D H; [apply get_kept; assumption|reflexivity]. Qed.
Theorem conditional_kept : forall on p n l, distinct l -> (forall a, In a l -> named p n a = true -> ElemModel.contains (id_groups (fst a)) g_conditional = true) -> get p n (element on l) = get p n l.
Proof.
  intros [|] p n l D H; [|reflexivity]. unfold element. rewrite get_filter by exact D. unfold get. destruct (find (named p n) l) as [a|] eqn:E; [|reflexivity]. apply find_some in E. cbn [option_map].
  unfold keep. rewrite (H a (proj1 E) (proj2 E)). reflexivity.
Qed.
Theorem tidy : forall l a, In a (element true l) -> is_empty (snd a) = true -> ElemModel.contains (id_groups (fst a)) g_conditional = true.
Proof. intros l a H E. apply filter_In in H. destruct H as [_ K]. unfold keep in K. rewrite E in K. destruct (ElemModel.contains _ _); [reflexivity|discriminate]. Qed.
Theorem sublist : forall l a, In a l -> is_empty (snd a) = false -> In a (element true l).
Proof. intros l a H E. apply filter_In. split; [exact H|]. unfold keep. rewrite E. destruct (ElemModel.contains _ _); reflexivity. Qed.
Theorem meaning_kept : forall on l, distinct l -> (forall a, In a l -> is_empty (snd a) = true -> ~ In (prefix_value (id_prefix (fst a)), id_local (fst a))
    (map (fun x => (option_map lit (fst x), lit (snd x))) [(None, "xmlns"); (Some "xml", "lang"); (None, "href"); (Some "xlink", "href"); (None, "values"); (None, "from"); (None, "to"); (None, "by")]%string)) ->
  (forall o, default_namespace o (element on l) = default_namespace o l) /\ (forall o, language o (element on l) = language o l) /\
  reference (element on l) = reference l /\ animation (element on l) = animation l.
Proof.
  intros on l D H.
  assert (G : forall p n, In (option_map lit p, lit n) (map (fun x => (option_map lit (fst x), lit (snd x))) [(None, "xmlns"); (Some "xml", "lang"); (None, "href"); (Some "xlink", "href"); (None, "values"); (None, "from"); (None, "to"); (None, "by")]%string) ->
    get (option_map lit p) (lit n) (element on l) = get (option_map lit p) (lit n) l).
  { intros p n X. apply get_same; [exact D|]. intros c E. unfold get in E. destruct (find _ l) as [a|] eqn:F; [|discriminate]. injection E as <-. apply find_some in F. destruct F as [F1 F2].
    apply named_key in F2. destruct (is_empty (snd a)) eqn:Z; [|reflexivity]. exfalso. apply (H a F1 Z). rewrite F2. exact X. }
  unfold default_namespace, language, reference, animation.
  assert (E0 : get None (lit "xmlns") (element on l) = get None (lit "xmlns") l) by (apply (G None "xmlns"%string); vm_compute; tauto).
  assert (E1 : get (Some (lit "xml")) (lit "lang") (element on l) = get (Some (lit "xml")) (lit "lang") l) by (apply (G (Some "xml"%string) "lang"%string); vm_compute; tauto).
  assert (E2 : get None (lit "href") (element on l) = get None (lit "href") l) by (apply (G None "href"%string); vm_compute; tauto).
  assert (E3 : get (Some (lit "xlink")) (lit "href") (element on l) = get (Some (lit "xlink")) (lit "href") l) by (apply (G (Some "xlink"%string) "href"%string); vm_compute; tauto).
  assert (E4 : get None (lit "values") (element on l) = get None (lit "values") l) by (apply (G None "values"%string); vm_compute; tauto).
  assert (E5 : get None (lit "from") (element on l) = get None (lit "from") l) by (apply (G None "from"%string); vm_compute; tauto).
  assert (E6 : get None (lit "to") (element on l) = get None (lit "to") l) by (apply (G None "to"%string); vm_compute; tauto).
  assert (E7 : get None (lit "by") (element on l) = get None (lit "by") l) by (apply (G None "by"%string); vm_compute; tauto).
  rewrite E0, E1, E2, E3, E4, E5, E6, E7. repeat split.
Qed.
Theorem fulfilled_kept : forall on supported n l, distinct l -> (forall a, In a l -> named None n a = true -> ElemModel.contains (id_groups (fst a)) g_conditional = true) ->
  fulfilled supported n (element on l) = fulfilled supported n l.
Proof. intros on supported n l D H. unfold fulfilled. rewrite conditional_kept by assumption. reflexivity. Qed.
Lemma is_empty_spec : forall c, is_empty c = true <-> says_nothing c.
Proof.
  split.
  - induction c as [t|p i|n|n| |c IH]; cbn [is_empty]; intros H; try discriminate.
    + destruct t; [constructor|discriminate].
    + destruct p, i; try discriminate. constructor.
    + destruct n; [constructor|discriminate].
    + constructor. exact (IH H).
  - induction 1; cbn [is_empty]; auto.
Qed.
Theorem tidy_spec : forall l a, In a (element true l) -> says_nothing (snd a) -> ElemModel.contains (id_groups (fst a)) g_conditional = true.
Proof. intros l a H E. apply is_empty_spec in E. exact (tidy l a H E). Qed.
Theorem stays_spec : forall on l a, In a l -> ~ says_nothing (snd a) -> In a (element on l).
Proof. intros [] l a H E; [|exact H]. apply sublist; [exact H|]. destruct (is_empty (snd a)) eqn:K; [|reflexivity]. apply is_empty_spec in K. contradiction. Qed.
Lemma filter_nothing : forall l p, (forall a, In a l -> p a = true) -> filter p l = (l : attributes).
Proof. intros l p H. induction l as [|a l IH]; [reflexivity|]. cbn [filter]. rewrite (H a (or_introl eq_refl)), IH; [reflexivity|]. intros b B. apply H. right. exact B. Qed.
Theorem all_stay : forall on l, (forall a, In a l -> ~ says_nothing (snd a)) -> element on l = l.
Proof.
  intros [] l H; [|reflexivity]. apply filter_nothing. intros a A. unfold keep. destruct (ElemModel.contains _ _); [reflexivity|]. destruct (is_empty (snd a)) eqn:K; [|reflexivity]. apply is_empty_spec in K. destruct (H a A K).
Qed.
