From Coq Require Import String List NArith Bool Lia.
From Verif Require Import Chars NameModel AttrTable ElemModel ElemSpec.
Import ListNotations.

Lemma known_eqb_true a b : known_eqb a b = true <-> a = b.
Proof. destruct a, b; cbn; split; intros H; congruence. Qed.

Lemma known_uri_inj a b : known_uri a = known_uri b -> a = b.
Proof. destruct a, b; vm_compute; intros H; (reflexivity || discriminate). Qed.

Lemma ns_new_known uri k : ns_new uri = NSKnown k <-> known_uri k = uri.
Proof.
  unfold ns_new. split.
  - destruct (find _ all_known) as [k'|] eqn:F; [|discriminate]. intros [= <-]. apply find_some in F. destruct F as [_ F].
    apply text_eqb_spec in F. exact F.
  - intros <-. destruct k; reflexivity.
Qed.

Lemma prefix_new_ns uri name k : prefix_ns (prefix_new uri name) = NSKnown k ->
  known_uri k = uri \/ (uri = [] /\ name = None /\ k = SVG).
Proof.
  unfold prefix_new. destruct (find _ all_known) as [k'|] eqn:F.
  - cbn. intros [= <-]. apply find_some in F. destruct F as [_ F]. apply andb_true_iff in F. destruct F as [F _]. apply text_eqb_spec in F. auto.
  - destruct (find (fun k => text_eqb (known_uri k) uri) all_known) as [k'|] eqn:G.
    + cbn. intros [= <-]. apply find_some in G. destruct G as [_ G]. apply text_eqb_spec in G. auto.
    + destruct uri as [|c uri].
      * destruct name; cbn; [intros H; apply (proj1 (ns_new_known [] k)) in H; auto|]. intros [= <-]. auto.
      * cbn [prefix_ns]. intros H. apply (proj1 (ns_new_known (c :: uri) k)) in H. auto.
Qed.

Lemma find_uri k : find (fun k' => text_eqb (known_uri k') (known_uri k)) all_known = Some k.
Proof. destruct k; reflexivity. Qed.

(** A prefix with a known namespace is that prefix or an alias of it. *)
Lemma prefix_new_shape uri name k : prefix_ns (prefix_new uri name) = NSKnown k ->
  prefix_new uri name = PKnown k \/ prefix_new uri name = PAliased (PKnown k) name.
Proof.
  intros H. destruct (prefix_new_ns _ _ _ H) as [<-|(-> & -> & ->)].
  - unfold prefix_new in *. destruct (find _ all_known) as [k'|] eqn:F; [left; cbn in H; congruence|].
    rewrite find_uri in *. right. reflexivity.
  - left. reflexivity.
Qed.

Lemma matches_ns p local k : matches p local k = true -> prefix_ns p = NSKnown (kind_prefix k) /\ kind_local k = local.
Proof.
  unfold matches, prefix_eqb. rewrite andb_true_iff. intros [H1 H2]. apply text_eqb_spec in H2. split; [|exact H2].
  cbn in H1. destruct (prefix_ns p) as [k'|]; [|discriminate]. apply known_eqb_true in H1. congruence.
Qed.
Lemma matches_iff p local k : matches p local k = true <-> prefix_ns p = NSKnown (kind_prefix k) /\ kind_local k = local.
Proof.
  split; [apply matches_ns|]. intros [H1 H2]. unfold matches, prefix_eqb. rewrite H1, H2, text_eqb_refl. cbn.
  rewrite andb_true_r. apply known_eqb_true. reflexivity.
Qed.

Lemma recognised_name uri name local k : let p := prefix_new uri name in matches p local k = true ->
  written (id_prefix (recognised p k)) (id_local (recognised p k)) = written p local /\ prefix_ns (id_prefix (recognised p k)) = prefix_ns p.
Proof.
  intros p H. apply matches_ns in H. destruct H as [H1 H2]. unfold recognised.
  destruct (prefix_new_shape uri name _ H1) as [E|E]; fold p in E; rewrite E; cbn; rewrite H2; auto.
Qed.

(** The lookups. *)
Lemma group_attributes_in g k : In k (group_attributes g) <-> In k attr_table /\ intersects g (kind_groups k) = true.
Proof. apply filter_In. Qed.
Lemma intersects_iff a b : intersects a b = true <-> exists i, N.testbit a i = true /\ N.testbit b i = true.
Proof.
  unfold intersects. rewrite negb_true_iff, N.eqb_neq. split.
  - intros H. exists (N.log2 (N.land a b)). apply andb_true_iff. rewrite <- N.land_spec. apply N.bit_log2, H.
  - intros (i & Ha & Hb) Z. assert (E : N.testbit (N.land a b) i = true) by (rewrite N.land_spec, Ha, Hb; reflexivity).
    rewrite Z, N.bits_0 in E. discriminate.
Qed.
Lemma group_attributes_expected e k : In k (group_attributes (elem_groups e)) <->
  In k attr_table /\ exists i, N.testbit (elem_groups e) i = true /\ N.testbit (kind_groups k) i = true.
Proof. rewrite group_attributes_in, intersects_iff. reflexivity. Qed.
Definition listed (e : elem_id) : list kind := flat_map (fun i => match kind_of i with Some k => [k] | None => [] end) (elem_attrs e).
Lemma kind_of_some i k : kind_of i = Some k -> In k attr_table /\ kind_id k = i.
Proof. intros H. apply find_some in H. destruct H as [H1 H2]. apply text_eqb_spec in H2. auto. Qed.
Lemma listed_in e k : In k (listed e) -> In k attr_table /\ In (kind_id k) (elem_attrs e).
Proof.
  unfold listed. rewrite in_flat_map. intros (i & Hi & Hk). destruct (kind_of i) as [k'|] eqn:K; [|destruct Hk].
  destruct Hk as [->|[]]. apply kind_of_some in K. destruct K as [K1 <-]. auto.
Qed.
Lemma listed_intro e i k : In i (elem_attrs e) -> kind_of i = Some k -> In k (listed e).
Proof. intros Hi K. apply in_flat_map. exists i. split; [exact Hi|]. rewrite K. left. reflexivity. Qed.
Lemma parse_eq e p local : parse_attr_id e p local =
  match find (matches p local) (listed e) with Some k => recognised p k | None =>
  match find (matches p local) (group_attributes (elem_groups e)) with Some k => recognised p k | None => ABase (BUnknown (mkName p local)) end end.
Proof. reflexivity. Qed.
Opaque attr_table group_attributes listed kind_groups elem_groups.
Lemma parse_cases e p local :
  (exists k, parse_attr_id e p local = recognised p k /\ matches p local k = true /\ In k attr_table /\ expected e k) \/
  parse_attr_id e p local = ABase (BUnknown (mkName p local)).
Proof.
  rewrite parse_eq. destruct (find _ (listed e)) as [k|] eqn:F.
  - left. exists k. apply find_some in F. destruct F as [Hin M]. apply listed_in in Hin. destruct Hin as [Hin Hl].
    split; [reflexivity|]. split; [exact M|]. split; [exact Hin|]. left. exact Hl.
  - destruct (find _ (group_attributes _)) as [k|] eqn:G; [|right; reflexivity].
    left. exists k. apply find_some in G. destruct G as [Hin M]. apply group_attributes_expected in Hin.
    destruct Hin as [Hin I]. split; [reflexivity|]. split; [exact M|]. split; [exact Hin|]. right. exact I.
Qed.

Lemma attribute_name_kept e uri name local :
  let p := prefix_new uri name in let a := parse_attr_id e p local in
  written (id_prefix a) (id_local a) = written p local /\ prefix_ns (id_prefix a) = prefix_ns p.
Proof.
  intros p a. destruct (parse_cases e p local) as [(k & E & M & _)|E]; unfold a; rewrite E.
  - apply recognised_name, M.
  - split; reflexivity.
Qed.

Lemma element_name_kept uri name local : let p := prefix_new uri name in let e := elem_new p local in
  written (elem_prefix e) (elem_local e) = written p local /\ prefix_ns (elem_prefix e) = prefix_ns p.
Proof.
  intros p e. unfold e, elem_new.
  assert (E : forall k, prefix_unaliased p = PKnown k -> prefix_ns p = NSKnown k).
  { intros k. destruct p as [k'|n m|q al]; cbn; intros H; [congruence|discriminate|subst q; reflexivity]. }
  destruct (prefix_unaliased p) as [[]| |] eqn:U; try (split; reflexivity).
  destruct (find _ elem_table) as [k|] eqn:F; [|split; reflexivity]. apply find_some in F. destruct F as [_ F]. apply text_eqb_spec in F.
  destruct (prefix_new_shape uri name SVG (E _ eq_refl)) as [H|H]; fold p in H; rewrite H; cbn; rewrite F; split; reflexivity.
Qed.

Lemma kind_ids_distinct_kinds : forall k k', In k attr_table -> In k' attr_table -> kind_id k = kind_id k' -> k = k'.
Proof.
  assert (H : forallb (fun k => match kind_of (kind_id k) with
     | Some k' => known_eqb (kind_prefix k) (kind_prefix k') && text_eqb (kind_local k) (kind_local k') && text_eqb (kind_id k) (kind_id k') | None => false end) attr_table = true) by (vm_compute; reflexivity).
  intros k k' Hk Hk' E. pose proof (proj1 (forallb_forall _ _) H _ Hk) as a. pose proof (proj1 (forallb_forall _ _) H _ Hk') as b.
  clear H Hk Hk'. cbv beta in a, b. rewrite <- E in b.
  destruct (kind_of (kind_id k)) as [x|]; [|discriminate]. rewrite !andb_true_iff, !text_eqb_spec, !known_eqb_true in a, b.
  destruct k, k', x; cbn in a, b, E. destruct a as [[]], b as [[]]. congruence.
Qed.

Lemma kind_of_table k : In k attr_table -> kind_of (kind_id k) = Some k.
Proof.
  intros H. unfold kind_of. destruct (find _ attr_table) as [k'|] eqn:F.
  - apply find_some in F. destruct F as [Hin F]. apply text_eqb_spec in F. f_equal. apply kind_ids_distinct_kinds; assumption.
  - exfalso. apply (find_none _ _ F) in H. rewrite text_eqb_refl in H. discriminate.
Qed.
Lemma listed_of e k : In k attr_table -> In (kind_id k) (elem_attrs e) -> In k (listed e).
Proof.
  intros H1 H2. eapply listed_intro; [exact H2|]. apply kind_of_table, H1.
Qed.

(** An attribute is recognised exactly if an expected one has the name. *)
Lemma recognised_iff e p local : (exists k, id_unaliased (parse_attr_id e p local) = BKnown k) <->
  (exists k, In k attr_table /\ prefix_ns p = NSKnown (kind_prefix k) /\ kind_local k = local /\ expected e k).
Proof.
  split.
  - intros (k & E). destruct (parse_cases e p local) as [(k' & E' & M & Hin & Ex)|E']; rewrite E' in E; [|discriminate].
    exists k'. apply matches_ns in M. tauto.
  - intros (k & Hin & H1 & H2 & Ex). assert (M : matches p local k = true) by (apply matches_iff; auto).
    assert (R : forall k', exists k, id_unaliased (recognised p k') = BKnown k).
    { intros k'. exists k'. unfold recognised. destruct (is_aliased p); reflexivity. }
    rewrite parse_eq. destruct (find _ (listed e)) as [k'|] eqn:F; [apply R|].
    destruct (find _ (group_attributes _)) as [k'|] eqn:G; [apply R|]. exfalso.
    destruct Ex as [Ex|Ex].
    + pose proof (find_none _ _ F _ (listed_of e k Hin Ex)) as Z. congruence.
    + pose proof (proj2 (group_attributes_expected e k) (conj Hin Ex)) as Hg. pose proof (find_none _ _ G _ Hg) as Z. congruence.
Qed.

(** The same, by namespace and local name, for a prefix bound to a namespace. *)
Lemma recognised_named e uri name local : uri <> [] -> let p := prefix_new uri name in
  ((exists k, id_unaliased (parse_attr_id e p local) = BKnown k) <-> exists k, In k attr_table /\ named uri local k /\ expected e k).
Proof.
  intros Hu p. rewrite recognised_iff. split; intros (k & Hin & H).
  - destruct H as (H1 & H2 & H3). exists k. split; [exact Hin|]. split; [|exact H3]. split; [|exact H2].
    destruct (prefix_new_ns _ _ _ H1) as [H|(-> & _)]; [exact H|contradiction].
  - destruct H as ((H1 & H2) & H3). exists k. split; [exact Hin|]. split; [|auto]. unfold p.
    rewrite <- H1. unfold prefix_new. destruct (find _ all_known) as [k'|] eqn:F.
    + apply find_some in F. destruct F as [_ F]. apply andb_true_iff in F. destruct F as [F _]. apply text_eqb_spec, known_uri_inj in F. subst. reflexivity.
    + rewrite find_uri. reflexivity.
Qed.
