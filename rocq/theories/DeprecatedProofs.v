(** Proofs about the removal of deprecated attributes. *)
From Coq Require Import String List Bool NArith.
From Verif Require Import Chars NameModel AttrTable ElemTable ElemModel KnownModel DeprecatedModel DeprecatedSpec.
Import ListNotations.

Lemma teq : forall a b, text_eqb a b = true <-> a = b.
Proof. intros; apply text_eqb_spec. Qed.

Lemma remove_subset : forall n l a, In a (remove n l) -> In a l.
Proof. induction l as [|b r IH]; cbn [remove]; intros a H; [exact H|]. destruct (id_eqb (fst b) n); [right; exact H|]. destruct H as [->|H]; [left; reflexivity|right; apply IH, H]. Qed.
Lemma remove_kept : forall n l a, In a l -> In a (remove n l) \/ get n l = Some a.
Proof.
  unfold get. induction l as [|b r IH]; cbn [remove find]; intros a H; [destruct H|].
  destruct (id_eqb (fst b) n).
  - destruct H as [->|H]; [right; reflexivity|left; exact H].
  - destruct H as [->|H]; [left; left; reflexivity|]. destruct (IH a H) as [X|X]; [left; right; exact X|right; exact X].
Qed.
Lemma special_subset : forall ns l a, In a (special ns l) -> In a l.
Proof. intros ns l a. unfold special. destruct (get xml_lang_id l) as [x|]; [|auto]. destruct (_ && _); [apply remove_subset|auto]. Qed.
Lemma special_kept : forall ns l a, In a l -> contains_qual ns (fst a) = true -> In a (special ns l).
Proof.
  intros ns l a H Hc. unfold special. destruct (get xml_lang_id l) as [x|] eqn:E; [|exact H].
  destruct (_ && _) eqn:F; [|exact H]. destruct (remove_kept xml_lang_id l a H) as [X|X]; [exact X|]. rewrite E in X. injection X as ->. rewrite Hc in F. rewrite andb_false_r in F. discriminate.
Qed.
Lemma element_subset : forall o s l a, In a (element o s l) -> In a l.
Proof. intros o s l a H. apply filter_In in H. destruct H as [H _]. exact (special_subset _ _ _ H). Qed.
Lemma element_kept : forall o s l a, In a l -> contains_qual (extract s) (fst a) = true -> In a (element o s l).
Proof. intros o s l a H Hc. apply filter_In. split; [apply special_kept; assumption|]. unfold retain. rewrite Hc. reflexivity. Qed.

Lemma named : forall s sel c n a, In sel s -> In c sel -> In n (component_name c) ->
  fst n = prefix_value (id_prefix a) -> snd n = id_local a -> contains_qual (extract s) a = true.
Proof.
  intros s sel c n a Hs Hc Hn H1 H2. unfold contains_qual. apply existsb_exists. exists n. split.
  - unfold extract. apply in_flat_map. exists sel. split; [exact Hs|]. apply in_flat_map. exists c. split; assumption.
  - rewrite H1, H2. apply andb_true_iff. split; [|apply teq; reflexivity]. destruct (prefix_value _); cbn; [apply teq|]; reflexivity.
Qed.
Lemma some_same : forall o s c n t l,
  (forall a, In a l -> in_namespace c (fst a) = true -> id_local (fst a) = n -> contains_qual (extract s) (fst a) = true) ->
  some_attribute c n t (element o s l) = some_attribute c n t l.
Proof.
  intros o s c n t l H. unfold some_attribute. apply eq_true_iff_eq. rewrite !existsb_exists. split; intros [a [Ha E]]; exists a; (split; [|exact E]).
  - apply element_subset in Ha. exact Ha.
  - apply andb_true_iff in E. destruct E as [E _]. apply andb_true_iff in E. destruct E as [E1 E2]. apply element_kept; [exact Ha|]. apply H; [exact Ha|exact E1|]. apply teq, E2.
Qed.
Lemma unprefixed_none : forall a, unprefixed a = true -> prefix_value (id_prefix a) = None.
Proof. intros a. unfold unprefixed. destruct (prefix_value _); [discriminate|reflexivity]. Qed.
Lemma component_same : forall others o s sel c l, In sel s -> In c sel -> plain l c -> matches others c (element o s l) = matches others c l.
Proof.
  intros others o s sel c l Hs Hc P. destruct c as [n|n t|k n t|c|n]; cbn [matches plain] in *.
  - apply some_same. intros a Ha E1 E2. apply named with (1 := Hs) (2 := Hc) (n := (None, lower n)); [left; reflexivity| |]; cbn [fst snd].
    + symmetry. apply unprefixed_none, E1.
    + rewrite P. symmetry. exact E2.
  - apply some_same. intros a Ha E1 E2. apply named with (1 := Hs) (2 := Hc) (n := (None, n)); [left; reflexivity| |]; cbn [fst snd]; symmetry; [apply unprefixed_none, E1|exact E2].
  - apply some_same. intros a Ha E1 E2. destruct k as [| |p u]; cbn [in_namespace] in E1.
    + apply named with (1 := Hs) (2 := Hc) (n := (None, n)); [left; reflexivity| |]; cbn [fst snd]; symmetry; [apply unprefixed_none, P; assumption|exact E2].
    + apply named with (1 := Hs) (2 := Hc) (n := (None, n)); [left; reflexivity| |]; cbn [fst snd]; symmetry; [apply unprefixed_none, E1|exact E2].
    + apply andb_true_iff in E1. destruct E1 as [E1 E3]. apply named with (1 := Hs) (2 := Hc) (n := (Some p, n)); [left; reflexivity| |]; cbn [fst snd]; symmetry; [|exact E2].
      apply P; [exact Ha|exact E2| |apply teq, E3]. apply negb_true_iff, E1.
  - destruct c; try destruct P. reflexivity.
  - reflexivity.
Qed.
Theorem selected : forall others o s sel l, In sel s -> Forall (plain l) sel -> selects others sel (element o s l) = selects others sel l.
Proof.
  intros others o s sel l Hs P. unfold selects. apply eq_true_iff_eq. rewrite !forallb_forall. rewrite Forall_forall in P.
  split; intros H c Hc; [rewrite <- (component_same others o s sel c l Hs Hc (P c Hc))|rewrite (component_same others o s sel c l Hs Hc (P c Hc))]; apply H, Hc.
Qed.

(** * What is removed by default *)
Definition safe_check (k : kind) : bool :=
  if ElemModel.contains (id_info (ABase (BKnown k))) deprecated_safe then text_eqb (kind_local k) (lit "version") && known_eqb (kind_prefix k) SVG else true.
Lemma safe_all : forallb safe_check attr_table = true.
Proof. vm_compute. reflexivity. Qed.
Lemma safe_version : forall k, In k attr_table -> ElemModel.contains (id_info (ABase (BKnown k))) deprecated_safe = true -> kind_local k = lit "version" /\ kind_prefix k = SVG.
Proof.
  intros k Hk H. pose proof (proj1 (forallb_forall _ _) safe_all k Hk) as X. unfold safe_check in X. rewrite H in X.
  apply andb_true_iff in X. destruct X as [X1 X2]. split; [apply teq, X1|]. destruct (kind_prefix k); (reflexivity || discriminate).
Qed.
Lemma safe_id : forall a, well_formed a -> ElemModel.contains (id_info a) deprecated_safe = true -> id_local a = lit "version" /\ unprefixed a = true.
Proof.
  intros a W H. destruct a as [[k|q]|p b]; cbn [id_info] in H; try discriminate. destruct W as [W _]. cbn in W.
  destruct (safe_version k W H) as [H1 H2]. split; [exact H1|]. unfold unprefixed. cbn. rewrite H2. reflexivity.
Qed.

(** [id_eqb] with the two languages. *)
Definition lang_check (k : kind) : bool :=
  (if text_eqb (kind_id k) (lit "Lang") then text_eqb (kind_local k) lang && known_eqb (kind_prefix k) SVG else true)
  && (if text_eqb (kind_id k) (lit "XmlLang") then text_eqb (kind_local k) lang && known_eqb (kind_prefix k) XML else true).
Lemma lang_all : forallb lang_check attr_table = true.
Proof. vm_compute. reflexivity. Qed.
Lemma is_lang : forall a, well_formed a -> id_eqb a lang_id = true -> id_local a = lang /\ prefix_ns (id_prefix a) = NSKnown SVG.
Proof.
  intros a [W1 [W2 _]] H. unfold id_eqb in H. cbn [lang_id id_unaliased] in H. unfold id_local. destruct (id_unaliased a) as [k|q]; [|discriminate]. cbn [kind_id] in H.
  pose proof (proj1 (forallb_forall _ _) lang_all k W1) as X. unfold lang_check in X. rewrite H in X. apply andb_true_iff in X. destruct X as [X _]. apply andb_true_iff in X. destruct X as [X1 X2].
  cbn [base_local]. split; [apply teq, X1|]. rewrite W2. cbn. destruct (kind_prefix k); (reflexivity || discriminate).
Qed.
Lemma is_xml_lang : forall a, well_formed a -> id_eqb a xml_lang_id = true -> id_local a = lang /\ is_xml a = true.
Proof.
  intros a [W1 [W2 W3]] H. unfold id_eqb in H. cbn [xml_lang_id id_unaliased] in H. unfold id_local. destruct (id_unaliased a) as [k|q]; [|discriminate]. cbn [kind_id] in H.
  pose proof (proj1 (forallb_forall _ _) lang_all k W1) as X. unfold lang_check in X. rewrite H in X. apply andb_true_iff in X. destruct X as [_ X]. apply andb_true_iff in X. destruct X as [X1 X2].
  cbn [base_local]. split; [apply teq, X1|]. assert (K : kind_prefix k = XML) by (destruct (kind_prefix k); (reflexivity || discriminate)).
  unfold is_xml, uri_of. rewrite W2. cbn [base_prefix prefix_ns]. rewrite K in *. rewrite W3 by discriminate. reflexivity.
Qed.

Lemma removed_by : forall s l a, In a l -> ~ In a (element false s l) ->
  contains_qual (extract s) (fst a) = false /\
  (ElemModel.contains (id_info (fst a)) deprecated_safe = true \/ (id_eqb (fst a) xml_lang_id = true /\ exists b, In b l /\ id_eqb (fst b) lang_id = true)).
Proof.
  intros s l a H N. destruct (contains_qual (extract s) (fst a)) eqn:Ec; [destruct N; apply element_kept; assumption|]. split; [reflexivity|].
  destruct (ElemModel.contains (id_info (fst a)) deprecated_safe) eqn:Es; [left; reflexivity|right].
  assert (X : ~ In a (special (extract s) l)).
  { intros X. apply N. apply filter_In. split; [exact X|]. unfold retain. rewrite Ec, Es. reflexivity. }
  unfold special in X. destruct (get xml_lang_id l) as [x|] eqn:E; [|destruct X; exact H].
  destruct (get lang_id l) as [y|] eqn:E2; [|destruct X; exact H]. cbn [andb] in X.
  destruct (negb _); [|destruct X; exact H].
  destruct (remove_kept xml_lang_id l a H) as [Y|Y]; [destruct (X Y)|]. unfold get in *. rewrite E in Y. injection Y as ->.
  apply find_some in E. apply find_some in E2. split; [apply E|]. exists y. exact E2.
Qed.
Theorem default_removed : forall s l a, (forall x, In x l -> well_formed (fst x)) -> In a l -> ~ In a (element false s l) ->
  (id_local (fst a) = lit "version" /\ unprefixed (fst a) = true) \/
  (id_local (fst a) = lang /\ is_xml (fst a) = true /\ exists b, In b l /\ id_local (fst b) = lang /\ is_xml (fst b) = false).
Proof.
  intros s l a W H N. destruct (removed_by s l a H N) as [_ [X|[X [b [Hb Y]]]]].
  - left. apply safe_id; [apply W, H|exact X].
  - right. destruct (is_xml_lang _ (W a H) X) as [X1 X2]. destruct (is_lang _ (W b Hb) Y) as [Y1 Y2]. split; [exact X1|]. split; [exact X2|].
    exists b. split; [exact Hb|]. split; [exact Y1|]. unfold is_xml, uri_of. rewrite Y2. apply andb_false_r.
Qed.

(** * The language *)
Definition speaks (a : attr_id * text) : Prop := id_local (fst a) = lang /\ (unprefixed (fst a) = true \/ is_xml (fst a) = true).
Lemma own_some : forall l v, own_language l = Some v -> exists a, In a l /\ speaks a /\ snd a = v.
Proof.
  intros l v. unfold own_language. destruct (find _ l) as [a|] eqn:E.
  - intros [= <-]. apply find_some in E. destruct E as [E1 E2]. apply andb_true_iff in E2. destruct E2 as [E2 E3]. apply teq in E3. exists a. repeat split; auto.
  - destruct (find (fun a => unprefixed _ && _) l) as [a|] eqn:E'; cbn; [|discriminate]. intros [= <-]. apply find_some in E'. destruct E' as [E1 E2]. apply andb_true_iff in E2. destruct E2 as [E2 E3]. apply teq in E3. exists a. repeat split; auto.
Qed.
Lemma own_none : forall l, own_language l = None -> forall a, In a l -> ~ speaks a.
Proof.
  intros l. unfold own_language. destruct (find _ l) as [a|] eqn:E; [discriminate|].
  destruct (find (fun a => unprefixed _ && _) l) as [a|] eqn:E'; [discriminate|]. intros _ a Ha [S1 S2]. apply teq in S1.
  pose proof (find_none _ _ E a Ha) as F1. pose proof (find_none _ _ E' a Ha) as F2. cbn beta in F1, F2. rewrite S1 in F1, F2. rewrite andb_true_r in F1, F2. destruct S2; congruence.
Qed.
Lemma own_kept : forall s l, (forall x, In x l -> well_formed (fst x)) -> agreeing l -> own_language (element false s l) = own_language l.
Proof.
  intros s l W [A1 A2]. destruct (own_language (element false s l)) as [v|] eqn:E.
  - destruct (own_some _ _ E) as [a [Ha [[S1 S2] <-]]]. pose proof (element_subset _ _ _ _ Ha) as Hl.
    destruct (own_language l) as [w|] eqn:F.
    + destruct (own_some _ _ F) as [b [Hb [[T1 T2] <-]]]. f_equal. apply A1; assumption.
    + destruct (own_none _ F a Hl). split; assumption.
  - destruct (own_language l) as [w|] eqn:F; [|reflexivity]. exfalso.
    destruct (own_some _ _ F) as [b [Hb [Sb _]]].
    assert (Nb : ~ In b (element false s l)) by (intros X; exact (own_none _ E b X Sb)).
    destruct (removed_by s l b Hb Nb) as [_ [X|[X [c [Hc Y]]]]].
    + destruct (safe_id _ (W b Hb) X) as [X1 _]. destruct Sb as [S1 _]. rewrite S1 in X1. discriminate.
    + destruct (is_lang _ (W c Hc) Y) as [Y1 Y2].
      assert (Sc : speaks c) by (split; [exact Y1|apply A2; assumption]).
      assert (Nc : ~ In c (element false s l)) by (intros Z; exact (own_none _ E c Z Sc)).
      destruct (removed_by s l c Hc Nc) as [_ [Z|[Z _]]].
      * destruct (safe_id _ (W c Hc) Z) as [Z1 _]. rewrite Y1 in Z1. discriminate.
      * destruct (is_xml_lang _ (W c Hc) Z) as [_ Z2]. unfold is_xml, uri_of in Z2. rewrite Y2, andb_false_r in Z2. discriminate.
Qed.
Theorem language_kept : forall s path, Forall (fun l => (forall x, In x l -> well_formed (fst x)) /\ agreeing l) path ->
  language (map (element false s) path) = language path.
Proof.
  intros s path H. induction H as [|l r [W A] _ IH]; [reflexivity|]. cbn [map language]. rewrite (own_kept s l W A), IH. reflexivity.
Qed.
