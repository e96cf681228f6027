From Coq Require Import String List NArith Bool Arith Lia.
From Verif Require Import Chars NameModel NsModel NsSpec NsProofs LintModel LintSpec LintProofs LintProofs2 NsJobsModel NsJobsSpec.
Import ListNotations.

(** ** Unused namespaces *)
Lemma is_svg_root name attrs kids : is_svg name = true <-> svg_root (PElem name attrs kids).
Proof. unfold is_svg, svg_root, memory_uri. rewrite andb_true_iff, !text_eqb_spec. reflexivity. Qed.
Lemma unuse_in x u s : In x (unuse u s) <-> In x s /\ x <> u.
Proof.
  unfold unuse. rewrite filter_In, negb_true_iff. apply and_iff_compat_l. split.
  - intros E F. subst. rewrite text_eqb_refl in E. discriminate E.
  - intros N. apply text_eqb_neq. exact N.
Qed.
Definition prefix_uris (p : prefix) : list text := match prefix_value p with Some _ => [ns_uri (prefix_ns p)] | None => [] end.
Lemma visit_prefix_in x s p : In x (visit_prefix s p) <-> In x s /\ ~ In x (prefix_uris p).
Proof.
  unfold visit_prefix, prefix_is_empty, prefix_uris. destruct (prefix_value p).
  - rewrite unuse_in. cbn [In]. intuition congruence.
  - cbn [In]. tauto.
Qed.
Lemma visit_prefixes_in x : forall l s, In x (fold_left visit_prefix l s) <-> In x s /\ ~ In x (flat_map prefix_uris l).
Proof.
  induction l as [|p l IH]; intros s; cbn [fold_left flat_map]; [cbn [In]; tauto|]. rewrite IH, visit_prefix_in, in_app_iff. tauto.
Qed.
Lemma attr_uris a : prefix_uris (pattr_prefix a) = prefixed_attr a.
Proof. destruct a; reflexivity. Qed.
Lemma visit_element_in x s name attrs : In x (visit_element s name attrs) <->
  In x s /\ ~ In x (prefixed_uri name ++ flat_map prefixed_attr attrs).
Proof.
  assert (E : flat_map prefix_uris (map pattr_prefix attrs) = flat_map prefixed_attr attrs).
  { induction attrs as [|a l IH]; [reflexivity|]. cbn [map flat_map]. rewrite IH, attr_uris. reflexivity. }
  unfold visit_element. destruct s as [|y s]; [cbn [In]; tauto|]. rewrite visit_prefixes_in, visit_prefix_in, E, in_app_iff.
  change (prefixed_uri name) with (prefix_uris (q_prefix name)). tauto.
Qed.
Definition visit_kids : list pnode -> list text -> list text :=
  fix go (l : list pnode) (unused : list text) : list text := match l with [] => unused | k :: l => go l (visit_ns unused k) end.
Definition visit_ok (n : pnode) : Prop := forall s x, In x (visit_ns s n) <-> In x s /\ ~ In x (prefixed_uris n).
Lemma visit_spec : forall n, visit_ok n.
Proof.
  fix IH 1. destruct n as [name attrs kids|t]; intros s x; [|cbn; tauto]. cbn [visit_ns prefixed_uris]. fold visit_kids.
  assert (K : forall l s, Forall visit_ok l -> (In x (visit_kids l s) <-> In x s /\ ~ In x (flat_map prefixed_uris l))).
  { clear. induction l as [|k l IHl]; intros s F; cbn [visit_kids flat_map]; [cbn [In]; tauto|]. inversion F as [|? ? F1 F2]; subst.
    fold visit_kids. rewrite (IHl _ F2), in_app_iff. specialize (F1 s x). tauto. }
  assert (F : Forall visit_ok kids).
  { clear - IH. revert kids. fix IHk 1. destruct kids as [|k l]; constructor; [apply IH|apply IHk]. }
  rewrite (K kids _ F), visit_element_in, !in_app_iff. tauto.
Qed.
Lemma visit_doc x : forall doc s, In x (fold_left visit_ns doc s) <-> In x s /\ ~ In x (flat_map prefixed_uris doc).
Proof.
  induction doc as [|n doc IH]; intros s; cbn [fold_left flat_map]; [cbn [In]; tauto|]. rewrite IH, in_app_iff. pose proof (visit_spec n s x). tauto.
Qed.
Lemma roots_in x : forall doc s, In x (fold_left root_element doc s) <->
  In x s \/ exists name attrs kids p, In (PElem name attrs kids) doc /\ is_svg name = true /\ In (APrefix p x) attrs.
Proof.
  induction doc as [|n doc IH]; intros s; cbn [fold_left].
  - split; [auto|]. intros [H|(name & attrs & kids & p & [] & _)]. exact H.
  - rewrite IH. assert (R : In x (root_element s n) <-> In x s \/ exists name attrs kids p, n = PElem name attrs kids /\ is_svg name = true /\ In (APrefix p x) attrs).
    { clear. destruct n as [name attrs kids|t]; cbn [root_element].
      - destruct (is_svg name) eqn:E.
        + rewrite in_app_iff, in_flat_map. apply or_iff_compat_l. split.
          * intros (a & I0 & H). destruct a as [u|p u|q v]; [destruct H| |destruct H]. destruct H as [->|[]]. exists name, attrs, kids, p. auto.
          * intros (n & a & k & p & H & _ & I0). injection H as <- <- <-. exists (APrefix p x). split; [exact I0|]. left. reflexivity.
        + split; [auto|]. intros [H|(n & a & k & p & H & F & _)]; [exact H|]. injection H as <- <- <-. congruence.
      - split; [auto|]. intros [H|(n & a & k & p & H & _)]; [exact H|discriminate H]. }
    rewrite R. split.
    + intros [[H|(name & attrs & kids & p & E & H)]|(name & attrs & kids & p & E & H)].
      * left. exact H.
      * right. exists name, attrs, kids, p. split; [left; exact E|exact H].
      * right. exists name, attrs, kids, p. split; [right; exact E|exact H].
    + intros [H|(name & attrs & kids & p & [E|E] & H)].
      * left. left. exact H.
      * left. right. exists name, attrs, kids, p. split; [exact E|exact H].
      * right. exists name, attrs, kids, p. split; [exact E|exact H].
Qed.
Definition final_unused (doc : list pnode) : list text := fold_left visit_ns doc (fold_left root_element doc []).

Lemma exit_spec doc n : In n doc ->
  (svg_root n -> exit_root (final_unused doc) n = with_used (flat_map prefixed_uris doc) n) /\
  (~ svg_root n -> exit_root (final_unused doc) n = n).
Proof.
  intros I0. destruct n as [name attrs kids|t].
  2:{ split; [intros []|reflexivity]. }
  split; intros H.
  - apply is_svg_root in H. cbn [exit_root with_used]. rewrite H. f_equal. apply filter_ext_in. intros a Ha.
    destruct a as [u|p u|q v]; [reflexivity| |reflexivity]. cbn [keep_used].
    apply eq_true_iff_eq. rewrite negb_true_iff.
    assert (X : forall l, existsb (text_eqb u) l = true <-> In u l).
    { clear. intros l. rewrite existsb_exists. split.
      - intros (x & I0 & E). apply text_eqb_spec in E. subst. exact I0.
      - intros I0. exists u. split; [exact I0|apply text_eqb_refl]. }
    rewrite <- Bool.not_true_iff_false, !X. unfold final_unused. rewrite visit_doc, roots_in.
    split.
    + intros N. destruct (existsb (text_eqb u) (flat_map prefixed_uris doc)) eqn:E; [apply X; exact E|]. exfalso. apply N. split.
      * right. exists name, attrs, kids, p. auto.
      * intros J. apply X in J. congruence.
    + intros J [_ K]. contradiction.
  - cbn [exit_root]. destruct (is_svg name) eqn:E; [|reflexivity]. exfalso. apply H. apply is_svg_root. exact E.
Qed.
Lemma unused_shape doc : Forall2 (fun n n' => (svg_root n -> n' = with_used (flat_map prefixed_uris doc) n) /\ (~ svg_root n -> n' = n))
  doc (remove_unused_ns doc).
Proof.
  unfold remove_unused_ns. fold (final_unused doc).
  assert (H : forall l, incl l doc -> Forall2 (fun n n' => (svg_root n -> n' = with_used (flat_map prefixed_uris doc) n) /\ (~ svg_root n -> n' = n)) l (map (exit_root (final_unused doc)) l)).
  { induction l as [|n l IH]; intros I0; constructor.
    - apply (exit_spec doc n). apply I0. left. reflexivity.
    - apply IH. intros x Hx. apply I0. right. exact Hx. }
  apply H. intros x Hx. exact Hx.
Qed.

(** Meaning. *)
Definition dropped_from (used : list text) (a b : list decl) : Prop :=
  forall p, innermost p a = innermost p b \/ (p <> None /\ exists u, innermost p a = Some u /\ ~ In u used).
Lemma dropped_app used own a b : dropped_from used a b -> dropped_from used (own ++ a) (own ++ b).
Proof. intros H p. rewrite !innermost_app. destruct (innermost p own); [left; reflexivity|]. apply H. Qed.
Lemma dropped_name used a b q : dropped_from used a b -> agrees_with a q -> incl (prefixed_uri q) used ->
  innermost (prefix_value (q_prefix q)) a = innermost (prefix_value (q_prefix q)) b.
Proof.
  intros H A I0. destruct (H (prefix_value (q_prefix q))) as [E|(N & u & E & J)]; [exact E|]. exfalso. apply J.
  apply I0. unfold prefixed_uri. destruct (prefix_value (q_prefix q)) as [p|] eqn:V; [|congruence].
  left. apply A. rewrite V. exact E.
Qed.
Definition dropped_ok (n : pnode) : Prop := forall used a b, dropped_from used a b -> consistent a n -> incl (prefixed_uris n) used ->
  mean_parsed a n = mean_parsed b n.
Lemma dropped_elem used name attrs kids a b : dropped_from used a b -> Forall dropped_ok kids ->
  agrees_with a name -> Forall (fun x => match x with AOther q _ => prefix_value (q_prefix q) <> None -> agrees_with a q | _ => True end) attrs ->
  (fix go l := match l with [] => True | x :: l => consistent a x /\ go l end) kids ->
  incl (prefixed_uris (PElem name attrs kids)) used ->
  element_uri (prefix_value (q_prefix name)) a = element_uri (prefix_value (q_prefix name)) b /\
  flat_map (mean_pattr a) attrs = flat_map (mean_pattr b) attrs /\ map (mean_parsed a) kids = map (mean_parsed b) kids.
Proof.
  intros L K A1 A2 A3 I0. cbn [prefixed_uris] in I0. apply incl_app_inv in I0. destruct I0 as [I1 I2]. apply incl_app_inv in I2. destruct I2 as [I2 I3].
  split; [|split].
  - apply element_uri_ext, (dropped_name used _ _ _ L A1 I1).
  - clear - L A2 I2. induction attrs as [|x attrs IH]; [reflexivity|]. inversion A2 as [|? ? B1 B2]; subst. cbn [flat_map] in *.
    apply incl_app_inv in I2. destruct I2 as [I1 I2]. rewrite (IH B2 I2). f_equal.
    destruct x as [u|n u|q v]; [reflexivity|reflexivity|]. cbn [mean_pattr]. do 3 f_equal. apply attr_uri_ext. intros Hp.
    apply (dropped_name used _ _ _ L (B1 Hp)). exact I1.
  - clear - L K A3 I3. induction kids as [|x kids IH]; [reflexivity|]. inversion K as [|? ? K1 K2]; subst. destruct A3 as [A3 A4]. cbn [map flat_map] in *.
    apply incl_app_inv in I3. destruct I3 as [I1 I3]. rewrite (IH K2 A4 I3). f_equal. exact (K1 used _ _ L A3 I1).
Qed.
Lemma dropped_spec : forall n, dropped_ok n.
Proof.
  fix IH 1. destruct n as [name attrs kids|t]; intros used a b L C I0; [|reflexivity].
  assert (K : Forall dropped_ok kids).
  { clear - IH. revert kids. fix IHk 1. destruct kids as [|x l]; constructor; [apply IH|apply IHk]. }
  clear IH. cbn [consistent] in C. destruct C as (C1 & C2 & C3).
  destruct (dropped_elem used name attrs kids _ _ (dropped_app used (declared attrs) _ _ L) K C1 C2 C3 I0) as (E1 & E2 & E3).
  cbn [mean_parsed]. rewrite E1, E2, E3. reflexivity.
Qed.
Lemma keep_declared used attrs scope : dropped_from used (declared attrs ++ scope) (declared (filter (keep_used used) attrs) ++ scope).
Proof.
  intros p. rewrite !innermost_app. induction attrs as [|a attrs IH]; [left; reflexivity|].
  assert (C : forall x l, declared (x :: l) = declared [x] ++ declared l) by (intros x l; unfold declared; cbn [flat_map]; rewrite app_nil_r; reflexivity).
  rewrite (C a attrs). cbn [filter]. rewrite innermost_app. destruct (keep_used used a) eqn:E.
  - rewrite (C a (filter _ attrs)), innermost_app. destruct (innermost p (declared [a])); [left; reflexivity|]. exact IH.
  - destruct a as [u|n u|q v]; try discriminate E. cbn [declared flat_map app innermost]. destruct (otext_eqb (Some n) p) eqn:F.
    + right. apply otext_eqb_iff in F. subst p. split; [discriminate|]. exists u. split; [reflexivity|]. intros J. cbn [keep_used] in E.
      rewrite <- Bool.not_true_iff_false in E. apply E. apply existsb_exists. exists u. split; [exact J|apply text_eqb_refl].
    + exact IH.
Qed.
Lemma mean_keep scope used attrs : flat_map (mean_pattr scope) (filter (keep_used used) attrs) = flat_map (mean_pattr scope) attrs.
Proof.
  induction attrs as [|a attrs IH]; [reflexivity|]. cbn [filter flat_map]. destruct (keep_used used a) eqn:E.
  - cbn [flat_map]. rewrite IH. reflexivity.
  - rewrite IH. destruct a as [u|n u|q v]; try discriminate E. reflexivity.
Qed.
Lemma with_used_mean used n : consistent [] n -> incl (prefixed_uris n) used -> mean_parsed [] (with_used used n) = mean_parsed [] n.
Proof.
  intros C I0. destruct n as [name attrs kids|t]; [|reflexivity]. cbn [consistent] in C. destruct C as (C1 & C2 & C3).
  assert (K : Forall dropped_ok kids) by (apply Forall_forall; intros x _; apply dropped_spec).
  destruct (dropped_elem used name attrs kids _ _ (keep_declared used attrs []) K C1 C2 C3 I0) as (E1 & E2 & E3).
  cbn [with_used mean_parsed]. rewrite E1, E2, E3, mean_keep. reflexivity.
Qed.
Lemma unused_mean doc : Forall (consistent []) doc -> map (mean_parsed []) (remove_unused_ns doc) = map (mean_parsed []) doc.
Proof.
  intros C. pose proof (unused_shape doc) as F.
  assert (G : forall l r, incl l doc -> Forall2 (fun n n' => (svg_root n -> n' = with_used (flat_map prefixed_uris doc) n) /\ (~ svg_root n -> n' = n)) l r ->
    Forall (consistent []) l -> map (mean_parsed []) r = map (mean_parsed []) l); [|exact (G doc _ (fun x Hx => Hx) F C)].
  clear F C. induction l as [|n l IH]; intros r I0 F C; inversion F as [|? n' ? r' [H1 H2] F2]; subst; [reflexivity|].
  inversion C as [|? ? C1 C2]; subst. cbn [map]. f_equal.
  - assert (D : svg_root n \/ ~ svg_root n).
    { destruct n as [name attrs kids|t]; [|right; intros []]. destruct (is_svg name) eqn:E; [left; apply is_svg_root, E|right]. intros J.
      apply is_svg_root in J. congruence. }
    destruct D as [D|D].
    + rewrite (H1 D). apply with_used_mean; [exact C1|]. intros x Hx. apply in_flat_map. exists n. split; [apply I0; left; reflexivity|exact Hx].
    + rewrite (H2 D). reflexivity.
  - apply IH; [|exact F2|exact C2]. intros x Hx. apply I0. right. exact Hx.
Qed.
Lemma unused_source s : declared_once s -> all_bound [] s -> named_from_outside s ->
  map (mean_parsed []) (remove_unused_ns [parse_root s]) = [mean_src [] s].
Proof.
  intros H1 H2 H3. rewrite unused_mean; [|constructor; [exact (parse_consistent s H1 H2 H3)|constructor]].
  cbn [map]. rewrite (parse_mean s H1 H2 H3). reflexivity.
Qed.
