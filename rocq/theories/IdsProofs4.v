(** Proofs about [prefix_ids]. *)
From Coq Require Import String List NArith Bool Arith Lia.
Import ListNotations.
From Verif Require Import Chars IdsModel IdsSpec IdsProofs IdsProofs2.

Lemma starts_with_app p t : starts_with p (p ++ t) = true.
Proof. unfold starts_with. assert (strip_prefix p (p ++ t) = Some t) as -> by now apply strip_prefix_spec. reflexivity. Qed.
Lemma prefix_id_idem p t : prefix_id p (prefix_id p t) = prefix_id p t.
Proof. unfold prefix_id. destruct (starts_with p t) eqn:E; [now rewrite E|now rewrite starts_with_app]. Qed.
Lemma prefix_reference_hash p r : prefix_reference p (35%N :: r) = 35%N :: prefix_id p r.
Proof. unfold prefix_reference, prefix_id. now destruct (starts_with p r). Qed.
Lemma prefix_reference_idem p u : prefix_reference p (prefix_reference p u) = prefix_reference p u.
Proof.
  destruct (hash_case u) as [(f & ->)|H].
  - now rewrite !prefix_reference_hash, prefix_id_idem.
  - assert (prefix_reference p u = u) as E by (unfold prefix_reference; apply H). now rewrite !E.
Qed.

Lemma prefix_idempotent g d path ids classes doc :
  prefix_ids g d path ids classes (prefix_ids g d path ids classes doc) = prefix_ids g d path ids classes doc.
Proof.
  unfold prefix_ids. destruct (negb ids && negb classes); auto. rewrite map_map. apply map_ext. intros e.
  set (p := generate g d path).
  assert (forall a, prefix_attr ids classes p (prefix_attr ids classes p a) = prefix_attr ids classes p a) as HA.
  { intros [n l]. unfold prefix_attr. cbn [aname apieces]. f_equal. rewrite map_map. apply map_ext. intros [u|t|t|t]; simpl.
    - now rewrite prefix_reference_idem.
    - destruct ids; simpl; auto. now rewrite prefix_id_idem.
    - destruct classes; simpl; auto. now rewrite prefix_id_idem.
    - reflexivity. }
  assert (forall c, prefix_css ids classes p (prefix_css ids classes p c) = prefix_css ids classes p c) as HC.
  { intros [t|t|u|t]; simpl.
    - destruct ids; simpl; auto. now rewrite prefix_id_idem.
    - destruct classes; simpl; auto. now rewrite prefix_id_idem.
    - destruct ids; simpl; auto. now rewrite prefix_reference_idem.
    - reflexivity. }
  unfold prefix_element at 2 3. destruct e as [l [[|c cs]|]]; cbn [pe_css pe_attrs].
  - reflexivity.
  - unfold prefix_element. cbn [pe_css pe_attrs map]. f_equal.
    + rewrite map_map. apply map_ext, HA.
    + f_equal. f_equal; [apply HC|]. rewrite map_map. apply map_ext, HC.
  - unfold prefix_element. cbn [pe_css pe_attrs]. f_equal. rewrite map_map. apply map_ext, HA.
Qed.

Lemma prefix_id_inj p (name : text -> Prop) t u : clash_free p name -> name t -> name u ->
  prefix_id p t = prefix_id p u -> t = u.
Proof.
  intros CF Ht Hu. unfold prefix_id.
  destruct (starts_with p t) eqn:A, (starts_with p u) eqn:B; intros E; auto.
  - exfalso. apply (CF u t Hu Ht B E).
  - exfalso. apply (CF t u Ht Hu A). now symmetry.
  - apply app_inv_head in E. exact E.
Qed.
Lemma has_percent_app a b : has_percent (a ++ b) = has_percent a || has_percent b.
Proof. apply existsb_app. Qed.

Section Prefix.
Variables (p : text) (classes : bool) (doc : list pelem).
Hypothesis PP : has_percent p = false.
Hypothesis PU : plain_urls doc.
Hypothesis NS : forall e, In e doc -> pe_css e <> Some [].
Hypothesis CI : clash_free p (id_name doc).
Hypothesis CC : classes = true -> clash_free p (class_name doc).
Let f := prefix_element true classes p.

Lemma f_shape e : In e doc ->
  pe_attrs (f e) = map (prefix_attr true classes p) (pe_attrs e) /\
  pe_css_parts (f e) = map (prefix_css true classes p) (pe_css_parts e).
Proof.
  intros H. unfold f, prefix_element, pe_css_parts. pose proof (NS e H) as N.
  destruct (pe_css e) as [[|c l]|] eqn:E; [congruence| |]; cbn; rewrite ?E; auto.
Qed.

Lemma percent_prefixed t : has_percent t = false -> has_percent (prefix_id p t) = false.
Proof. intros H. unfold prefix_id. destruct (starts_with p t); auto. now rewrite has_percent_app, PP, H. Qed.

Lemma names_prefixed e a q t : In e doc -> In a (pe_attrs e) -> In q (apieces a) ->
  names (prefix_piece true classes p q) t <-> exists t0, names q t0 /\ t = prefix_id p t0.
Proof.
  intros He Ha Hq. destruct q as [u|x|x|x].
  - destruct (hash_case u) as [(r & ->)|H].
    + assert (has_percent r = false) as Hr by (eapply (proj1 (PU e He)); eauto).
      unfold prefix_piece. rewrite prefix_reference_hash. cbn [names].
      rewrite !decode_plain by (try apply percent_prefixed; auto).
      split; [intros <-; eauto|intros (t0 & -> & ->); auto].
    + unfold prefix_piece. assert (prefix_reference p u = u) as -> by (unfold prefix_reference; apply H).
      cbn [names]. rewrite H. split; [intros []|intros (t0 & N & _)]. rewrite H in N. exact N.
  - cbn. split; [intros <-; eauto|intros (t0 & -> & ->); auto].
  - cbn. destruct classes; cbn; (split; [intros []|intros (t0 & [] & _)]).
  - cbn. split; [intros []|intros (t0 & [] & _)].
Qed.
Lemma css_names_prefixed e c t : In e doc -> In c (pe_css_parts e) ->
  css_names_id (prefix_css true classes p c) t <-> exists t0, css_names_id c t0 /\ t = prefix_id p t0.
Proof.
  intros He Hc. destruct c as [x|x|u|x].
  - cbn. split; [intros <-; eauto|intros (t0 & -> & ->); auto].
  - cbn. destruct classes; cbn; (split; [intros []|intros (t0 & [] & _)]).
  - destruct (hash_case u) as [(r & ->)|H].
    + assert (has_percent r = false) as Hr by (eapply (proj2 (PU e He)); eauto).
      unfold prefix_css. rewrite prefix_reference_hash. cbn [css_names_id].
      rewrite !decode_plain by (try apply percent_prefixed; auto).
      split; [intros <-; eauto|intros (t0 & -> & ->); auto].
    + unfold prefix_css. assert (prefix_reference p u = u) as -> by (unfold prefix_reference; apply H).
      cbn [css_names_id]. rewrite H. split; [intros []|intros (t0 & N & _)]. rewrite H in N. exact N.
  - cbn. split; [intros []|intros (t0 & [] & _)].
Qed.

Lemma id_prefixed e t : In e doc -> pe_has_id (f e) t <-> exists t0, pe_has_id e t0 /\ t = prefix_id p t0.
Proof.
  intros He. destruct (f_shape e He) as [SA _]. unfold pe_has_id. rewrite SA. split.
  - intros (a' & Ha & Hn & Hp). apply in_map_iff in Ha. destruct Ha as (a & <- & Ha). cbn in Hn, Hp.
    destruct (apieces a) as [|q [|? ?]] eqn:E; try discriminate Hp. cbn in Hp. inversion Hp as [Hq].
    destruct q as [u|x|x|x]; cbn in Hq; try discriminate Hq.
    + inversion Hq; subst. exists x. split; auto. exists a. auto.
    + destruct classes; discriminate Hq.
  - intros (t0 & (a & Ha & Hn & Hp) & ->). exists (prefix_attr true classes p a). split; [now apply in_map|].
    unfold prefix_attr. rewrite Hp. cbn. auto.
Qed.
Definition pc (t : text) : text := if classes then prefix_id p t else t.
Lemma class_prefixed e t : In e doc -> pe_has_class (f e) t <-> exists t0, pe_has_class e t0 /\ t = pc t0.
Proof.
  intros He. destruct (f_shape e He) as [SA _]. unfold pe_has_class, pc. rewrite SA. split.
  - intros (a' & Ha & Hp). apply in_map_iff in Ha. destruct Ha as (a & <- & Ha). cbn [prefix_attr apieces] in Hp.
    apply in_map_iff in Hp. destruct Hp as (q & Eq & Hq). destruct q as [u|x|x|x]; cbn in Eq; try discriminate Eq.
    exists x. split; [exists a; auto|]. destruct classes; inversion Eq; auto.
  - intros (t0 & (a & Ha & Hp) & ->). exists (prefix_attr true classes p a). split; [now apply in_map|].
    cbn [prefix_attr apieces]. apply in_map_iff. exists (ClassRef t0). split; [cbn; destruct classes; reflexivity|auto].
Qed.

Lemma id_name_has e t : In e doc -> pe_has_id e t -> id_name doc t.
Proof.
  intros He (a & Ha & Hn & Hp). exists e. split; auto. left. exists a, (IdRef t). rewrite Hp. cbn. auto.
Qed.

Lemma combine_map (A : Type) (l : list A) (h : A -> A) x y : In (x, y) (combine l (map h l)) -> In x l /\ y = h x.
Proof. induction l as [|z l IH]; cbn; [intros []|intros [E|E]; [inversion E; auto|apply IH in E; tauto]]. Qed.

Lemma prefix_linked e : In e doc -> linked doc (map f doc) e (f e).
Proof.
  intros He. destruct (f_shape e He) as [SA SC]. unfold linked. rewrite SA, SC. split.
  - assert (forall l, incl l (pe_attrs e) -> Forall2 (fun a a' => aname a = aname a' /\
      Forall2 (fun p0 p' => forall t t', In (t, t') (combine doc (map f doc)) -> (pe_points p0 t <-> pe_points p' t'))
             (apieces a) (apieces a')) l (map (prefix_attr true classes p) l)) as G; [|apply G; intros x; auto].
    induction l as [|a l IH]; intros Il; constructor; [|apply IH; intros x Hx; apply Il; right; auto].
    split; [reflexivity|]. cbn [prefix_attr apieces]. assert (In a (pe_attrs e)) as Ha by (apply Il; left; auto).
    assert (forall q, incl q (apieces a) -> Forall2 (fun p0 p' => forall t t', In (t, t') (combine doc (map f doc)) -> (pe_points p0 t <-> pe_points p' t'))
             q (map (prefix_piece true classes p) q)) as G; [|apply G; intros x; auto].
    induction q as [|x q IHq]; intros Iq; constructor; [|apply IHq; intros y Hy; apply Iq; right; auto].
    assert (In x (apieces a)) as Hx by (apply Iq; left; auto).
    intros t t' Ht. apply combine_map in Ht. destruct Ht as [Ht ->]. unfold pe_points. split.
    + intros (u & N & I). exists (prefix_id p u). split; [apply (names_prefixed e a); eauto|apply id_prefixed; eauto].
    + intros (u & N & I). apply (names_prefixed e a) in N; auto. destruct N as (u0 & N & ->).
      apply id_prefixed in I; auto. destruct I as (u1 & I & E).
      assert (u0 = u1) as ->; [|eauto]. apply (prefix_id_inj p (id_name doc)); auto.
      * exists e. split; auto. left. eauto.
      * eapply id_name_has; eauto.
  - assert (forall q, incl q (pe_css_parts e) -> Forall2 (fun c c' => forall t t', In (t, t') (combine doc (map f doc)) ->
       (css_points c t <-> css_points c' t') /\ (css_matches c t <-> css_matches c' t'))
             q (map (prefix_css true classes p) q)) as G; [|apply G; intros x; auto].
    induction q as [|x q IHq]; intros Iq; constructor; [|apply IHq; intros y Hy; apply Iq; right; auto].
    assert (In x (pe_css_parts e)) as Hx by (apply Iq; left; auto).
    intros t t' Ht. apply combine_map in Ht. destruct Ht as [Ht ->]. split; unfold css_points, css_matches; split.
    + intros (u & N & I). exists (prefix_id p u). split; [apply (css_names_prefixed e); eauto|apply id_prefixed; eauto].
    + intros (u & N & I). apply (css_names_prefixed e) in N; auto. destruct N as (u0 & N & ->).
      apply id_prefixed in I; auto. destruct I as (u1 & I & E).
      assert (u0 = u1) as ->; [|eauto]. apply (prefix_id_inj p (id_name doc)); auto.
      * exists e. split; auto. right. eauto.
      * eapply id_name_has; eauto.
    + intros (u & N & I). exists (pc u). split; [|apply class_prefixed; eauto].
      destruct x as [y|y|y|y]; cbn in N; try contradiction. subst. unfold pc. cbn. destruct classes; reflexivity.
    + intros (u & N & I). apply class_prefixed in I; auto. destruct I as (u0 & I & ->).
      destruct x as [y|y|y|y]; cbn in N; try contradiction.
      exists u0. split; [|exact I]. unfold pc in N. cbn in *. destruct classes; cbn in N; auto.
      apply (prefix_id_inj p (class_name doc)); auto.
      * exists e. split; auto. right. exists (CssClass y). split; auto. reflexivity.
      * exists t. split; auto.
Qed.

Lemma prefix_unique : pe_unique doc -> pe_unique (map f doc).
Proof.
  intros U i j e1 e2 t H1 H2 I1 I2. rewrite nth_error_map in H1, H2.
  destruct (nth_error doc i) as [a|] eqn:Ei; [|discriminate]. destruct (nth_error doc j) as [b|] eqn:Ej; [|discriminate].
  cbn in H1, H2. inversion H1; inversion H2; subst. pose proof (nth_error_In _ _ Ei) as Ha. pose proof (nth_error_In _ _ Ej) as Hb.
  apply id_prefixed in I1, I2; auto. destruct I1 as (t1 & I1 & E1), I2 as (t2 & I2 & E2).
  assert (t1 = t2) as ->.
  { apply (prefix_id_inj p (id_name doc)); auto; try congruence; [eapply (id_name_has a)|eapply (id_name_has b)]; eauto. }
  eapply U; eauto.
Qed.
End Prefix.

Lemma prefix_keeps_links g d path classes doc :
  let p := generate g d path in
  has_percent p = false -> plain_urls doc -> (forall e, In e doc -> pe_css e <> Some []) ->
  clash_free p (id_name doc) -> (classes = true -> clash_free p (class_name doc)) ->
  let doc' := prefix_ids g d path true classes doc in
  Forall2 (linked doc doc') doc doc' /\ (pe_unique doc -> pe_unique doc').
Proof.
  intros p PP PU NS CI CC doc'. unfold doc', prefix_ids. cbn [negb andb]. fold p. split.
  - assert (forall l, incl l doc -> Forall2 (linked doc (map (prefix_element true classes p) doc)) l
       (map (prefix_element true classes p) l)) as G; [|apply G; intros x; auto].
    induction l as [|e l IH]; intros Il; constructor; [|apply IH; intros x Hx; apply Il; right; auto].
    apply prefix_linked; auto. apply Il. left; auto.
  - apply prefix_unique; auto.
Qed.

Lemma before_slash_id t : existsb (N.eqb 47) t = false -> before_slash t = t /\ file_name t = t.
Proof.
  induction t as [|c t IH]; auto. cbn [existsb]. intros H. apply orb_false_iff in H. destruct H as [Hc Ht].
  destruct (IH Ht) as [E1 E2]. cbn [before_slash file_name]. rewrite Ht.
  assert ((c =? 47)%N = false) as -> by (rewrite N.eqb_sym; exact Hc). now rewrite E1.
Qed.
Lemma default_prefix delim path : path <> [] -> existsb (N.eqb 47) path = false ->
  generate GDefault delim (Some path) = underscore (file_name path) ++ delim.
Proof.
  intros NE H. destruct (before_slash_id path H) as [E1 E2]. unfold generate, get_basename.
  destruct path as [|c t]; [congruence|]. cbn [existsb] in H. apply orb_false_iff in H. destruct H as [Hc _].
  assert ((c =? 47)%N = false) as -> by (rewrite N.eqb_sym; exact Hc). now rewrite E1, E2.
Qed.
