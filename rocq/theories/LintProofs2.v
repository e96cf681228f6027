From Coq Require Import String List NArith Bool Arith Lia Permutation.
From Verif Require Import Chars NameModel NsModel NsSpec NsProofs LintModel LintSpec LintProofs.
From Verif Require IdsModel.
Import ListNotations.

(** ** The parsed document mirrors the source *)
Definition attr_mirror (scope : list decl) (a : option text * text * text) (x : pattr) : Prop :=
  exists q v, x = AOther q v /\ prefix_value (q_prefix q) = fst (fst a) /\ (fst (fst a) <> None -> agrees_with scope q).
Definition shape (scope own : list decl) (pre : option text) (attrs : list (option text * text * text)) (name : qual_name) (ats : list pattr) : Prop :=
  prefix_value (q_prefix name) = pre /\ agrees_with scope name /\
  exists qs, ats = map attr_of own ++ qs /\ Forall2 (attr_mirror scope) attrs qs.
Inductive mirror : list decl -> src -> pnode -> Prop :=
| m_other scope t t' : mirror scope (SOther t) (POther t')
| m_style scope own pre local attrs css css' name ats :
    shape (own ++ scope) own pre attrs name ats -> mirror scope (SStyle own pre local attrs css) (PElem name ats [POther css'])
| m_elem scope own pre local attrs kids name ats ks :
    shape (own ++ scope) own pre attrs name ats -> Forall2 (mirror (own ++ scope)) kids ks ->
    mirror scope (SElem own pre local attrs kids) (PElem name ats ks).

Lemma agrees_same a b q : same_scope a b -> agrees_with a q -> agrees_with b q.
Proof. intros S H u E. apply H. rewrite (S _). exact E. Qed.
Lemma shape_same a b own pre attrs name ats : same_scope a b -> shape a own pre attrs name ats -> shape b own pre attrs name ats.
Proof.
  intros S (P & A & qs & E & F). split; [exact P|]. split; [apply (agrees_same _ _ _ S A)|]. exists qs. split; [exact E|].
  clear - S F. induction F as [|x y l l' H F IH]; constructor; [|exact IH]. destruct H as (q & v & -> & H1 & H2).
  exists q, v. split; [reflexivity|]. split; [exact H1|]. intros N. apply (agrees_same _ _ _ S), H2, N.
Qed.
Lemma mirror_same : forall s a b p, same_scope a b -> mirror a s p -> mirror b s p.
Proof.
  fix IH 1. intros s a b p S H. destruct s as [own pre local attrs kids|own pre local attrs css|t]; inversion H; subst.
  - constructor; [apply (shape_same _ _ _ _ _ _ _ (same_app own _ _ S)); assumption|].
    match goal with K : Forall2 _ kids ks |- _ => rename K into F end. pose proof (same_app own _ _ S) as S'. clear - IH S' F. revert kids ks F.
    fix IHk 1. destruct kids as [|x l]; intros ks F.
    + inversion F; subst. constructor.
    + inversion F; subst. constructor; [apply (IH x _ _ _ S'); assumption|apply IHk; assumption].
  - constructor. apply (shape_same _ _ _ _ _ _ _ (same_app own _ _ S)); assumption.
  - constructor.
Qed.

Lemma innermost_seen (seen : list decl) scope p u : NoDup (map fst seen) -> incl scope seen -> innermost p scope = Some u -> innermost p seen = Some u.
Proof.
  intros N I0 E. apply innermost_in in E. apply I0 in E. exact (innermost_unique seen (p, u) N E).
Qed.
Lemma prefixed_innermost (seen : list decl) scope p u : NoDup (map fst seen) -> incl scope seen -> In xml_decl seen ->
  innermost (Some p) scope = Some u -> prefixed p scope = Some (Some u).
Proof.
  intros N I0 Ix E. unfold prefixed. destruct (text_eqb p (lit "xml")) eqn:X; [|rewrite E; reflexivity].
  apply text_eqb_spec in X. subst p. apply (innermost_seen seen) in E; [|exact N|exact I0].
  pose proof (innermost_unique seen xml_decl N Ix) as F. cbn [xml_decl fst snd] in F. rewrite E in F. injection F as ->. reflexivity.
Qed.

Lemma element_shape own pre local attrs inh m seen :
  holds m seen -> incl inh seen -> In xml_decl seen ->
  NoDup (map fst (own ++ seen)) -> NoDup (map snd (own ++ seen)) -> ~ In [] (map snd (own ++ seen)) ->
  (pre = None \/ ~ In pre (map fst own)) ->
  element_uri pre (own ++ inh) <> None -> Forall (bound_attr (own ++ inh)) attrs ->
  exists name ats m',
    parse_element own pre local attrs inh m = (name, ats, m', []) /\ holds m' (rev own ++ seen) /\
    shape (own ++ inh) own pre attrs name ats.
Proof.
  intros H I0 Ix N1 N2 Ne Np Be Ba.
  pose proof (element_memory own pre local attrs inh m) as Mem. revert Mem. unfold parse_element.
  assert (Ne' : ~ In [] (map snd own)) by (intros J; apply Ne; rewrite map_app; apply in_or_app; left; exact J).
  destruct (new_own own m seen (filter (fun d => negb (existsb (fun o => otext_eqb (fst o) (fst d)) own)) inh) H N1 N2 Ne') as (m' & H' & R).
  cbv zeta. change (new_xmlns (namespaces own inh) m []) with (new_xmlns (own ++ filter (fun d => negb (existsb (fun o => otext_eqb (fst o) (fst d)) own)) inh) m []). rewrite R.
  assert (N1' : NoDup (map fst (rev own ++ seen))).
  { apply (Permutation_NoDup (l := map fst (own ++ seen))); [|exact N1]. apply Permutation_map.
    apply Permutation_app_tail, Permutation_rev. }
  assert (N2' : NoDup (map snd (rev own ++ seen))).
  { apply (Permutation_NoDup (l := map snd (own ++ seen))); [|exact N2]. apply Permutation_map.
    apply Permutation_app_tail, Permutation_rev. }
  rewrite (new_old _ m' (rev own ++ seen) [] H' N1').
  2:{ intros d Hd. apply filter_In in Hd. apply in_or_app. right. apply I0, Hd. }
  rewrite app_nil_r. intros [_ Mem]. cbn [fst] in Mem.
  exists (name_of (element_ns pre (namespaces own inh)) local m), (map attr_of own ++ map (parse_attr (namespaces own inh) m') attrs), m'.
  split; [reflexivity|]. split; [exact H'|].
  assert (Inc : incl (own ++ inh) (own ++ seen)).
  { intros d Hd. apply in_app_or in Hd. apply in_or_app. destruct Hd as [Hd|Hd]; [left; exact Hd|right; apply I0, Hd]. }
  assert (Ix' : In xml_decl (own ++ seen)) by (apply in_or_app; right; exact Ix).
  assert (NE : forall p u, innermost p (own ++ inh) = Some u -> u <> []).
  { intros p u E F. subst u. apply Ne. apply innermost_in in E. apply Inc in E. apply (in_map snd) in E. exact E. }
  assert (V : prefix_value (q_prefix (name_of (element_ns pre (namespaces own inh)) local m)) = pre)
    by (apply (element_name_ok own inh m seen pre local H I0 Ix N2 Np Be)).
  split; [exact V|]. split.
  - intros u E. rewrite V in E. pose proof (NE _ _ E) as Nu. destruct pre as [p|]; cbn [element_uri] in Mem.
    + rewrite (prefixed_innermost _ _ _ _ N1 Inc Ix' E) in Mem. apply Mem, Nu.
    + rewrite E in Mem. destruct u as [|c u]; [congruence|]. apply Mem, Nu.
  - exists (map (parse_attr (namespaces own inh) m') attrs). split; [reflexivity|]. clear Mem V Be Np.
    induction attrs as [|[[p l] v] attrs IH]; [constructor|]. inversion Ba as [|? ? B1 B2]; subst. cbn [map parse_attr].
    constructor; [|apply IH; exact B2].
    assert (V : prefix_value (q_prefix (name_of (attr_ns p (namespaces own inh)) l m')) = p).
    { apply (attr_name_ok own inh m' (rev own ++ seen) p l H'); [| |exact N2'|exact B1].
      - intros d Hd. apply in_app_or in Hd. apply in_or_app. destruct Hd as [Hd|Hd]; [left; apply in_rev in Hd; exact Hd|right; apply I0, Hd].
      - apply in_or_app. right. exact Ix. }
    exists (name_of (attr_ns p (namespaces own inh)) l m'), v. split; [reflexivity|]. split; [exact V|]. cbn [fst]. intros Np u E.
    rewrite V in E. pose proof (NE _ _ E) as Nu. destruct p as [p|]; [|congruence].
    pose proof (prefixed_innermost _ _ _ _ N1 Inc Ix' E) as X.
    assert (S2 : same_scope (own ++ inh) (namespaces own inh)) by (intros z; symmetry; apply innermost_namespaces).
    assert (Y : attr_uri (Some p) (namespaces own inh) = Some (Some u)) by (rewrite <- (attr_uri_same _ _ _ S2); exact X).
    assert (Z : attr_ns (Some p) (namespaces own inh) = Some u).
    { pose proof (attr_ns_uri (Some p) (namespaces own inh)) as Q. rewrite Y in Q. specialize (Q ltac:(discriminate)). congruence. }
    rewrite Z. unfold memory_uri, name_of. cbn [q_prefix]. apply prefix_new_uri. exact Nu.
Qed.

Definition mirror_ok (s : src) : Prop := forall inh m seen,
  holds m seen -> incl inh seen -> In xml_decl seen ->
  NoDup (map fst (all_decls s ++ seen)) -> NoDup (map snd (all_decls s ++ seen)) -> ~ In [] (map snd (all_decls s ++ seen)) ->
  named_from_outside s -> all_bound inh s ->
  exists m' seen', snd (parse_node s inh m) = m' /\ holds m' seen' /\ Permutation seen' (all_decls s ++ seen) /\
    mirror inh s (fst (parse_node s inh m)).

Lemma mirror_kids ns : forall kids, each mirror_ok kids -> forall m seen,
  holds m seen -> incl ns seen -> In xml_decl seen ->
  NoDup (map fst (flat_map all_decls kids ++ seen)) -> NoDup (map snd (flat_map all_decls kids ++ seen)) ->
  ~ In [] (map snd (flat_map all_decls kids ++ seen)) ->
  each named_from_outside kids -> each (all_bound ns) kids ->
  exists m' seen', snd (pkids (fun x m => parse_node x ns m) kids m) = m' /\ holds m' seen' /\
    Permutation seen' (flat_map all_decls kids ++ seen) /\
    Forall2 (mirror ns) kids (fst (pkids (fun x m => parse_node x ns m) kids m)).
Proof.
  induction kids as [|x kids IH]; intros Hk m seen H I0 Ix N1 N2 Ne Hn Hb.
  - exists m, seen. split; [reflexivity|]. split; [exact H|]. split; [apply Permutation_refl|constructor].
  - destruct Hk as [Hx Hk], Hn as [Hn1 Hn2], Hb as [Hb1 Hb2]. cbn [flat_map] in *.
    rewrite <- app_assoc in N1, N2, Ne.
    destruct (Hx ns m seen H I0 Ix) as (m1 & seen1 & E1 & H1 & P1 & M1).
    { apply nodup_skip in N1. exact N1. }
    { apply nodup_skip in N2. exact N2. }
    { intros J. apply Ne. rewrite !map_app in *. rewrite !in_app_iff in *. tauto. }
    { exact Hn1. } { exact Hb1. }
    assert (P2 : Permutation (all_decls x ++ flat_map all_decls kids ++ seen) (flat_map all_decls kids ++ seen1)).
    { rewrite P1. rewrite !app_assoc. apply Permutation_app_tail, Permutation_app_comm. }
    destruct (IH Hk m1 seen1 H1) as (m2 & seen2 & E2 & H2 & P3 & M2).
    { intros d Hd. apply (Permutation_in _ (Permutation_sym P1)). apply in_or_app. right. apply I0, Hd. }
    { apply (Permutation_in _ (Permutation_sym P1)). apply in_or_app. right. exact Ix. }
    { apply (Permutation_NoDup (Permutation_map fst P2)). exact N1. }
    { apply (Permutation_NoDup (Permutation_map snd P2)). exact N2. }
    { intros J. apply Ne. apply (Permutation_in _ (Permutation_map snd (Permutation_sym P2))). exact J. }
    { exact Hn2. } { exact Hb2. }
    exists m2, seen2. cbn [pkids].
    destruct (parse_node x ns m) as [y m1'] eqn:Ey. cbn [fst snd] in *. subst m1'.
    destruct (pkids _ kids m1) as [r m2'] eqn:Er. cbn [fst snd] in *. subst m2'.
    split; [reflexivity|]. split; [exact H2|]. split.
    + rewrite P3, <- P2, <- app_assoc. reflexivity.
    + constructor; assumption.
Qed.

Lemma mirror_spec : forall s, mirror_ok s.
Proof.
  fix IH 1. destruct s as [own pre local attrs kids|own pre local attrs css|t]; intros inh m seen H I0 Ix N1 N2 Ne Hn Hb.
  - cbn [all_decls] in *. rewrite <- app_assoc in N1, N2, Ne. destruct Hn as [Hn1 Hn2], Hb as (Hb1 & Hb2 & Hb3).
    destruct (element_shape own pre local attrs inh m seen H I0 Ix) as (name & ats & m1 & E & H1 & Sh).
    { apply nodup_skip in N1. exact N1. }
    { apply nodup_skip in N2. exact N2. }
    { intros J. apply Ne. rewrite !map_app in *. rewrite !in_app_iff in *. tauto. }
    { exact Hn1. } { exact Hb1. } { exact Hb2. }
    rewrite parse_elem, E.
    assert (P2 : Permutation (own ++ flat_map all_decls kids ++ seen) (flat_map all_decls kids ++ rev own ++ seen)).
    { rewrite !app_assoc. apply Permutation_app_tail. rewrite (Permutation_rev own) at 1. apply Permutation_app_comm. }
    destruct (mirror_kids (namespaces own inh) kids) with (m := m1) (seen := rev own ++ seen)
      as (m2 & seen2 & E2 & H2 & P3 & M2).
    { clear - IH. revert kids. fix IHk 1. destruct kids as [|x l]; [exact Logic.I|]. split; [apply IH|apply IHk]. }
    { exact H1. }
    { intros d Hd. unfold namespaces in Hd. apply in_app_or in Hd. apply in_or_app. destruct Hd as [Hd|Hd]; [left; apply in_rev in Hd; exact Hd|].
      apply filter_In in Hd. right. apply I0, Hd. }
    { apply in_or_app. right. exact Ix. }
    { apply (Permutation_NoDup (Permutation_map fst P2)). exact N1. }
    { apply (Permutation_NoDup (Permutation_map snd P2)). exact N2. }
    { intros J. apply Ne. apply (Permutation_in _ (Permutation_map snd (Permutation_sym P2))). exact J. }
    { exact Hn2. }
    { assert (S2 : same_scope (own ++ inh) (namespaces own inh)) by (intros p; symmetry; apply innermost_namespaces).
      clear - Hb3 S2. revert Hb3. induction kids as [|x l IHk]; intros Hb; [exact Logic.I|]. destruct Hb as [Hb1 Hb2].
      split; [apply (same_bound _ _ S2 x Hb1)|apply IHk, Hb2]. }
    destruct (pkids _ kids m1) as [ks m2'] eqn:Ek. cbn [fst snd] in *. subst m2'.
    exists m2, seen2. split; [reflexivity|]. split; [exact H2|]. split.
    + rewrite P3, <- P2, <- app_assoc. reflexivity.
    + constructor; [exact Sh|]. clear - M2. induction M2 as [|x y l l' M F IHf]; constructor; [|exact IHf].
      apply (mirror_same _ (namespaces own inh)); [|exact M]. intros p. apply innermost_namespaces.
  - cbn [all_decls] in *. destruct Hb as (Hb1 & Hb2).
    destruct (element_shape own pre local attrs inh m seen H I0 Ix N1 N2 Ne Hn Hb1 Hb2) as (name & ats & m1 & E & H1 & Sh).
    cbn [parse_node]. rewrite E. exists m1, (rev own ++ seen). split; [reflexivity|]. split; [exact H1|]. split.
    + apply Permutation_app_tail, Permutation_sym, Permutation_rev.
    + cbn [fst]. constructor. exact Sh.
  - exists m, seen. split; [reflexivity|]. split; [exact H|]. split; [apply Permutation_refl|constructor].
Qed.
Lemma parse_mirror s : declared_once s -> all_bound [] s -> named_from_outside s -> mirror [] s (parse_root s).
Proof.
  intros (N1 & N2 & Ne) B Hn.
  destruct (mirror_spec s [] ns_start [xml_decl] start_holds) as (m & seen & _ & _ & _ & M); try assumption.
  - intros d [].
  - left. reflexivity.
  - intros J. rewrite map_app in J. apply in_app_or in J. destruct J as [J|[J|[]]]; [exact (Ne J)|discriminate J].
Qed.

Lemma shape_declared scope own pre attrs name ats : shape scope own pre attrs name ats -> declared ats = own.
Proof.
  intros (_ & _ & qs & -> & F). apply declared_attrs. intros a Ha. clear - F Ha. induction F as [|x y l l' H F IH]; [destruct Ha|].
  destruct Ha as [<-|Ha]; [|apply IH, Ha]. destruct H as (q & v & -> & _). eauto.
Qed.

(** Parsed documents are consistent. *)
Lemma shape_attrs scope own pre attrs name ats : shape scope own pre attrs name ats ->
  Forall (fun a => match a with AOther q _ => prefix_value (q_prefix q) <> None -> agrees_with scope q | _ => True end) ats.
Proof.
  intros (_ & _ & qs & -> & F). apply Forall_app. split.
  - apply Forall_forall. intros x Hx. apply in_map_iff in Hx. destruct Hx as ([[n|] u] & <- & _); exact Logic.I.
  - induction F as [|x y l l' H F IH]; constructor; [|exact IH]. destruct H as (q & v & -> & H1 & H2). rewrite H1. exact H2.
Qed.
Lemma mirror_consistent : forall s scope p, mirror scope s p -> consistent scope p.
Proof.
  fix IH 1. intros s scope p H. destruct s as [own pre local attrs kids|own pre local attrs css|t]; inversion H; subst.
  - match goal with K : shape _ _ _ _ _ _ |- _ => rename K into Sh end.
    match goal with K : Forall2 _ kids ks |- _ => rename K into F end.
    cbn [consistent]. rewrite (shape_declared _ _ _ _ _ _ Sh). split; [apply Sh|]. split; [apply (shape_attrs _ _ _ _ _ _ Sh)|].
    clear - IH F. revert kids ks F. fix IHk 1. destruct kids as [|x l]; intros ks F; inversion F; subst; [exact Logic.I|].
    split; [apply (IH x); assumption|apply (IHk l); assumption].
  - match goal with K : shape _ _ _ _ _ _ |- _ => rename K into Sh end.
    cbn [consistent]. rewrite (shape_declared _ _ _ _ _ _ Sh). split; [apply Sh|]. split; [apply (shape_attrs _ _ _ _ _ _ Sh)|].
    split; exact Logic.I.
  - exact Logic.I.
Qed.

Lemma nodup_app_fst {A} (a b : list A) : NoDup (a ++ b) -> NoDup a.
Proof.
  induction a as [|x a IH]; intros N; [constructor|]. inversion N as [|? ? N1 N2]; subst. constructor; [|apply IH; assumption].
  intros J. apply N1. apply in_or_app. left. exact J.
Qed.
(** The elements of both are at the same places. *)
Lemma mirror_at : forall path s scope p e, mirror scope s p -> at_path p path = Some e ->
  exists scope' f, src_at s path = Some f /\ mirror scope' f e /\ incl (own_decls f) (all_decls f) /\ incl (all_decls f) (all_decls s) /\
    forall q, ~ In q (map fst scope) -> In q (map fst (all_decls f)) -> NoDup (map fst (all_decls s)) -> ~ In q (map fst scope').
Proof.
  induction path as [|i path IH]; intros s scope p e M P.
  - destruct s as [own pre local attrs kids|own pre local attrs css|t]; inversion M; subst; cbn [at_path] in P.
    + injection P as <-. exists scope. eexists. split; [reflexivity|]. split; [exact M|]. split.
      * intros d Hd. cbn [all_decls own_decls] in *. apply in_or_app. left. exact Hd.
      * split; [intros d Hd; exact Hd|]. intros q Hq _ _. exact Hq.
    + injection P as <-. exists scope. eexists. split; [reflexivity|]. split; [exact M|]. split.
      * intros d Hd. exact Hd.
      * split; [intros d Hd; exact Hd|]. intros q Hq _ _. exact Hq.
    + discriminate P.
  - destruct s as [own pre local attrs kids|own pre local attrs css|t]; inversion M; subst; cbn [at_path] in P.
    + match goal with K : Forall2 _ kids ks |- _ => rename K into F end.
      destruct (nth_error ks i) as [y|] eqn:N; [|discriminate P].
      assert (X : exists x a b, nth_error kids i = Some x /\ kids = a ++ x :: b /\ mirror (own ++ scope) x y).
      { clear - F N. revert i N. induction F as [|x z l l' H F IHf]; intros i N; [destruct i; discriminate N|]. destruct i as [|i].
        - injection N as ->. exists x, [], l. auto.
        - destruct (IHf i N) as (x' & a & b & E1 & -> & E2). exists x', (x :: a), b. auto. }
      destruct X as (x & a & b & Nx & Ek & Mx). destruct (IH x _ y e Mx P) as (scope' & f & E1 & E2 & E3 & E4 & E5).
      exists scope', f. cbn [src_at]. rewrite Nx. split; [exact E1|]. split; [exact E2|]. split; [exact E3|]. cbn [all_decls].
      assert (I2 : incl (all_decls x) (flat_map all_decls kids)).
      { intros d Hd. apply in_flat_map. exists x. split; [rewrite Ek; apply in_elt|exact Hd]. }
      split.
      * intros d Hd. apply in_or_app. right. apply I2, E4, Hd.
      * intros q Hq Hf ND. apply E5; [|exact Hf|].
        -- rewrite map_app. intros J. apply in_app_or in J. destruct J as [J|J]; [|exact (Hq J)].
           rewrite map_app in ND. apply (nodup_app_l _ _ _ ND J). apply in_map_iff in Hf. destruct Hf as (d & <- & Hd).
           apply in_map, I2, E4, Hd.
        -- rewrite map_app in ND. apply nodup_app_r in ND. rewrite Ek, flat_map_app in ND. rewrite map_app in ND. apply nodup_app_r in ND.
           cbn [flat_map] in ND. rewrite map_app in ND. apply nodup_app_fst in ND. exact ND.
    + destruct i as [|i]; cbn [nth_error] in P; [destruct path; discriminate P|destruct i; discriminate P].
    + discriminate P.
Qed.

(** A prefix used in the source is used by the names, unless it is declared again below. *)
Lemma shape_uses scope own pre attrs name ats p u kids : shape scope own pre attrs name ats ->
  innermost p scope = Some u -> p = pre \/ In p (attr_prefixes attrs) -> In (p, u) (names_in (PElem name ats kids)).
Proof.
  intros (P & A & qs & -> & F) E [->|J]; cbn [names_in].
  - left. unfold name_key. rewrite P, (A u); [reflexivity|]. rewrite P. exact E.
  - right. apply in_or_app. left. rewrite map_app. apply in_or_app. right. clear - F E J.
    induction F as [|x y l l' H F IH]; [destruct J|]. cbn [attr_prefixes flat_map] in J. apply in_app_or in J. destruct J as [J|J].
    + destruct H as (q & v & -> & H1 & H2). cbn [map]. left. destruct (fst (fst x)) as [z|] eqn:Ex; [|destruct J].
      destruct J as [<-|[]]. unfold attr_key, name_key. rewrite H1, (H2 ltac:(discriminate) u); [reflexivity|]. rewrite H1. exact E.
    + right. apply IH. exact J.
Qed.
Lemma mirror_uses : forall s scope q p u, mirror scope s q -> innermost p scope = Some u -> ~ In p (map fst (all_decls s)) ->
  In p (prefixes_in s) -> In (p, u) (names_in q).
Proof.
  fix IH 1. intros s scope q p u M E N J. destruct s as [own pre local attrs kids|own pre local attrs css|t]; inversion M; subst.
  - match goal with K : shape _ _ _ _ _ _ |- _ => rename K into Sh end.
    match goal with K : Forall2 _ kids ks |- _ => rename K into F end.
    cbn [all_decls] in N. rewrite map_app in N.
    assert (E' : innermost p (own ++ scope) = Some u).
    { rewrite innermost_app. replace (innermost p own) with (@None text); [exact E|]. symmetry. apply innermost_none. intros K. apply N, in_or_app. left. exact K. }
    cbn [prefixes_in] in J. destruct J as [J|J]; [apply (shape_uses _ _ _ _ _ _ _ _ _ Sh E'); left; auto|].
    apply in_app_or in J. destruct J as [J|J]; [apply (shape_uses _ _ _ _ _ _ _ _ _ Sh E'); right; exact J|].
    cbn [names_in]. right. apply in_or_app. right.
    assert (N' : ~ In p (map fst (flat_map all_decls kids))) by (intros K; apply N, in_or_app; right; exact K).
    clear - IH F E' N' J. revert kids ks F N' J. fix IHk 1. destruct kids as [|x l]; intros ks F N' J; [destruct J|].
    inversion F; subst. cbn [flat_map] in *. rewrite map_app in N'. apply in_or_app. apply in_app_or in J. destruct J as [J|J].
    + left. apply (IH x (own ++ scope)); try assumption. intros K. apply N', in_or_app. left. exact K.
    + right. apply (IHk l); try assumption. intros K. apply N', in_or_app. right. exact K.
  - match goal with K : shape _ _ _ _ _ _ |- _ => rename K into Sh end. cbn [all_decls] in N.
    assert (E' : innermost p (own ++ scope) = Some u).
    { rewrite innermost_app. apply innermost_none in N. rewrite N. exact E. }
    cbn [prefixes_in] in J. apply (shape_uses _ _ _ _ _ _ _ _ _ Sh E'). destruct J as [J|J]; [left; auto|right; exact J].
  - destruct J.
Qed.

Lemma nodup_kid (x : src) kids own : In x kids -> NoDup (map fst (own ++ flat_map all_decls kids)) -> 
  forall p, In p (map fst own) -> ~ In p (map fst (all_decls x)).
Proof.
  intros Hx N p Hp J. rewrite map_app in N. apply (nodup_app_l _ _ _ N Hp). apply in_map_iff in J. destruct J as (d & <- & Hd).
  apply in_map. apply in_flat_map. eauto.
Qed.

Lemma lint_source s path p u : declared_once s -> all_bound [] s -> named_from_outside s ->
  In (path, (p, u)) (lint_document_xmlns (parse_root s)) ->
  exists e, src_at s path = Some e /\ In (p, u) (own_decls e) /\ ~ In p (prefixes_in e).
Proof.
  intros Hd Hb Hn R. pose proof (parse_mirror s Hd Hb Hn) as M. apply lint_exact in R. destruct R as (name & ats & kids & P & D & U).
  destruct (mirror_at path s [] _ _ M P) as (scope' & f & E & Mf & I1 & I2 & Ns). exists f. split; [exact E|].
  destruct Hd as (N1 & _ & _). rewrite map_app in N1. apply nodup_app_fst in N1.
  assert (NF : NoDup (map fst (all_decls f))).
  { clear - E N1. revert s E N1. induction path as [|i path IH]; intros s E N1.
    - destruct s; cbn [src_at] in E; try discriminate E; injection E as <-; exact N1.
    - destruct s as [own pre local attrs ks|own pre local attrs css|t]; cbn [src_at] in E; try discriminate E.
      destruct (nth_error ks i) as [x|] eqn:N; [|discriminate E]. apply (IH x E). cbn [all_decls] in N1. rewrite map_app in N1.
      apply nodup_app_r in N1. apply nth_error_split in N. destruct N as (a & b & -> & _). rewrite flat_map_app, map_app in N1.
      apply nodup_app_r in N1. cbn [flat_map] in N1. rewrite map_app in N1. apply nodup_app_fst in N1. exact N1. }
  destruct f as [own pre local attrs ks|own pre local attrs css|t]; inversion Mf; subst.
  - match goal with K : shape _ _ _ _ _ _ |- _ => rename K into Sh end.
    match goal with K : Forall2 _ ks kids |- _ => rename K into F end.
    rewrite (shape_declared _ _ _ _ _ _ Sh) in D. cbn [own_decls]. split; [exact D|]. intros J. apply U.
    cbn [all_decls] in NF.
    assert (E' : innermost p (own ++ scope') = Some u).
    { rewrite innermost_app. rewrite map_app in NF. apply nodup_app_fst in NF. pose proof (innermost_unique own (p, u) NF D) as Q. cbn [fst snd] in Q. rewrite Q. reflexivity. }
    cbn [prefixes_in] in J. destruct J as [J|J]; [apply (shape_uses _ _ _ _ _ _ _ _ _ Sh E'); left; auto|].
    apply in_app_or in J. destruct J as [J|J]; [apply (shape_uses _ _ _ _ _ _ _ _ _ Sh E'); right; exact J|].
    cbn [names_in]. right. apply in_or_app. right.
    assert (Q : forall x, In x ks -> ~ In p (map fst (all_decls x))).
    { intros x Hx. apply (nodup_kid x ks own Hx NF). change p with (fst (p, u)). apply in_map. exact D. }
    clear - F E' J Q. induction F as [|x y l l' M F IH]; [destruct J|]. cbn [flat_map] in *. apply in_or_app. apply in_app_or in J. destruct J as [J|J].
    + left. apply (mirror_uses x (own ++ scope')); try assumption. apply Q. left. reflexivity.
    + right. apply IH; [exact J|]. intros z Hz. apply Q. right. exact Hz.
  - match goal with K : shape _ _ _ _ _ _ |- _ => rename K into Sh end.
    rewrite (shape_declared _ _ _ _ _ _ Sh) in D. cbn [own_decls]. split; [exact D|]. intros J. apply U.
    cbn [all_decls] in NF.
    assert (E' : innermost p (own ++ scope') = Some u).
    { rewrite innermost_app. pose proof (innermost_unique own (p, u) NF D) as Q. cbn [fst snd] in Q. rewrite Q. reflexivity. }
    cbn [prefixes_in] in J. apply (shape_uses _ _ _ _ _ _ _ _ _ Sh E'). destruct J as [J|J]; [left; auto|right; exact J].
Qed.

(** ** Ids *)
Lemma text_in t l : existsb (text_eqb t) l = true <-> In t l.
Proof.
  rewrite existsb_exists. split.
  - intros (x & I0 & E). apply text_eqb_spec in E. subst. exact I0.
  - intros I0. exists t. split; [exact I0|apply text_eqb_refl].
Qed.
Lemma keys_in t : forall l, In t (keys l) <-> In t l.
Proof.
  induction l as [|x l IH]; [reflexivity|]. cbn [keys]. destruct (existsb (text_eqb x) l) eqn:E.
  - rewrite IH. apply text_in in E. cbn [In]. split; [auto|]. intros [<-|J]; assumption.
  - cbn [In]. rewrite IH. reflexivity.
Qed.
Lemma keys_nodup : forall l, NoDup (keys l).
Proof.
  induction l as [|x l IH]; [constructor|]. cbn [keys]. destruct (existsb (text_eqb x) l) eqn:E; [exact IH|].
  constructor; [|exact IH]. rewrite keys_in. intros J. apply text_in in J. congruence.
Qed.
Lemma as_id_carries a t : IdsModel.as_id a = Some t <-> carries_id a t.
Proof.
  unfold IdsModel.as_id, carries_id. destruct a as [n l]. cbn [IdsModel.aname IdsModel.apieces]. destruct (Nat.eqb n 0) eqn:E.
  - apply Nat.eqb_eq in E. subst n. split.
    + destruct l as [|[u|u|u|u] [|y l]]; intros H; try discriminate H. injection H as ->. reflexivity.
    + intros H. injection H as ->. reflexivity.
  - apply Nat.eqb_neq in E. split; [discriminate|]. intros H. injection H as -> _. congruence.
Qed.
Definition exact_piece (id : text) (p : IdsModel.piece) : Prop :=
  match p with IdsModel.IdRef t => t = id | IdsModel.Url t => t = 35%N :: id | _ => False end.
Lemma attr_refs_in id a : In id (attr_refs a) <-> (forall t, ~ carries_id a t) /\ exists p, In p (IdsModel.apieces a) /\ exact_piece id p.
Proof.
  unfold attr_refs. destruct (IdsModel.as_id a) as [t|] eqn:E.
  - split; [intros []|]. intros [H _]. apply as_id_carries in E. destruct (H _ E).
  - rewrite in_app_iff, !in_flat_map. split.
    + intros H. split.
      { intros t K. apply as_id_carries in K. congruence. }
      destruct H as [(p & I0 & H)|(p & I0 & H)].
      * exists p. split; [exact I0|]. destruct p as [u|u|u|u]; [destruct H| |destruct H|destruct H]. destruct H as [H|[]]. exact H.
      * exists p. split; [exact I0|]. destruct p as [u|u|u|u]; [|destruct H|destruct H|destruct H].
        destruct u as [|c u]; [destruct H|]. destruct (N.eq_dec c 35) as [->|Nc].
        -- destruct H as [<-|[]]. reflexivity.
        -- exfalso. revert H. destruct c as [|q]; [intros []|]. do 6 (try (destruct q as [q|q|]; try (intros []))); congruence.
    + intros (_ & p & I0 & H). destruct p as [u|u|u|u]; [| |destruct H|destruct H]; cbn in H.
      * right. exists (IdsModel.Url u). split; [exact I0|]. rewrite H. left. reflexivity.
      * left. exists (IdsModel.IdRef u). split; [exact I0|]. left. exact H.
Qed.
Lemma css_refs_in id l : In id (css_refs l) <-> In (CssUrl (35%N :: id)) l.
Proof.
  unfold css_refs. rewrite in_flat_map. split.
  - intros (c & I0 & H). destruct c as [u|u]; [|destruct H]. destruct u as [|c u]; [destruct H|]. destruct (N.eq_dec c 35) as [->|Nc].
    + destruct H as [<-|[]]. exact I0.
    + exfalso. revert H. destruct c as [|q]; [intros []|]. do 6 (try (destruct q as [q|q|]; try (intros []))); congruence.
  - intros I0. eexists. split; [exact I0|]. left. reflexivity.
Qed.
Lemma in_concat_iff {A B} (f : A -> list B) (x : B) (ll : list (list A)) : In x (flat_map f (concat ll)) <-> exists l a, In l ll /\ In a l /\ In x (f a).
Proof.
  rewrite in_flat_map. split.
  - intros (a & I0 & H). apply in_concat in I0. destruct I0 as (l & I1 & I2). eauto.
  - intros (l & a & I1 & I2 & H). exists a. split; [apply in_concat; eauto|exact H].
Qed.
Lemma lint_ids_exact sheets elements id :
  In id (lint_ids false sheets elements) <->
  (exists l a, In l elements /\ In a l /\ carries_id a id) /\ ~ exactly_refers sheets elements id.
Proof.
  unfold lint_ids. rewrite filter_In, keys_in, in_concat_iff, negb_true_iff.
  assert (R : existsb (text_eqb id) (css_refs sheets ++ flat_map attr_refs (concat elements)) = false <-> ~ exactly_refers sheets elements id).
  { rewrite <- Bool.not_true_iff_false. apply not_iff_compat. rewrite text_in, in_app_iff, css_refs_in, in_concat_iff. unfold exactly_refers.
    apply or_iff_compat_l. split; intros (l & a & I1 & I2 & H); exists l, a; (split; [exact I1|split; [exact I2|]]).
    - apply attr_refs_in in H. destruct H as (H & p & I3 & E). split; [exact H|]. destruct p as [u|u|u|u]; cbn in E; subst; auto; destruct E.
    - destruct H as [H1 [H2|H2]]; apply attr_refs_in; (split; [exact H1|]); eexists; (split; [exact H2|]); reflexivity. }
  rewrite R. apply and_iff_compat_r. split; intros (l & a & I1 & I2 & H); exists l, a; (split; [exact I1|split; [exact I2|]]).
  - unfold attr_ids in H. apply as_id_carries. destruct (IdsModel.as_id a) as [t|]; [|destruct H]. destruct H as [->|[]]. reflexivity.
  - unfold attr_ids. apply as_id_carries in H. rewrite H. left. reflexivity.
Qed.
Lemma has_percent_plain t : existsb (N.eqb 37) t = false -> IdsModel.url_decode t = Some t.
Proof.
  intros H. unfold IdsModel.url_decode, IdsModel.has_percent. rewrite H. reflexivity.
Qed.
Lemma refers_plain sheets elements id : forallb plain_css sheets = true ->
  forallb (forallb (fun a => forallb plain_piece (IdsModel.apieces a))) elements = true ->
  (refers sheets elements id <-> exactly_refers sheets elements id).
Proof.
  intros Hs He. rewrite forallb_forall in Hs, He.
  assert (X : forall u id, existsb (N.eqb 37) u = false -> (match u with 35%N :: f => f = id \/ IdsModel.url_decode f = Some id | _ => False end <-> u = 35%N :: id)).
  { clear. intros u id H. destruct u as [|c u]; [split; [intros []|discriminate]|]. cbn [existsb] in H. apply orb_false_iff in H. destruct H as [_ H].
    destruct (N.eq_dec c 35) as [->|Nc].
    - rewrite (has_percent_plain _ H). split; [intros [->|E]; [reflexivity|injection E as ->; reflexivity]|]. intros E. injection E as ->. left. reflexivity.
    - split; [|intros E; injection E as -> _; congruence]. intros K. exfalso. revert K.
      destruct c as [|q]; [intros []|]. do 6 (try (destruct q as [q|q|]; try (intros []))); congruence. }
  unfold refers, exactly_refers. split; (intros [H|H]; [left|right]).
  - destruct H as (c & I0 & H). pose proof (Hs c I0) as P. destruct c as [u|u]; [|discriminate P]. cbn [plain_css] in P. apply negb_true_iff in P.
    cbn [css_refers] in H. apply (X u id P) in H. subst u. exact I0.
  - destruct H as (l & a & I1 & I2 & H1 & p & I3 & H2). exists l, a. split; [exact I1|]. split; [exact I2|]. split; [exact H1|].
    pose proof (He l I1) as P. rewrite forallb_forall in P. specialize (P a I2). rewrite forallb_forall in P. specialize (P p I3).
    destruct p as [u|u|u|u]; cbn [piece_refers] in H2; [| |destruct H2|destruct H2].
    + cbn [plain_piece] in P. apply negb_true_iff in P. apply (X u id P) in H2. subst u. right. exact I3.
    + subst u. left. exact I3.
  - exists (CssUrl (35%N :: id)). split; [exact H|]. left. reflexivity.
  - destruct H as (l & a & I1 & I2 & H1 & H2). exists l, a. split; [exact I1|]. split; [exact I2|]. split; [exact H1|].
    destruct H2 as [H2|H2]; eexists; (split; [exact H2|]); cbn [piece_refers]; auto.
Qed.
Lemma lint_ids_plain sheets elements id : forallb plain_css sheets = true ->
  forallb (forallb (fun a => forallb plain_piece (IdsModel.apieces a))) elements = true ->
  In id (lint_ids false sheets elements) <-> (exists l a, In l elements /\ In a l /\ carries_id a id) /\ ~ refers sheets elements id.
Proof.
  intros Hs He. rewrite lint_ids_exact. apply and_iff_compat_l. apply not_iff_compat. symmetry. apply refers_plain; assumption.
Qed.
Lemma lint_ids_once b sheets elements : NoDup (lint_ids b sheets elements).
Proof. destruct b; [constructor|]. apply NoDup_filter, keys_nodup. Qed.
Lemma lint_ids_complete sheets elements id : (exists l a, In l elements /\ In a l /\ carries_id a id) -> ~ refers sheets elements id ->
  In id (lint_ids false sheets elements).
Proof.
  intros H N. apply lint_ids_exact. split; [exact H|]. intros R. apply N. clear - R. destruct R as [H|H]; [left|right].
  - exists (CssUrl (35%N :: id)). split; [exact H|]. left. reflexivity.
  - destruct H as (l & a & I1 & I2 & H1 & H2). exists l, a. split; [exact I1|]. split; [exact I2|]. split; [exact H1|].
    destruct H2 as [H2|H2]; eexists; (split; [exact H2|]); cbn [piece_refers]; auto.
Qed.
Lemma parse_consistent s : declared_once s -> all_bound [] s -> named_from_outside s -> consistent [] (parse_root s).
Proof. intros H1 H2 H3. exact (mirror_consistent s [] _ (parse_mirror s H1 H2 H3)). Qed.
