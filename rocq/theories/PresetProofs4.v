From Coq Require Import String List NArith ZArith QArith Bool Lia.
From Verif Require Import Chars NameModel AttrTable ElemModel TextModel JsxNamesModel JsxModel JsxSpec JsxProofs PresetModel PresetSpec PresetProofs PresetProofs2 PresetProofs3.
Import ListNotations.

(** ** Nothing is changed without options *)
Lemma update_id name f j : (forall n a sc kids cl, f (JElement n a sc kids cl) = JElement n a sc kids cl) -> forall j', update_first name f j = Some j' -> j' = j.
Proof.
  intros F. induction j as [n a sc kids cl IH|kids IH|t| |x|u x yes no IHy IHn] using jsx_all; intros j' U; try discriminate.
  - rewrite update_element in U. destruct (text_eqb n name); [injection U as <-; apply F|]. destruct (go name f kids) as [kids'|] eqn:G; [|discriminate]. cbn [option_map] in U. injection U as <-.
    apply go_spec in G. destruct G as (x & k & k' & b & -> & -> & U & _). apply Forall_app in IH. destruct IH as [_ IH]. inversion IH as [|? ? H _]; subst. rewrite (H k' U). reflexivity.
  - rewrite update_fragment in U. destruct (go name f kids) as [kids'|] eqn:G; [|discriminate]. cbn [option_map] in U. injection U as <-.
    apply go_spec in G. destruct G as (x & k & k' & b & -> & -> & U & _). apply Forall_app in IH. destruct IH as [_ IH]. inversion IH as [|? ? H _]; subst. rewrite (H k' U). reflexivity.
Qed.
Lemma update_any name f g j : (update_first name f j = None <-> update_first name g j = None).
Proof.
  assert (K : forall kids, Forall (fun j => update_first name f j = None <-> update_first name g j = None) kids -> (go name f kids = None <-> go name g kids = None)).
  { clear. induction 1 as [|k r H F IH]; cbn [go]; [tauto|]. destruct (update_first name f k), (update_first name g k).
    - split; discriminate.
    - pose proof (proj2 H eq_refl). discriminate.
    - pose proof (proj1 H eq_refl). discriminate.
    - destruct (go name f r), (go name g r); cbn [option_map]; split; intros X; try discriminate; try reflexivity; [pose proof (proj2 IH eq_refl)|pose proof (proj1 IH eq_refl)]; discriminate. }
  induction j as [n a sc kids cl IH|kids IH|t| |x|u x yes no IHy IHn] using jsx_all; try (cbn [update_first]; tauto).
  - rewrite !update_element. destruct (text_eqb n name); [split; discriminate|]. specialize (K kids IH). destruct (go name f kids), (go name g kids); cbn [option_map]; split; intros X; try discriminate; try reflexivity;
      [pose proof (proj2 K eq_refl)|pose proof (proj1 K eq_refl)]; discriminate.
  - rewrite !update_fragment. specialize (K kids IH). destruct (go name f kids), (go name g kids); cbn [option_map]; split; intros X; try discriminate; try reflexivity;
      [pose proof (proj2 K eq_refl)|pose proof (proj1 K eq_refl)]; discriminate.
Qed.
Definition inside (j : jsx) : list jsx := match j with JElement _ _ _ kids _ | JFragment kids => flat_map jelems kids | _ => [] end.
(** Elements that are not under a condition. *)
Fixpoint telems (j : jsx) : list jsx :=
  match j with JElement _ _ _ kids _ => j :: flat_map telems kids | JFragment kids => flat_map telems kids | _ => [] end.
Lemma update_none_iff name f j : bare j -> (update_first name f j = None <-> lacks name j).
Proof.
  intros B. split; [|apply lacks_update]. revert B.
  assert (K : forall kids, Forall (fun j => bare j -> update_first name f j = None -> lacks name j) kids -> Forall bare kids -> go name f kids = None -> Forall (lacks name) kids).
  { clear. intros kids F B G. apply go_none in G. rewrite Forall_forall in *. intros k I. apply F; [exact I|apply B, I|apply G, I]. }
  induction j as [n a sc kids cl IH|kids IH|t| |x|u x yes no IHy IHn] using jsx_all; intros B U; inversion B as [? ? ? ? ? N KB|? KB| |]; subst; try (intros e []).
  - rewrite update_element in U. destruct (text_eqb n name) eqn:E; [discriminate|]. destruct (go name f kids) eqn:G; [discriminate|].
    subst e. cbn [jname]. intros ->. rewrite teq_refl in E. discriminate.
  - rewrite update_element in U. destruct (text_eqb n name) eqn:E; [discriminate|]. destruct (go name f kids) eqn:G; [discriminate|].
    eapply lacks_kids; [apply (K kids IH KB G)|exact H].
  - rewrite update_fragment in U. destruct (go name f kids) eqn:G; [discriminate|]. intros e I. eapply lacks_kids; [apply (K kids IH KB G)|exact I].
Qed.
Lemma off_ok parse j ids d o : o = mkOptions false [] false false false true d Nowhere [] -> (d = None \/ d = Some (IBool false)) ->
  (preset parse o j = inr ids -> ids = (j, [])) /\ (preset parse o j = inl MissingSvg <-> update_first (lit "svg") (fun k => k) j = None).
Proof.
  intros -> D. unfold preset. cbn [o_native o_svg_props o_replace o_desc o_title parse_values fold_left].
  assert (C : forall n a sc kids cl, change_svg (mkOptions false [] false false false true d Nowhere []) [] (JElement n a sc kids cl) = JElement n a sc kids cl).
  { intros. cbn. destruct D as [->| ->]; reflexivity. }
  destruct (update_first (lit "svg") (fun k => k) j) as [k|] eqn:U.
  - destruct (update_first (lit "svg") (change_svg _ []) j) as [j'|] eqn:V.
    + pose proof (update_id _ _ j C j' V). subst j'. split; [intros X; injection X as <-; reflexivity|]. split; discriminate.
    + apply (update_any _ _ (fun k => k)) in V. congruence.
  - split; [discriminate|]. tauto.
Qed.

(** ** Errors *)
Lemma ends_char_spec c t : ends_char c t = true <-> exists u, t = u ++ [c].
Proof.
  induction t as [|d t IH]; cbn [ends_char]; [split; [discriminate|intros ([|] & E); discriminate]|]. destruct t as [|e t].
  - rewrite N.eqb_eq. split; [intros ->; exists []; reflexivity|]. intros ([|x [|]] & E); cbn in E; try discriminate. injection E as ->. reflexivity.
  - rewrite IH. split.
    + intros (u & ->). exists (d :: u). reflexivity.
    + intros (u & E). destruct u as [|x u]; [discriminate|]. cbn [app] in E. injection E as <- E. exists u. exact E.
Qed.
Lemma parse_templatable_spec parse t : (exists v, parse_templatable parse t = inr v /\ ~ invalid parse t) \/ (parse_templatable parse t = inl (InvalidExpr t) /\ invalid parse t).
Proof.
  assert (D : forall r, t = 123%N :: r -> (exists v, (if ends_char 125 t then match parse (removelast r) with Some code => inr (JUser code) | None => inl (InvalidExpr t) end else inr (JStr t)) = inr v /\ ~ invalid parse t) \/
     ((if ends_char 125 t then match parse (removelast r) with Some code => inr (JUser code) | None => inl (InvalidExpr t) end else inr (JStr t)) = inl (InvalidExpr t) /\ invalid parse t)).
  { intros r E. destruct (ends_char 125 t) eqn:X.
    - apply ends_char_spec in X. destruct X as (u & X). destruct u as [|y u]; [rewrite X in E; discriminate|]. rewrite E in X. cbn [app] in X. injection X as <- ->.
      rewrite removelast_last. destruct (parse u) as [code|] eqn:P.
      + left. eexists. split; [reflexivity|]. intros (c & Y & Z). rewrite E in Y. injection Y as Y. apply app_inj_tail in Y. destruct Y as [-> _]. congruence.
      + right. split; [reflexivity|]. exists u. rewrite E. auto.
    - left. eexists. split; [reflexivity|]. intros (c & Y & Z). rewrite (proj2 (ends_char_spec 125 t)) in X; [discriminate|]. exists (123%N :: c). exact Y. }
  unfold parse_templatable. destruct t as [|c r]; [left; eexists; split; [reflexivity|intros (x & X & _); discriminate]|].
  destruct (N.eq_dec c 123) as [->|NE]; [apply (D r eq_refl)|]. left. exists (JStr (c :: r)). split.
  - repeat (match goal with |- context [match ?x with _ => _ end] => is_var x; destruct x end; try reflexivity). contradiction.
  - intros (x & X & _). injection X as -> _. contradiction.
Qed.
Lemma parse_values_spec parse ps : (exists vs, parse_values parse ps = inr vs /\ map fst vs = map fst ps /\ Forall (fun p => ~ invalid parse (snd p)) ps) \/
  (exists t, parse_values parse ps = inl (InvalidExpr t) /\ In t (map snd ps) /\ invalid parse t).
Proof.
  induction ps as [|(k & v) ps IH]; cbn [parse_values map fst snd]; [left; exists []; split; [reflexivity|split; [reflexivity|constructor]]|].
  destruct (parse_templatable_spec parse v) as [(w & -> & N)|(-> & I)]; [|right; exists v; split; [reflexivity|split; [apply in_eq|exact I]]].
  destruct IH as [(vs & -> & E & F)|(t & -> & IN & I)].
  - left. eexists. split; [reflexivity|]. cbn [map fst]. split; [f_equal; exact E|constructor; [exact N|exact F]].
  - right. exists t. split; [reflexivity|]. split; [right; exact IN|exact I].
Qed.
Lemma value_name old new j : match j with JElement n _ _ _ _ => exists a sc kids cl, set_value_recursive old new j = JElement n a sc kids cl | _ => True end.
Proof. destruct j; try exact Logic.I. cbn [set_value_recursive]. eauto. Qed.
Lemma update_other_root name f n a sc kids cl j' : n <> name -> update_first name f (JElement n a sc kids cl) = Some j' -> exists ks, j' = JElement n a sc ks cl.
Proof.
  intros N U. rewrite update_element in U. destruct (text_eqb n name) eqn:E; [apply text_eqb_spec in E; contradiction|].
  destruct (go name f kids); [|discriminate]. cbn [option_map] in U. injection U as <-. eauto.
Qed.
Lemma root_replace tag id child a sc kids cl : tag <> lit "svg" -> exists a' sc' ks cl', replace_element tag id child (lit "svg") (JElement (lit "svg") a sc kids cl) = inr (JElement (lit "svg") a' sc' ks cl').
Proof.
  intros T. unfold replace_element. destruct (update_first tag _ _) as [j|] eqn:U.
  - apply update_other_root in U; [|intros X; apply T; symmetry; exact X]. destruct U as (ks & ->). eauto.
  - rewrite update_element, teq_refl. cbn [insert_first]. eauto.
Qed.
Lemma root_ok parse o a sc kids cl : o_native o = false -> (forall t, In t (map snd (o_svg_props o ++ o_replace o)) -> ~ invalid parse t) ->
  exists r, preset parse o (JElement (lit "svg") a sc kids cl) = inr r.
Proof.
  intros N V. unfold preset. rewrite N, update_element, teq_refl, map_app in *.
  destruct (parse_values_spec parse (o_svg_props o)) as [(vs & -> & _)|(t & _ & I & X)]; [|exfalso; apply (V t); [apply in_app_iff; auto|exact X]].
  rewrite update_element, teq_refl. cbn [change_svg].
  destruct (parse_values_spec parse (o_replace o)) as [(rs & -> & _)|(t & _ & I & X)]; [|exfalso; apply (V t); [apply in_app_iff; auto|exact X]].
  assert (F : exists a' sc' ks' cl', fold_left (fun j p => set_value_recursive (fst p) (snd p) j) rs (JElement (lit "svg") (svg_attrs o vs a) sc kids cl) = JElement (lit "svg") a' sc' ks' cl').
  { generalize (svg_attrs o vs a). clear. revert sc kids cl. induction rs as [|p rs IH]; intros sc kids cl l; cbn [fold_left]; [eauto|]. cbn [set_value_recursive]. apply IH. }
  destruct F as (a1 & sc1 & k1 & c1 & ->).
  assert (D : exists a' sc' ks cl', (if o_desc o then replace_element (lit "desc") (lit "descId") (lit "desc") (lit "svg") (JElement (lit "svg") a1 sc1 k1 c1) else inr (JElement (lit "svg") a1 sc1 k1 c1)) = inr (JElement (lit "svg") a' sc' ks cl')).
  { destruct (o_desc o); [apply root_replace; discriminate|eauto]. }
  destruct D as (a2 & sc2 & k2 & c2 & ->).
  destruct (o_title o); [|eauto]. destruct (root_replace (lit "title") (lit "titleId") (lit "title") a2 sc2 k2 c2) as (a3 & sc3 & k3 & c3 & ->); [discriminate|]. eauto.
Qed.
Lemma preset_needs parse o d uni camel r : o_native o = false -> preset parse o (to_jsx uni camel d) = inr r ->
  ~ lacks (lit "svg") (to_jsx uni camel d) /\ forall t, In t (map snd (o_svg_props o ++ o_replace o)) -> ~ invalid parse t.
Proof.
  intros N P. unfold preset in P. rewrite N in P. destruct (update_first (lit "svg") (fun k => k) (to_jsx uni camel d)) eqn:U; [|discriminate].
  split; [intros L; apply (lacks_update _ (fun k => k)) in L; congruence|].
  destruct (parse_values_spec parse (o_svg_props o)) as [(vs & E & _ & F)|(t & E & _)]; rewrite E in P; [|discriminate].
  destruct (update_first (lit "svg") (change_svg o vs) _); [|discriminate].
  destruct (parse_values_spec parse (o_replace o)) as [(rs & E' & _ & F')|(t & E' & _)]; rewrite E' in P; [|discriminate].
  intros t I. rewrite map_app in I. apply in_app_iff in I. rewrite Forall_forall in F, F'. destruct I as [I|I]; apply in_map_iff in I; destruct I as (p & <- & I); auto.
Qed.

(** ** Replacing values *)
Definition setv (v : jvalue) (p : text * jvalue) : jvalue := match v with JStr t => if text_eqb t (fst p) then snd p else v | _ => v end.
Definition folded (rs : list (text * jvalue)) (v w : jvalue) : Prop := w = fold_left setv rs v.
Definition attr_fold (rs : list (text * jvalue)) (a : jattr) : jattr := match a with JAttr n v => JAttr n (fold_left setv rs v) | JSpread x => JSpread x end.
Fixpoint tree_fold (rs : list (text * jvalue)) (j : jsx) : jsx :=
  match j with
  | JElement n a sc kids cl => JElement n (map (attr_fold rs) a) sc (map (tree_fold rs) kids) cl
  | JFragment kids => JFragment (map (tree_fold rs) kids)
  | j => j
  end.
Lemma tree_fold_cons p rs j : tree_fold rs (set_value_recursive (fst p) (snd p) j) = tree_fold (p :: rs) j.
Proof.
  induction j as [n a sc kids cl IH|kids IH|t| |x|u x yes no IHy IHn] using jsx_all; cbn [set_value_recursive tree_fold]; try reflexivity.
  - f_equal.
    + rewrite map_map. apply map_ext. intros [m v|x]; [|reflexivity]. cbn [set_value attr_fold fold_left setv]. destruct v as [t| | | | | |]; try reflexivity. cbn [setv]. destruct (text_eqb t (fst p)); reflexivity.
    + rewrite map_map. induction IH as [|k l H F IH]; cbn [map]; [reflexivity|]. f_equal; assumption.
  - f_equal. rewrite map_map. induction IH as [|k l H F IH]; cbn [map]; [reflexivity|]. f_equal; assumption.
Qed.
Lemma tree_fold_nil j : tree_fold [] j = j.
Proof.
  induction j as [n a sc kids cl IH|kids IH|t| |x|u x yes no IHy IHn] using jsx_all; cbn [tree_fold]; try reflexivity.
  - f_equal.
    + clear. induction a as [|[m v|x] a IHa]; cbn [map attr_fold fold_left]; [reflexivity| |]; f_equal; exact IHa.
    + induction IH as [|k l H F IH]; cbn [map]; [reflexivity|]. f_equal; assumption.
  - f_equal. induction IH as [|k l H F IH]; cbn [map]; [reflexivity|]. f_equal; assumption.
Qed.
Lemma fold_tree rs : forall j, fold_left (fun j p => set_value_recursive (fst p) (snd p) j) rs j = tree_fold rs j.
Proof. induction rs as [|p rs IH]; intros j; cbn [fold_left]; [symmetry; apply tree_fold_nil|]. rewrite IH. apply tree_fold_cons. Qed.
Lemma setv_other rs v : (forall t, v <> JStr t) -> fold_left setv rs v = v.
Proof. intros N. induction rs as [|p rs IH]; cbn [fold_left]; [reflexivity|]. destruct v; try exact IH. exfalso. apply (N t). reflexivity. Qed.
Lemma setv_miss rs t : ~ In t (map fst rs) -> fold_left setv rs (JStr t) = JStr t.
Proof.
  induction rs as [|p rs IH]; intros N; cbn [fold_left setv]; [reflexivity|]. destruct (text_eqb t (fst p)) eqn:E; [apply text_eqb_spec in E; exfalso; apply N; left; symmetry; exact E|].
  apply IH. intros I. apply N. right. exact I.
Qed.
Lemma fold_replacement rs v : NoDup (map fst rs) -> (forall k t, In (k, JStr t) rs -> In t (map fst rs) -> t = k) -> replacement rs v (fold_left setv rs v).
Proof.
  intros D C. destruct v as [t| | | | | |]; try (apply setv_other; discriminate). cbn [replacement].
  assert (X : forall done rest, rs = done ++ rest -> ~ In t (map fst done) ->
    (exists k, In (t, k) rs /\ fold_left setv rest (JStr t) = k) \/ (fold_left setv rest (JStr t) = JStr t /\ ~ In t (map fst rest))).
  { intros done rest. revert done. induction rest as [|(k & w) rest IH]; intros done E N; cbn [fold_left setv fst snd].
    - right. split; [reflexivity|]. intros [].
    - destruct (text_eqb t k) eqn:K.
      + apply text_eqb_spec in K. subst k. left. exists w. assert (I : In (t, w) rs) by (rewrite E; apply in_app_iff; right; left; reflexivity). split; [exact I|].
        destruct w as [u| | | | | |]; try (apply setv_other; discriminate).
        apply setv_miss. intros IU. assert (IR : In u (map fst rs)) by (rewrite E, map_app; apply in_app_iff; right; right; exact IU).
        pose proof (C t u I IR). subst u. rewrite E, map_app in D. cbn [map fst] in D. apply NoDup_remove_2 in D. apply D, in_app_iff. auto.
      + destruct (IH (done ++ [(k, w)])) as [H|[H1 H2]].
        * rewrite <- app_assoc. exact E.
        * rewrite map_app, in_app_iff. intros [Y|[Y|[]]]; [contradiction|]. cbn [fst] in Y. subst k. rewrite teq_refl in K. discriminate.
        * left. exact H.
        * right. split; [exact H1|]. cbn [map fst]. intros [Y|Y]; [subst k; rewrite teq_refl in K; discriminate|contradiction]. }
  destruct (X [] rs eq_refl (fun F => F)) as [(k & I & E)|[E N]]; [left; exists k; auto|]. right. split; [exact E|]. intros k I. apply N. apply (in_map fst) in I. exact I.
Qed.
Lemma replace_ok rs j : bare j -> NoDup (map fst rs) -> (forall k t, In (k, JStr t) rs -> In t (map fst rs) -> t = k) ->
  revalued (replacement rs) j (fold_left (fun j p => set_value_recursive (fst p) (snd p) j) rs j).
Proof.
  intros B D C. rewrite fold_tree. induction j as [n a sc kids cl IH|kids IH|t| |x|u x yes no IHy IHn] using jsx_all; inversion B as [? ? ? ? ? N KB|? KB| |]; subst; cbn [tree_fold]; constructor.
  - clear -D C. induction a as [|[m v|x] a IHa]; cbn [map attr_fold]; constructor; try exact IHa; [|reflexivity]. split; [reflexivity|]. apply fold_replacement; assumption.
  - clear B N. induction IH; inversion KB; subst; cbn [map]; constructor; auto.
  - clear B. induction IH; inversion KB; subst; cbn [map]; constructor; auto.
Qed.

(** ** React Native *)
Lemma native_some k : converts k <-> exists k', fst (to_native k) = Some k'.
Proof.
  destruct k as [n a sc kids cl|kids|t| |x|u x yes no]; cbn [converts to_native fst]; try (split; [eauto|intros; exact Logic.I]).
  destruct (native_name n) as [m|]; cbn [fst]; [split; [eauto|discriminate]|]. split; [intros H; exfalso; apply H; reflexivity|intros (k' & E); discriminate].
Qed.
Definition left (kids : list jsx) : list jsx := flat_map (fun p => match fst p with Some k => [k] | None => [] end) (map to_native kids).
Lemma native_element n a sc kids cl m : native_name n = Some m -> to_native (JElement n a sc kids cl) =
  (Some (JElement m a sc (left kids) (if none_left (left kids) then None else option_map (fun _ => m) cl)), m :: flat_map snd (map to_native kids)).
Proof. intros E. cbn [to_native]. rewrite E. reflexivity. Qed.
Lemma left_in kids k : In k (left kids) <-> exists j, In j kids /\ fst (to_native j) = Some k.
Proof.
  unfold left. rewrite in_flat_map. split.
  - intros (p & I & J). apply in_map_iff in I. destruct I as (j & <- & I). exists j. split; [exact I|]. destruct (fst (to_native j)); [|destruct J]. destruct J as [<-|[]]. reflexivity.
  - intros (j & I & E). exists (to_native j). split; [apply in_map, I|]. rewrite E. apply in_eq.
Qed.
Lemma native_closed j : forall k, closed j -> keeps j -> fst (to_native j) = Some k -> closed k.
Proof.
  assert (K : forall kids, Forall (fun j => forall k, closed j -> keeps j -> fst (to_native j) = Some k -> closed k) kids -> Forall closed kids -> Forall keeps kids -> Forall closed (left kids)).
  { clear. intros kids F C S. apply Forall_forall. intros k I. apply left_in in I. destruct I as (j & I & E). rewrite Forall_forall in *. eapply F; eauto. }
  induction j as [n a sc kids cl IH|kids IH|t| |x|u x yes no IHy IHn] using jsx_all; intros k C S E.
  - destruct (native_name n) as [m|] eqn:NN; [|cbn [to_native] in E; rewrite NN in E; discriminate]. rewrite (native_element n a sc kids cl m NN) in E. cbn [fst] in E. injection E as <-.
    inversion S as [? ? ? ? ? X|? ? ? ? ? KE KS| |]; subst; [congruence| |contradiction]. inversion C as [? ? | ? ? ? KC| | | | |]; subst.
    + constructor.
    + destruct (KE eq_refl) as (k & I & V). apply native_some in V. destruct V as (k' & V). assert (L : In k' (left kids)) by (apply left_in; eauto).
      destruct (left kids) as [|x r] eqn:LK; [destruct L|]. cbn [none_left option_map]. constructor. rewrite <- LK. apply K; assumption.
  - cbn [to_native fst] in E. injection E as <-. constructor. inversion S as [| |? KS|]; subst; [|contradiction]. inversion C; subst. apply K; assumption.
  - injection E as <-. constructor.
  - injection E as <-. constructor.
  - injection E as <-. constructor.
  - cbn [to_native fst] in E. injection E as <-. exact C.
Qed.
Lemma native_names j : forall k, bare j -> fst (to_native j) = Some k -> forall e, In e (jelems k) -> In (jname e) (snd (to_native j)) /\ exists n, native_name n = Some (jname e).
Proof.
  assert (K : forall kids, Forall (fun j => forall k, bare j -> fst (to_native j) = Some k -> forall e, In e (jelems k) -> In (jname e) (snd (to_native j)) /\ exists n, native_name n = Some (jname e)) kids ->
    Forall bare kids -> forall e, In e (flat_map jelems (left kids)) -> In (jname e) (flat_map snd (map to_native kids)) /\ exists n, native_name n = Some (jname e)).
  { clear. intros kids F B e I. apply in_flat_map in I. destruct I as (k & I & J). apply left_in in I. destruct I as (j & I & E). rewrite Forall_forall in *.
    destruct (F j I k (B j I) E e J) as [X Y]. split; [|exact Y]. apply in_flat_map. exists (to_native j). split; [apply in_map, I|exact X]. }
  induction j as [n a sc kids cl IH|kids IH|t| |x|u x yes no IHy IHn] using jsx_all; intros k B E e I; inversion B as [? ? ? ? ? N KB|? KB| |]; subst.
  - destruct (native_name n) as [m|] eqn:NN; [|cbn [to_native] in E; rewrite NN in E; discriminate]. rewrite (native_element n a sc kids cl m NN) in *. cbn [fst snd] in *. injection E as <-.
    cbn [jelems] in I. destruct I as [<-|I]; [split; [left; reflexivity|exists n; exact NN]|]. destruct (K kids IH KB e I) as [X Y]. split; [right; exact X|exact Y].
  - cbn [to_native fst snd] in *. injection E as <-. cbn [jelems] in I. apply (K kids IH KB e I).
  - injection E as <-. destruct I.
  - injection E as <-. destruct I.
Qed.
Lemma native_used j : forall k x, fst (to_native j) = Some k -> In x (snd (to_native j)) -> exists e, In e (jelems k) /\ jname e = x.
Proof.
  assert (Z : forall j, fst (to_native j) = None -> snd (to_native j) = []).
  { clear. intros j. destruct j; cbn [to_native]; try discriminate. destruct (native_name n); cbn [fst]; [discriminate|reflexivity]. }
  assert (K : forall kids, Forall (fun j => forall k x, fst (to_native j) = Some k -> In x (snd (to_native j)) -> exists e, In e (jelems k) /\ jname e = x) kids ->
    forall x, In x (flat_map snd (map to_native kids)) -> exists e, In e (flat_map jelems (left kids)) /\ jname e = x).
  { clear j. intros kids F x I. apply in_flat_map in I. destruct I as (p & I & J). apply in_map_iff in I. destruct I as (j & <- & I). rewrite Forall_forall in F.
    destruct (fst (to_native j)) as [k|] eqn:E; [|rewrite (Z j E) in J; destruct J]. destruct (F j I k x E J) as (e & X & Y). exists e. split; [|exact Y].
    apply in_flat_map. exists k. split; [apply left_in; eauto|exact X]. }
  induction j as [n a sc kids cl IH|kids IH|t| |y|u y yes no IHy IHn] using jsx_all; intros k x E I.
  - destruct (native_name n) as [m|] eqn:NN; [|cbn [to_native] in E; rewrite NN in E; discriminate]. rewrite (native_element n a sc kids cl m NN) in *. cbn [fst snd] in *. injection E as <-.
    destruct I as [<-|I]; [eexists; split; [left; reflexivity|reflexivity]|]. destruct (K kids IH x I) as (e & X & Y). exists e. split; [right; exact X|exact Y].
  - cbn [to_native fst snd] in *. injection E as <-. apply (K kids IH x I).
  - destruct I.
  - destruct I.
  - destruct I.
  - destruct I.
Qed.
Lemma preset_has parse o d uni camel r : o_native o = false -> preset parse o (to_jsx uni camel d) = inr r ->
  (exists e, In e (jelems (to_jsx uni camel d)) /\ jname e = lit "svg") /\ forall t, In t (map snd (o_svg_props o ++ o_replace o)) -> ~ invalid parse t.
Proof.
  intros N P. destruct (preset_needs parse o d uni camel r N P) as [A B]. split; [|exact B].
  destruct (existsb (fun e => text_eqb (jname e) (lit "svg")) (jelems (to_jsx uni camel d))) eqn:E.
  - apply existsb_exists in E. destruct E as (e & H & Q). apply text_eqb_spec in Q. eauto.
  - exfalso. apply A. intros e H Q. assert (X : existsb (fun e => text_eqb (jname e) (lit "svg")) (jelems (to_jsx uni camel d)) = true).
    { apply existsb_exists. exists e. split; [exact H|]. apply text_eqb_spec. exact Q. }
    congruence.
Qed.
Lemma native_both uni camel d k ids : to_native (to_jsx uni camel d) = (Some k, ids) -> forall x, In x ids <-> exists e, In e (jelems k) /\ jname e = x.
Proof.
  intros E x. split.
  - intros H. apply (native_used (to_jsx uni camel d) k x); rewrite E; [reflexivity|exact H].
  - intros (e & H & <-). pose proof (native_names (to_jsx uni camel d) k (to_jsx_bare uni camel d)) as X. rewrite E in X. apply (X eq_refl e H).
Qed.
