From Coq Require Import String List NArith Bool Arith Lia Permutation.
From Verif Require Import Chars NameModel NsModel NsSpec.
Import ListNotations.

Lemma otext_eqb_iff a b : otext_eqb a b = true <-> a = b.
Proof.
  destruct a as [a|], b as [b|]; cbn; split; intros H; try discriminate; try reflexivity.
  - apply text_eqb_spec in H. congruence.
  - injection H as ->. apply text_eqb_refl.
Qed.
Lemma otext_eqb_refl a : otext_eqb a a = true.
Proof. apply otext_eqb_iff. reflexivity. Qed.
Lemma otext_eqb_false a b : otext_eqb a b = false <-> a <> b.
Proof. rewrite <- not_true_iff_false, otext_eqb_iff. reflexivity. Qed.

Lemma find_innermost p scope : find_decl p scope = innermost p scope.
Proof.
  unfold find_decl. induction scope as [|[q u] scope IH]; [reflexivity|]. cbn. destruct (otext_eqb q p); [reflexivity|exact IH].
Qed.
Lemma innermost_in p u scope : innermost p scope = Some u -> In (p, u) scope.
Proof.
  induction scope as [|[q v] scope IH]; [discriminate|]. cbn. destruct (otext_eqb q p) eqn:E.
  - apply otext_eqb_iff in E. intros [= ->]. left. congruence.
  - intros H. right. apply IH, H.
Qed.
Lemma innermost_app p a b : innermost p (a ++ b) = match innermost p a with Some u => Some u | None => innermost p b end.
Proof. induction a as [|[q v] a IH]; [reflexivity|]. cbn. destruct (otext_eqb q p); [reflexivity|exact IH]. Qed.
Lemma innermost_none p scope : innermost p scope = None <-> ~ In p (map fst scope).
Proof.
  induction scope as [|[q v] scope IH]; [cbn; tauto|]. cbn. destruct (otext_eqb q p) eqn:E.
  - apply otext_eqb_iff in E. split; [discriminate|]. tauto.
  - apply otext_eqb_false in E. rewrite IH. tauto.
Qed.
Lemma innermost_filter p own inh :
  innermost p own = None ->
  innermost p (filter (fun d => negb (existsb (fun o => otext_eqb (fst o) (fst d)) own)) inh) = innermost p inh.
Proof.
  intros H. induction inh as [|[q v] inh IH]; [reflexivity|]. cbn [filter fst].
  destruct (existsb (fun o => otext_eqb (fst o) q) own) eqn:E; cbn [negb innermost].
  - destruct (otext_eqb q p) eqn:Q; [|exact IH]. exfalso. apply otext_eqb_iff in Q. subst q.
    apply innermost_none in H. apply H. apply existsb_exists in E. destruct E as (o & I0 & E). apply otext_eqb_iff in E.
    rewrite <- E. apply in_map. exact I0.
  - destruct (otext_eqb q p); [reflexivity|exact IH].
Qed.
(** The namespaces roxmltree reports are those in scope. *)
Lemma innermost_namespaces p own inh : innermost p (namespaces own inh) = innermost p (own ++ inh).
Proof.
  unfold namespaces. rewrite !innermost_app. destruct (innermost p own) eqn:E; [reflexivity|]. apply innermost_filter. exact E.
Qed.

(** Scopes that say the same. *)
Definition same_scope (a b : list decl) : Prop := forall p, innermost p a = innermost p b.
Lemma same_app own a b : same_scope a b -> same_scope (own ++ a) (own ++ b).
Proof. intros H p. rewrite !innermost_app, H. reflexivity. Qed.
Lemma prefixed_same p a b : same_scope a b -> prefixed p a = prefixed p b.
Proof. intros H. unfold prefixed. rewrite H. reflexivity. Qed.
Lemma element_uri_same p a b : same_scope a b -> element_uri p a = element_uri p b.
Proof. intros H. destruct p; cbn; [apply prefixed_same, H|]. rewrite H. reflexivity. Qed.
Lemma attr_uri_same p a b : same_scope a b -> attr_uri p a = attr_uri p b.
Proof. intros H. destruct p; cbn; [apply prefixed_same, H|reflexivity]. Qed.

(** What roxmltree resolves to. *)
Lemma resolve_prefixed p scope : match resolve_prefix (Some p) scope with Some u => Some (Some u) | None => None end = prefixed p scope.
Proof.
  unfold resolve_prefix, prefixed, xml_decl. cbn [fst snd otext_eqb]. destruct (text_eqb p (lit "xml")); [reflexivity|].
  rewrite find_innermost. reflexivity.
Qed.
Lemma element_ns_uri p scope : element_uri p scope <> None ->
  element_uri p scope = Some (element_ns p scope).
Proof.
  destruct p as [p|]; cbn [element_uri]; intros H.
  - rewrite <- resolve_prefixed in H |- *. unfold element_ns. destruct (resolve_prefix (Some p) scope); [reflexivity|congruence].
  - unfold element_ns, resolve_prefix, xml_decl. cbn [fst otext_eqb]. rewrite find_innermost.
    destruct (innermost None scope) as [[|]|]; reflexivity.
Qed.
Lemma attr_ns_uri p scope : attr_uri p scope <> None -> attr_uri p scope = Some (attr_ns p scope).
Proof.
  destruct p as [p|]; cbn [attr_uri]; intros H; [|reflexivity].
  rewrite <- resolve_prefixed in H |- *. unfold attr_ns. destruct (resolve_prefix (Some p) scope); [reflexivity|congruence].
Qed.

(** ** Prefixes *)
Lemma find_known u k : find (fun k => text_eqb (known_uri k) u) all_known = Some k -> known_uri k = u.
Proof. intros H. apply find_some in H. destruct H as [_ H]. apply text_eqb_spec in H. exact H. Qed.
Lemma prefix_new_value u p : prefix_value (prefix_new u p) = p.
Proof.
  unfold prefix_new. destruct (find _ all_known) as [k|] eqn:E.
  - apply find_some in E. destruct E as [_ E]. apply andb_prop in E. destruct E as [_ E]. apply otext_eqb_iff in E. exact E.
  - clear E. destruct (find _ all_known) as [k|]; [reflexivity|]. destruct u, p; reflexivity.
Qed.
Lemma prefix_new_uri u p : u <> [] -> ns_uri (prefix_ns (prefix_new u p)) = u.
Proof.
  intros N. unfold prefix_new. destruct (find _ all_known) as [k|] eqn:E.
  - apply find_some in E. destruct E as [_ E]. apply andb_prop in E. destruct E as [E _]. apply text_eqb_spec in E. exact E.
  - clear E. destruct (find _ all_known) as [k|] eqn:F; [exact (find_known _ _ F)|]. destruct u; [congruence|].
    cbn. unfold ns_new. rewrite F. reflexivity.
Qed.

(** ** The map *)
Definition holds (m : ns_map) (seen : list decl) : Prop :=
  (forall p, tget p (prefix_to_uri m) = match innermost p seen with Some u => Some (Some u) | None => None end) /\
  (forall u, match tget (Some u) (uri_to_prefix m) with
             | Some p => In (p, u) seen
             | None => ~ In u (map snd seen)
             end) /\
  tget None (uri_to_prefix m) = None.

Lemma tget_cons k a b t : tget k ((a, b) :: t) = if otext_eqb a k then Some b else tget k t.
Proof. unfold tget. cbn. destruct (otext_eqb a k); reflexivity. Qed.

Lemma holds_insert m seen p u : holds m seen -> ~ In p (map fst seen) -> ~ In u (map snd seen) ->
  exists m', ns_insert p (Some u) m = (m', None) /\ holds m' ((p, u) :: seen).
Proof.
  intros (H1 & H2 & H3) Np Nu. unfold ns_insert. rewrite (H1 p). apply innermost_none in Np. rewrite Np.
  eexists. split; [destruct (tget (Some u) (uri_to_prefix m)); reflexivity|].
  split; [|split]; cbn [prefix_to_uri uri_to_prefix].
  - intros q. rewrite tget_cons. cbn [innermost]. destruct (otext_eqb p q); [reflexivity|apply H1].
  - intros v. rewrite tget_cons. cbn [otext_eqb]. destruct (text_eqb u v) eqn:E.
    + apply text_eqb_spec in E. left. congruence.
    + apply text_eqb_neq in E. specialize (H2 v). destruct (tget (Some v) (uri_to_prefix m)).
      * right. exact H2.
      * cbn. tauto.
  - rewrite tget_cons. cbn [otext_eqb]. exact H3.
Qed.

Definition attr_of (d : decl) : pattr := match fst d with Some n => APrefix n (snd d) | None => ADefault (snd d) end.

Lemma known_decl m seen d : holds m seen -> NoDup (map fst seen) -> In d seen -> find_xml_uri d m = true.
Proof.
  intros (H1 & _) ND I0. unfold find_xml_uri, get_by_prefix. rewrite H1. destruct d as [p u]. cbn [fst snd].
  assert (E : innermost p seen = Some u).
  { clear H1 m. induction seen as [|[q v] seen IH]; [destruct I0|]. cbn [innermost]. inversion ND as [|? ? N1 N2]; subst.
    destruct I0 as [E|I0].
    - injection E as -> ->. rewrite otext_eqb_refl. reflexivity.
    - destruct (otext_eqb q p) eqn:Q; [|apply IH; assumption]. exfalso. apply otext_eqb_iff in Q. subst q.
      apply N1. change p with (fst (p, u)). apply in_map. exact I0. }
  rewrite E. apply text_eqb_refl.
Qed.

Lemma new_old : forall l m seen pop, holds m seen -> NoDup (map fst seen) -> incl l seen -> new_xmlns l m pop = ([], m, pop).
Proof.
  induction l as [|d l IH]; intros m seen pop H ND I0; [reflexivity|]. cbn [new_xmlns]. unfold find_new_xmlns.
  rewrite (known_decl m seen d H ND); [|apply I0; left; reflexivity].
  rewrite (IH m seen pop H ND); [reflexivity|]. intros x Hx. apply I0. right. exact Hx.
Qed.

Lemma new_own : forall own m seen rest,
  holds m seen -> NoDup (map fst (own ++ seen)) -> NoDup (map snd (own ++ seen)) -> ~ In [] (map snd own) ->
  exists m', holds m' (rev own ++ seen) /\
    forall pop, new_xmlns (own ++ rest) m pop =
      let '(r, m2, pop2) := new_xmlns rest m' pop in (map attr_of own ++ r, m2, pop2).
Proof.
  induction own as [|[p u] own IH]; intros m seen rest H N1 N2 Ne.
  - exists m. split; [exact H|]. intros pop. cbn [app map]. destruct (new_xmlns rest m pop) as [[? ?] ?]. reflexivity.
  - cbn [app map fst snd] in N1, N2. inversion N1 as [|? ? N1a N1b]; subst. inversion N2 as [|? ? N2a N2b]; subst.
    rewrite map_app in N1a, N2a.
    assert (Np : ~ In p (map fst seen)) by (intros I0; apply N1a, in_or_app; right; exact I0).
    assert (Nu : ~ In u (map snd seen)) by (intros I0; apply N2a, in_or_app; right; exact I0).
    destruct (holds_insert m seen p u H Np Nu) as (m1 & E & H1).
    assert (F : find_xml_uri (p, u) m = false).
    { unfold find_xml_uri, get_by_prefix. destruct H as (Hp & _). rewrite Hp. cbn [fst]. apply innermost_none in Np. rewrite Np. reflexivity. }
    assert (G : forall pop, find_new_xmlns (p, u) m pop = (Some (attr_of (p, u)), m1, pop)).
    { intros pop. unfold find_new_xmlns. rewrite F. cbn [fst snd]. unfold attr_of. cbn [fst snd].
      destruct p as [p|].
      - assert (D : otext_eqb (get_by_prefix None m) (Some u) = false).
        { apply otext_eqb_false. unfold get_by_prefix. destruct H as (Hp & _). rewrite Hp. intros D.
          destruct (innermost None seen) as [v|] eqn:Q; [|discriminate D]. cbn in D. injection D as ->.
          apply Nu. apply innermost_in in Q. change u with (snd (@None text, u)). apply in_map. exact Q. }
        rewrite D, E. reflexivity.
      - destruct u as [|c u]; [exfalso; apply Ne; left; reflexivity|]. rewrite E. reflexivity. }
    destruct (IH m1 ((p, u) :: seen) rest H1) as (m2 & H2 & R).
    + cbn [map fst]. rewrite map_app in *. cbn [map fst]. apply NoDup_Add with (a := p) (l := map fst own ++ map fst seen).
      * apply Add_app.
      * split; [exact N1b|]. exact N1a.
    + cbn [map snd]. rewrite map_app in *. cbn [map snd]. apply NoDup_Add with (a := u) (l := map snd own ++ map snd seen).
      * apply Add_app.
      * split; [exact N2b|]. exact N2a.
    + intros I0. apply Ne. right. exact I0.
    + exists m2. split.
      * cbn [rev]. rewrite <- app_assoc. exact H2.
      * intros pop. cbn [app new_xmlns map]. rewrite G, R. destruct (new_xmlns rest m2 pop) as [[? ?] ?]. reflexivity.
Qed.

(** ** Names *)
Lemma by_uri m seen p u : holds m seen -> NoDup (map snd seen) -> In (p, u) seen -> get_by_uri (Some u) m = p.
Proof.
  intros (_ & H & _) ND I0. unfold get_by_uri. specialize (H u). destruct (tget (Some u) (uri_to_prefix m)) as [q|].
  - cbn. clear m. induction seen as [|[r v] seen IH]; [destruct I0|]. cbn in ND. inversion ND as [|? ? N1 N2]; subst.
    destruct H as [E|H], I0 as [E'|I0].
    + congruence.
    + exfalso. injection E as -> ->. apply N1. change u with (snd (p, u)). apply in_map. exact I0.
    + exfalso. injection E' as -> ->. apply N1. change u with (snd (q, u)). apply in_map. exact H.
    + apply IH; assumption.
  - exfalso. apply H. change u with (snd (p, u)). apply in_map. exact I0.
Qed.
Lemma by_uri_new m seen u : holds m seen -> ~ In u (map snd seen) -> get_by_uri (Some u) m = None.
Proof.
  intros (_ & H & _) N. unfold get_by_uri. specialize (H u). destruct (tget (Some u) (uri_to_prefix m)) as [q|]; [|reflexivity].
  exfalso. apply N. change u with (snd (q, u)). apply in_map. exact H.
Qed.
Lemma by_none m seen : holds m seen -> get_by_uri None m = None.
Proof. intros (_ & _ & H). unfold get_by_uri. rewrite H. reflexivity. Qed.

Lemma name_of_value ns local m : prefix_value (q_prefix (name_of ns local m)) = get_by_uri ns m.
Proof. apply prefix_new_value. Qed.

Lemma nodup_app_l {A} (a b : list A) x : NoDup (a ++ b) -> In x a -> ~ In x b.
Proof.
  induction a as [|y a IH]; intros ND I0 J; [destruct I0|]. inversion ND as [|? ? N1 N2]; subst. destruct I0 as [->|I0].
  - apply N1, in_or_app. right. exact J.
  - exact (IH N2 I0 J).
Qed.
Lemma nodup_app_r {A} (a b : list A) : NoDup (a ++ b) -> NoDup b.
Proof. induction a as [|y a IH]; intros ND; [exact ND|]. inversion ND; subst. apply IH. assumption. Qed.

Lemma element_name_ok own inh m seen pre local :
  holds m seen -> incl inh seen -> In xml_decl seen ->
  NoDup (map snd (own ++ seen)) -> (pre = None \/ ~ In pre (map fst own)) ->
  element_uri pre (own ++ inh) <> None ->
  prefix_value (q_prefix (name_of (element_ns pre (namespaces own inh)) local m)) = pre.
Proof.
  intros H I0 Ix ND Np B. rewrite name_of_value.
  assert (ND' : NoDup (map snd seen)) by (rewrite map_app in ND; apply nodup_app_r in ND; exact ND).
  destruct pre as [p|].
  - destruct Np as [Np|Np]; [discriminate Np|]. cbn [element_uri] in B.
    unfold element_ns, resolve_prefix. unfold prefixed in B. cbn [xml_decl fst snd otext_eqb].
    destruct (text_eqb p (lit "xml")) eqn:E.
    + apply text_eqb_spec in E. subst p. apply (by_uri m seen _ _ H ND'). exact Ix.
    + rewrite find_innermost, innermost_namespaces. rewrite innermost_app in *. apply innermost_none in Np. rewrite Np in *.
      destruct (innermost (Some p) inh) as [u|] eqn:F; [|congruence].
      apply (by_uri m seen _ _ H ND'). apply I0. apply innermost_in. exact F.
  - unfold element_ns, resolve_prefix. cbn [xml_decl fst otext_eqb]. rewrite find_innermost, innermost_namespaces, innermost_app.
    destruct (innermost None own) as [u|] eqn:E.
    + destruct u as [|c u]; [apply (by_none _ _ H)|]. apply (by_uri_new _ _ _ H).
      rewrite map_app in ND. apply (nodup_app_l _ _ _ ND). apply innermost_in in E.
      change (c :: u) with (snd (@None text, c :: u)). apply in_map. exact E.
    + destruct (innermost None inh) as [[|c u]|] eqn:F; try (apply (by_none _ _ H)).
      apply (by_uri m seen _ _ H ND'). apply I0. apply innermost_in. exact F.
Qed.

Lemma attr_name_ok own inh m seen p local :
  holds m seen -> incl (own ++ inh) seen -> In xml_decl seen -> NoDup (map snd seen) ->
  attr_uri p (own ++ inh) <> None ->
  prefix_value (q_prefix (name_of (attr_ns p (namespaces own inh)) local m)) = p.
Proof.
  intros H I0 Ix ND B. rewrite name_of_value. destruct p as [p|]; [|apply (by_none _ _ H)].
  cbn [attr_uri] in B. unfold attr_ns, resolve_prefix. unfold prefixed in B. cbn [xml_decl fst snd otext_eqb].
  destruct (text_eqb p (lit "xml")) eqn:E.
  - apply text_eqb_spec in E. subst p. apply (by_uri m seen _ _ H ND). exact Ix.
  - rewrite find_innermost, innermost_namespaces. destruct (innermost (Some p) (own ++ inh)) as [u|] eqn:F; [|congruence].
    apply (by_uri m seen _ _ H ND). apply I0. apply innermost_in. exact F.
Qed.

Lemma declared_attrs own l : (forall a, In a l -> exists q v, a = AOther q v) -> declared (map attr_of own ++ l) = own.
Proof.
  intros H. unfold declared. rewrite flat_map_app.
  assert (E : flat_map (fun a => match a with ADefault u => [(None, u)] | APrefix n u => [(Some n, u)] | AOther _ _ => [] end) l = ([] : list decl)).
  { induction l as [|a l IH]; [reflexivity|]. destruct (H a (or_introl eq_refl)) as (q & v & ->). cbn. apply IH. intros b Hb. apply H. right. exact Hb. }
  rewrite E, app_nil_r. induction own as [|[[n|] u] own IH]; cbn; [reflexivity| |]; unfold attr_of; cbn; f_equal; exact IH.
Qed.
Lemma mean_decls scope own : flat_map (mean_pattr scope) (map attr_of own) = [].
Proof. induction own as [|[[n|] u] own IH]; cbn; [reflexivity| |]; unfold attr_of; cbn; exact IH. Qed.

(** ** An element *)
Lemma element_spec own pre local attrs inh m seen scope :
  holds m seen -> incl inh seen -> In xml_decl seen ->
  NoDup (map fst (own ++ seen)) -> NoDup (map snd (own ++ seen)) -> ~ In [] (map snd own) ->
  (pre = None \/ ~ In pre (map fst own)) ->
  element_uri pre (own ++ inh) <> None -> Forall (bound_attr (own ++ inh)) attrs -> same_scope scope inh ->
  exists name ats m',
    parse_element own pre local attrs inh m = (name, ats, m', []) /\ holds m' (rev own ++ seen) /\
    declared ats = own /\
    element_uri (prefix_value (q_prefix name)) (own ++ scope) = element_uri pre (own ++ inh) /\ q_local name = local /\
    flat_map (mean_pattr (own ++ scope)) ats = map (mean_attr (own ++ inh)) attrs.
Proof.
  intros H I0 Ix N1 N2 Ne Np Be Ba Sc. unfold parse_element.
  destruct (new_own own m seen (filter (fun d => negb (existsb (fun o => otext_eqb (fst o) (fst d)) own)) inh) H N1 N2 Ne) as (m' & H' & R).
  cbv zeta. change (new_xmlns (namespaces own inh) m []) with (new_xmlns (own ++ filter (fun d => negb (existsb (fun o => otext_eqb (fst o) (fst d)) own)) inh) m []). rewrite R.
  assert (N1' : NoDup (map fst (rev own ++ seen))).
  { apply (Permutation_NoDup (l := map fst (own ++ seen))); [|exact N1]. apply Permutation_map.
    apply Permutation_app_tail, Permutation_rev. }
  assert (N2' : NoDup (map snd (rev own ++ seen))).
  { apply (Permutation_NoDup (l := map snd (own ++ seen))); [|exact N2]. apply Permutation_map.
    apply Permutation_app_tail, Permutation_rev. }
  rewrite (new_old _ m' (rev own ++ seen) [] H' N1').
  2:{ intros d Hd. apply filter_In in Hd. apply in_or_app. right. apply I0, Hd. }
  rewrite app_nil_r.
  exists (name_of (element_ns pre (namespaces own inh)) local m), (map attr_of own ++ map (parse_attr (namespaces own inh) m') attrs), m'.
  split; [reflexivity|]. split; [exact H'|].
  assert (D : declared (map attr_of own ++ map (parse_attr (namespaces own inh) m') attrs) = own).
  { apply declared_attrs. intros a Ha. apply in_map_iff in Ha. destruct Ha as ([[p l] v] & <- & _). cbn. eauto. }
  split; [exact D|]. split; [|split; [reflexivity|]].
  - rewrite (element_name_ok own inh m seen pre local H I0 Ix N2 Np Be). apply element_uri_same, same_app, Sc.
  - rewrite flat_map_app, mean_decls. cbn [app]. induction attrs as [|[[p l] v] attrs IH]; [reflexivity|].
    inversion Ba as [|? ? B1 B2]; subst. cbn [map flat_map parse_attr mean_pattr mean_attr app].
    rewrite IH; [|exact B2|]; cycle 1.
    { apply declared_attrs. intros a Ha. apply in_map_iff in Ha. destruct Ha as ([[p' l'] v'] & <- & _). cbn. eauto. }
    f_equal. rewrite (attr_name_ok own inh m' (rev own ++ seen) p l H'); [| | |exact N2'|exact B1].
    + f_equal. f_equal. apply attr_uri_same, same_app, Sc.
    + intros d Hd. apply in_app_or in Hd. apply in_or_app. destruct Hd as [Hd|Hd]; [left; apply in_rev in Hd; exact Hd|right; apply I0, Hd].
    + apply in_or_app. right. exact Ix.
Qed.

(** ** The whole tree *)
Definition pkids (f : src -> ns_map -> pnode * ns_map) : list src -> ns_map -> list pnode * ns_map :=
  fix go (l : list src) (m : ns_map) : list pnode * ns_map :=
    match l with
    | [] => ([], m)
    | x :: l => let '(y, m) := f x m in let '(r, m) := go l m in (y :: r, m)
    end.
Lemma parse_elem own pre local attrs kids inh m :
  parse_node (SElem own pre local attrs kids) inh m =
  let '(name, ats, m, pop) := parse_element own pre local attrs inh m in
  let '(ks, m) := pkids (fun x m => parse_node x (namespaces own inh) m) kids m in
  (PElem name ats ks, put_back pop m).
Proof. reflexivity. Qed.

Definition each (P : src -> Prop) : list src -> Prop := fix go l := match l with [] => True | x :: l => P x /\ go l end.

Definition node_ok (s : src) : Prop := forall inh m seen scope,
  holds m seen -> incl inh seen -> In xml_decl seen -> same_scope scope inh ->
  NoDup (map fst (all_decls s ++ seen)) -> NoDup (map snd (all_decls s ++ seen)) -> ~ In [] (map snd (all_decls s)) ->
  named_from_outside s -> all_bound inh s ->
  exists m' seen', snd (parse_node s inh m) = m' /\ holds m' seen' /\ Permutation seen' (all_decls s ++ seen) /\
    mean_parsed scope (fst (parse_node s inh m)) = mean_src inh s.

Lemma nodup_skip {A B} (f : A -> B) a b c : NoDup (map f (a ++ b ++ c)) -> NoDup (map f (a ++ c)).
Proof.
  intros H. assert (P : Permutation (a ++ b ++ c) (b ++ (a ++ c))).
  { rewrite !app_assoc. apply Permutation_app_tail, Permutation_app_comm. }
  apply (Permutation_map f) in P. apply (Permutation_NoDup P) in H. rewrite map_app in H.
  apply nodup_app_r in H. exact H.
Qed.

Lemma same_bound a b : same_scope a b -> forall s, all_bound a s -> all_bound b s.
Proof.
  intros H s. revert s a b H. fix IH 1. destruct s as [own pre local attrs kids|own pre local attrs css|t]; intros a b H; cbn [all_bound].
  - intros (B1 & B2 & B3). split; [rewrite <- (element_uri_same pre _ _ (same_app own _ _ H)); exact B1|]. split.
    + clear - B2 H. induction B2 as [|x l B B2 IH]; constructor; [|exact IH]. unfold bound_attr in *.
      rewrite <- (attr_uri_same _ _ _ (same_app own _ _ H)). exact B.
    + revert kids B3. fix IHk 1. destruct kids as [|x l]; intros B3; [exact Logic.I|]. destruct B3 as [B3 B4].
      split; [apply (IH x _ _ (same_app own _ _ H)); exact B3|]. apply IHk. exact B4.
  - intros (B1 & B2). split; [rewrite <- (element_uri_same pre _ _ (same_app own _ _ H)); exact B1|].
    clear - B2 H. induction B2 as [|x l B B2 IH]; constructor; [|exact IH]. unfold bound_attr in *.
    rewrite <- (attr_uri_same _ _ _ (same_app own _ _ H)). exact B.
  - trivial.
Qed.
Lemma mean_src_same a b : same_scope a b -> forall s, mean_src a s = mean_src b s.
Proof.
  intros H s. revert s a b H. fix IH 1. destruct s as [own pre local attrs kids|own pre local attrs css|t]; intros a b H; cbn [mean_src].
  - rewrite (element_uri_same pre _ _ (same_app own _ _ H)). f_equal.
    + apply map_ext. intros [[p l] v]. unfold mean_attr. rewrite (attr_uri_same _ _ _ (same_app own _ _ H)). reflexivity.
    + revert kids. fix IHk 1. destruct kids as [|x l]; [reflexivity|]. cbn [map]. rewrite (IH x _ _ (same_app own _ _ H)), IHk. reflexivity.
  - rewrite (element_uri_same pre _ _ (same_app own _ _ H)). f_equal.
    apply map_ext. intros [[p l] v]. unfold mean_attr. rewrite (attr_uri_same _ _ _ (same_app own _ _ H)). reflexivity.
  - reflexivity.
Qed.

Lemma kids_ok ns : forall kids, each node_ok kids -> forall m seen scope,
  holds m seen -> incl ns seen -> In xml_decl seen -> same_scope scope ns ->
  NoDup (map fst (flat_map all_decls kids ++ seen)) -> NoDup (map snd (flat_map all_decls kids ++ seen)) ->
  ~ In [] (map snd (flat_map all_decls kids)) ->
  each named_from_outside kids -> each (all_bound ns) kids ->
  exists m' seen', snd (pkids (fun x m => parse_node x ns m) kids m) = m' /\ holds m' seen' /\
    Permutation seen' (flat_map all_decls kids ++ seen) /\
    map (mean_parsed scope) (fst (pkids (fun x m => parse_node x ns m) kids m)) = map (mean_src ns) kids.
Proof.
  induction kids as [|x kids IH]; intros Hk m seen scope H I0 Ix Sc N1 N2 Ne Hn Hb.
  - exists m, seen. split; [reflexivity|]. split; [exact H|]. split; [apply Permutation_refl|reflexivity].
  - destruct Hk as [Hx Hk], Hn as [Hn1 Hn2], Hb as [Hb1 Hb2]. cbn [flat_map] in *.
    rewrite <- app_assoc in N1, N2.
    destruct (Hx ns m seen scope H I0 Ix Sc) as (m1 & seen1 & E1 & H1 & P1 & M1).
    { apply nodup_skip in N1. exact N1. }
    { apply nodup_skip in N2. exact N2. }
    { intros J. apply Ne. rewrite map_app. apply in_or_app. left. exact J. }
    { exact Hn1. } { exact Hb1. }
    assert (P2 : Permutation (all_decls x ++ flat_map all_decls kids ++ seen) (flat_map all_decls kids ++ seen1)).
    { rewrite P1. rewrite !app_assoc. apply Permutation_app_tail, Permutation_app_comm. }
    destruct (IH Hk m1 seen1 scope H1) as (m2 & seen2 & E2 & H2 & P3 & M2).
    { intros d Hd. apply (Permutation_in _ (Permutation_sym P1)). apply in_or_app. right. apply I0, Hd. }
    { apply (Permutation_in _ (Permutation_sym P1)). apply in_or_app. right. exact Ix. }
    { exact Sc. }
    { apply (Permutation_NoDup (Permutation_map fst P2)). exact N1. }
    { apply (Permutation_NoDup (Permutation_map snd P2)). exact N2. }
    { intros J. apply Ne. rewrite map_app. apply in_or_app. right. exact J. }
    { exact Hn2. } { exact Hb2. }
    exists m2, seen2. cbn [pkids].
    destruct (parse_node x ns m) as [y m1'] eqn:Ey. cbn [fst snd] in *. subst m1'.
    destruct (pkids _ kids m1) as [r m2'] eqn:Er. cbn [fst snd] in *. subst m2'.
    split; [reflexivity|]. split; [exact H2|]. split.
    + rewrite P3, <- P2, <- app_assoc. reflexivity.
    + cbn [map]. rewrite M1, M2. reflexivity.
Qed.

Lemma node_spec : forall s, node_ok s.
Proof.
  fix IH 1. destruct s as [own pre local attrs kids|own pre local attrs css|t]; intros inh m seen scope H I0 Ix Sc N1 N2 Ne Hn Hb.
  - cbn [all_decls] in *. rewrite <- app_assoc in N1, N2. destruct Hn as [Hn1 Hn2], Hb as (Hb1 & Hb2 & Hb3).
    destruct (element_spec own pre local attrs inh m seen scope H I0 Ix) as (name & ats & m1 & E & H1 & D & U & L & At).
    { apply nodup_skip in N1. exact N1. }
    { apply nodup_skip in N2. exact N2. }
    { intros J. apply Ne. rewrite map_app. apply in_or_app. left. exact J. }
    { exact Hn1. } { exact Hb1. } { exact Hb2. } { exact Sc. }
    rewrite parse_elem, E.
    assert (P2 : Permutation (own ++ flat_map all_decls kids ++ seen) (flat_map all_decls kids ++ rev own ++ seen)).
    { rewrite !app_assoc. apply Permutation_app_tail. rewrite (Permutation_rev own) at 1. apply Permutation_app_comm. }
    assert (Sc' : same_scope (own ++ scope) (namespaces own inh)).
    { intros p. rewrite innermost_namespaces. apply same_app, Sc. }
    destruct (kids_ok (namespaces own inh) kids) with (m := m1) (seen := rev own ++ seen) (scope := own ++ scope)
      as (m2 & seen2 & E2 & H2 & P3 & M2).
    { clear - IH. revert kids. fix IHk 1. destruct kids as [|x l]; [exact Logic.I|]. split; [apply IH|apply IHk]. }
    { exact H1. }
    { intros d Hd. unfold namespaces in Hd. apply in_app_or in Hd. apply in_or_app. destruct Hd as [Hd|Hd]; [left; apply in_rev in Hd; exact Hd|].
      apply filter_In in Hd. right. apply I0, Hd. }
    { apply in_or_app. right. exact Ix. }
    { exact Sc'. }
    { apply (Permutation_NoDup (Permutation_map fst P2)). exact N1. }
    { apply (Permutation_NoDup (Permutation_map snd P2)). exact N2. }
    { intros J. apply Ne. rewrite map_app. apply in_or_app. right. exact J. }
    { exact Hn2. }
    { assert (S2 : same_scope (own ++ inh) (namespaces own inh)) by (intros p; symmetry; apply innermost_namespaces).
      clear - Hb3 S2. revert Hb3. induction kids as [|x l IHk]; intros Hb; [exact Logic.I|]. destruct Hb as [Hb1 Hb2].
      split; [apply (same_bound _ _ S2 x Hb1)|apply IHk, Hb2]. }
    destruct (pkids _ kids m1) as [ks m2'] eqn:Ek. cbn [fst snd] in *. subst m2'.
    exists m2, seen2. split; [reflexivity|]. split; [exact H2|]. split.
    + rewrite P3, <- P2, <- app_assoc. reflexivity.
    + cbn [mean_parsed mean_src]. rewrite D, U, L, At, M2. f_equal.
      apply map_ext. intros x. apply mean_src_same. intros p. apply innermost_namespaces.
  - cbn [all_decls] in *. destruct Hb as (Hb1 & Hb2).
    destruct (element_spec own pre local attrs inh m seen scope H I0 Ix N1 N2 Ne Hn Hb1 Hb2 Sc) as (name & ats & m1 & E & H1 & D & U & L & At).
    cbn [parse_node]. rewrite E. exists m1, (rev own ++ seen). split; [reflexivity|]. split; [exact H1|]. split.
    + apply Permutation_app_tail, Permutation_sym, Permutation_rev.
    + cbn [fst mean_parsed mean_src map]. rewrite D, U, L, At. reflexivity.
  - exists m, seen. split; [reflexivity|]. split; [exact H|]. split; [apply Permutation_refl|reflexivity].
Qed.

Lemma start_holds : holds ns_start [xml_decl].
Proof.
  split; [|split].
  - intros p. change (prefix_to_uri ns_start) with [(fst xml_decl, Some (snd xml_decl))]. rewrite tget_cons. unfold xml_decl.
    cbn [fst snd innermost]. destruct (otext_eqb _ p); reflexivity.
  - intros u. change (uri_to_prefix ns_start) with [(Some (snd xml_decl), fst xml_decl)]. rewrite tget_cons.
    destruct (otext_eqb (Some (snd xml_decl)) (Some u)) eqn:E.
    + apply otext_eqb_iff in E. injection E as <-. left. reflexivity.
    + apply otext_eqb_false in E. cbn [tget find]. intros [J|[]]. apply E. congruence.
  - reflexivity.
Qed.

Lemma parse_mean s : declared_once s -> all_bound [] s -> named_from_outside s ->
  mean_parsed [] (parse_root s) = mean_src [] s.
Proof.
  intros (N1 & N2 & Ne) B Hn.
  destruct (node_spec s [] ns_start [xml_decl] [] start_holds) as (m & seen & _ & _ & _ & M); try assumption.
  - intros d [].
  - left. reflexivity.
  - intros p. reflexivity.
Qed.

(** ** In memory *)
Definition agrees (a : text * text) (b : option (option text) * text) : Prop :=
  snd a = snd b /\ match fst b with Some (Some u) => u <> [] -> fst a = u | _ => True end.
Lemma element_memory own pre local attrs inh m :
  let '(name, _, _, _) := parse_element own pre local attrs inh m in
  agrees (memory_uri name, q_local name) (element_uri pre (own ++ inh), local).
Proof.
  unfold parse_element. destruct (new_xmlns _ m []) as [[decls m'] pop]. split; [reflexivity|]. cbn [fst].
  assert (S2 : same_scope (own ++ inh) (namespaces own inh)) by (intros p; symmetry; apply innermost_namespaces).
  rewrite (element_uri_same pre _ _ S2).
  destruct (element_uri pre (namespaces own inh)) as [[u|]|] eqn:E; trivial. intros N.
  assert (B : element_uri pre (namespaces own inh) <> None) by congruence.
  apply element_ns_uri in B. rewrite E in B. injection B as B. rewrite <- B. unfold memory_uri, name_of. cbn [q_prefix].
  apply prefix_new_uri. exact N.
Qed.
Definition memory_ok (s : src) : Prop := forall inh inh' m, same_scope inh inh' ->
  Forall2 agrees (memory (fst (parse_node s inh m))) (element_names inh' s).
Lemma memory_kids ns ns' : forall kids, each memory_ok kids -> same_scope ns ns' -> forall m,
  Forall2 agrees (flat_map memory (fst (pkids (fun x m => parse_node x ns m) kids m))) (flat_map (element_names ns') kids).
Proof.
  induction kids as [|x kids IH]; intros Hk Sc m; [constructor|]. destruct Hk as [Hx Hk]. cbn [pkids].
  specialize (Hx ns ns' m Sc). destruct (parse_node x ns m) as [y m1]. specialize (IH Hk Sc m1). destruct (pkids _ kids m1) as [r m2].
  cbn [fst flat_map] in *. apply Forall2_app; assumption.
Qed.
Lemma memory_spec : forall s, memory_ok s.
Proof.
  fix IH 1. destruct s as [own pre local attrs kids|own pre local attrs css|t]; intros inh inh' m Sc.
  - rewrite parse_elem. pose proof (element_memory own pre local attrs inh m) as E.
    destruct (parse_element own pre local attrs inh m) as [[[name ats] m1] pop].
    assert (K : each memory_ok kids).
    { clear - IH. revert kids. fix IHk 1. destruct kids as [|x l]; [exact Logic.I|]. split; [apply IH|apply IHk]. }
    assert (S2 : same_scope (namespaces own inh) (own ++ inh')).
    { intros p. rewrite innermost_namespaces. apply same_app, Sc. }
    pose proof (memory_kids (namespaces own inh) (own ++ inh') kids K S2 m1) as F.
    destruct (pkids _ kids m1) as [ks m2]. cbn [fst memory element_names] in *. constructor; [|exact F].
    rewrite <- (element_uri_same pre _ _ (same_app own _ _ Sc)). exact E.
  - cbn [parse_node]. pose proof (element_memory own pre local attrs inh m) as E.
    destruct (parse_element own pre local attrs inh m) as [[[name ats] m1] pop]. cbn [fst memory element_names flat_map app].
    constructor; [|constructor]. rewrite <- (element_uri_same pre _ _ (same_app own _ _ Sc)). exact E.
  - constructor.
Qed.
Lemma parse_memory s : Forall2 agrees (memory (parse_root s)) (element_names [] s).
Proof. apply memory_spec. intros p. reflexivity. Qed.
