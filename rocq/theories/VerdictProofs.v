From Coq Require Import String List NArith Bool Lia.
From Verif Require Import Chars NameModel AttrTable ElemTable ElemModel ElemSpec KnownTable KnownModel KnownSpec KnownProofs ExcerptModel VerdictModel VerdictSpec.
Import ListNotations.
Local Open Scope list_scope.

(** ** Severities *)
Lemma run_in s l p t : In (p, t) (run s l) <-> t = s /\ s <> Off /\ In p l.
Proof.
  unfold run. destruct s; cbn [In]; [split; [intros []|intros (_ & H & _); congruence]| |]; rewrite in_map_iff; split.
  1,3: intros [x [E H]]; injection E as -> <-; repeat split; [discriminate|exact H].
  all: intros (-> & _ & H); exists p; auto.
Qed.
Lemma flat_in {A B} (f : A -> list B) l (P : B -> Prop) : (forall a b, In b (f a) -> P b) -> forall b, In b (flat_map f l) -> P b.
Proof. intros H b Hb. apply in_flat_map in Hb as (a & _ & Hb). exact (H a b Hb). Qed.
Lemma of_elements r parent e p : In p (no_unknown_elements parent e) -> severity_of r p = r_elements r.
Proof. unfold no_unknown_elements. destruct parent as [q|]; [|intros []]. destruct (negb _); [intros []|]. destruct (is_permitted_child q e); [intros []|]. intros [<-|[]]. reflexivity. Qed.
Lemma of_attributes r e l p : In p (no_unknown_attributes e l) -> severity_of r p = r_attributes r.
Proof.
  unfold no_unknown_attributes. assert (H : In p (flat_map (fun a => if expected e (a_id a) then [] else [UnknownAttribute (a_name a) e]) l) -> severity_of r p = r_attributes r).
  { apply (flat_in _ l (fun p => severity_of r p = r_attributes r)). intros a b. destruct (expected e (a_id a)); [intros []|]. intros [<-|[]]. reflexivity. }
  destruct e; [exact H|exact H|intros []].
Qed.
Lemma of_deprecated r e l p : In p (no_deprecated e l) -> severity_of r p = r_deprecated r.
Proof.
  unfold no_deprecated. intros H. apply in_app_iff in H as [H|H].
  - destruct (intersects (elem_info e) legacy); [destruct H as [<-|[]]; reflexivity|destruct H].
  - revert p H. apply flat_in. intros a b. destruct (intersects _ deprecated); [intros [<-|[]]; reflexivity|intros []].
Qed.
Lemma of_default r l p : In p (no_default_attributes l) -> severity_of r p = r_default r.
Proof. revert p. apply flat_in. intros a b. destruct (id_default (a_name a)); [|intros []]. destruct (_ && _); [intros [<-|[]]; reflexivity|intros []]. Qed.
Lemma of_xlink r l p : In p (no_xlink l) -> severity_of r p = r_xlink r.
Proof. revert p. apply flat_in. intros a b. destruct (xlink_problem_of a); [|intros []]. intros [<-|[]]; reflexivity. Qed.
Lemma of_invalid r l p : In p (no_invalid_attributes l) -> severity_of r p = r_invalid r.
Proof.
  revert p. apply flat_in. intros a b. destruct (a_id a) as [[k|]|]; try (intros []; fail). destruct (a_value a); [destruct (a_rest a)|]; try (intros []; fail); intros [<-|[]]; reflexivity.
Qed.
Definition found (parent : option elem_id) (e : elem_id) (l : list attr) : list problem :=
  no_unknown_elements parent e ++ no_unknown_attributes e l ++ no_deprecated e l ++ no_default_attributes l ++ no_xlink l ++ no_invalid_attributes l.
Lemma report_in r parent e l p s : In (p, s) (report r parent e l) <-> s = severity_of r p /\ s <> Off /\ In p (found parent e l).
Proof.
  unfold report, found. rewrite !in_app_iff, !run_in. split.
  - intros [(-> & H & I0)|[(-> & H & I0)|[(-> & H & I0)|[(-> & H & I0)|[(-> & H & I0)|(-> & H & I0)]]]]].
    + rewrite (of_elements r parent e p I0). auto 10.
    + rewrite (of_attributes r e l p I0). auto 10.
    + rewrite (of_deprecated r e l p I0). auto 10.
    + rewrite (of_default r l p I0). auto 10.
    + rewrite (of_xlink r l p I0). auto 10.
    + rewrite (of_invalid r l p I0). auto 10.
  - intros (-> & H & [I0|[I0|[I0|[I0|[I0|I0]]]]]).
    + rewrite (of_elements r parent e p I0) in *. auto 10.
    + rewrite (of_attributes r e l p I0) in *. auto 10.
    + rewrite (of_deprecated r e l p I0) in *. auto 10.
    + rewrite (of_default r l p I0) in *. auto 10.
    + rewrite (of_xlink r l p I0) in *. auto 10.
    + rewrite (of_invalid r l p I0) in *. auto 10.
Qed.
Lemma all_on_sev p : severity_of all_on p = Err.
Proof. destruct p; reflexivity. Qed.
Lemma severities r parent e l p s : In (p, s) (report r parent e l) <-> s = severity_of r p /\ s <> Off /\ In (p, Err) (report all_on parent e l).
Proof.
  rewrite !report_in, all_on_sev. split; intros (A & B & C); repeat split; auto; try discriminate; tauto.
Qed.

(** ** Namespaces *)
Local Opaque elem_table own_attributes attr_table common_attributes initial_texts default_table svg2_children.
Lemma kind_of_in i k : kind_of i = Some k -> In k attr_table.
Proof. intros K. apply find_some in K as [K _]. exact K. Qed.
Lemma parsed_base e p local : (exists k, In k attr_table /\ matches p local k = true /\ parse_attr_id e p local = recognised p k) \/
  parse_attr_id e p local = ABase (BUnknown (mkName p local)).
Proof.
  unfold parse_attr_id. destruct (find _ _) as [k|] eqn:F.
  - left. apply find_some in F as [F1 F2]. exists k. split; [|auto]. apply in_flat_map in F1 as (i & _ & F1). destruct (kind_of i) as [k'|] eqn:K; [|destruct F1]. destruct F1 as [<-|[]]. exact (kind_of_in i k' K).
  - unfold group_parse_attr_id. destruct (find _ (group_attributes _)) as [k|] eqn:G.
    + left. apply find_some in G as [G1 G2]. exists k. split; [|auto]. apply filter_In in G1 as [G1 _]. exact G1.
    + right. reflexivity.
Qed.
Lemma base_recognised p k : id_unaliased (recognised p k) = BKnown k.
Proof. unfold recognised. destruct (is_aliased p); reflexivity. Qed.
Lemma xlink_kinds : forallb (fun k => if text_eqb (kind_id k) (lit "XLinkShow") || text_eqb (kind_id k) (lit "XLinkTitle") || text_eqb (kind_id k) (lit "XLinkHref")
  then known_eqb (kind_prefix k) XLink else true) attr_table = true.
Proof. vm_compute. reflexivity. Qed.
Lemma xlink_iff e p local v rest :
  (exists q, xlink_problem_of (mkAttr (parse_attr_id e p local) v rest) = Some q) <-> has_prefix (base_prefix (id_unaliased (parse_attr_id e p local))) XLink = true.
Proof.
  unfold xlink_problem_of, a_name. cbn [a_id a_value]. cbn [id_prefix id_unaliased].
  set (a := parse_attr_id e p local).
  assert (K : (is_kind a "XLinkShow" || is_kind a "XLinkTitle" || is_kind a "XLinkHref") = true -> has_prefix (base_prefix (id_unaliased a)) XLink = true).
  { unfold a. destruct (parsed_base e p local) as [(k & Hk & _ & ->)| ->]; [|intros H; discriminate H]. unfold is_kind. rewrite base_recognised. intros H.
    pose proof xlink_kinds as X. apply (proj1 (forallb_forall _ _)) with (x := k) in X; [|exact Hk]. rewrite H in X. unfold has_prefix. cbn [base_prefix prefix_unaliased]. exact X. }
  destruct (has_prefix (base_prefix (id_unaliased a)) XLink) eqn:P.
  - split; [reflexivity|]. intros _. destruct (_ && _); [eauto|]. destruct (_ && _); [eauto|]. destruct (_ && _); [eauto|]. destruct (_ && _); eauto.
  - split; [|discriminate]. destruct (is_kind a "XLinkShow") eqn:K1; [exfalso; specialize (K eq_refl); discriminate|].
    destruct (is_kind a "XLinkTitle") eqn:K2; [exfalso; specialize (K eq_refl); discriminate|].
    destruct (is_kind a "XLinkHref") eqn:K3; [exfalso; specialize (K eq_refl); discriminate|]. cbn [andb]. intros [q H]. discriminate H.
Qed.
Lemma uri_known k uri : known_uri k = uri -> known_uri XLink = uri -> k = XLink.
Proof. intros <- H. destruct k; try discriminate H; reflexivity. Qed.
Lemma prefix_xlink e uri name local : has_prefix (base_prefix (id_unaliased (parse_attr_id e (prefix_new uri name) local))) XLink = true <-> uri = known_uri XLink.
Proof.
  assert (G : forall k, known_uri k = uri -> (known_eqb k XLink = true <-> uri = known_uri XLink)).
  { intros k <-. split; [destruct k; try discriminate; reflexivity|]. intros H. symmetry in H. rewrite (uri_known k _ eq_refl H). reflexivity. }
  assert (KN : forall p k, prefix_ns p = NSKnown k -> has_prefix (PKnown k) XLink = has_prefix p XLink -> has_prefix (base_prefix (id_unaliased (parse_attr_id e p local))) XLink = has_prefix (PKnown k) XLink).
  { intros p k Hp Hx. destruct (parsed_base e p local) as [(q & _ & M & ->)| ->].
    - rewrite base_recognised. cbn [base_prefix]. apply andb_true_iff in M as [M _]. unfold prefix_eqb in M. rewrite Hp in M. cbn [is_ns] in M.
      assert (kind_prefix q = k) as -> by (destruct (kind_prefix q), k; try discriminate M; reflexivity). reflexivity.
    - cbn [id_unaliased base_prefix q_prefix]. symmetry. exact Hx. }
  unfold prefix_new. destruct (find (fun k => text_eqb (known_uri k) uri && otext_eqb (known_name k) name) all_known) as [k|] eqn:F1.
  - apply find_some in F1 as [_ F1]. apply andb_true_iff in F1 as [F1 _]. apply text_eqb_spec in F1. rewrite (KN (PKnown k) k eq_refl eq_refl). apply G. exact F1.
  - destruct (find (fun k => text_eqb (known_uri k) uri) all_known) as [k|] eqn:F2.
    + apply find_some in F2 as [_ F2]. apply text_eqb_spec in F2. rewrite (KN (PAliased (PKnown k) name) k eq_refl eq_refl). apply G. exact F2.
    + assert (NX : uri <> known_uri XLink).
      { intros ->. apply find_none with (x := XLink) in F2; [|vm_compute; tauto]. rewrite text_eqb_refl in F2. discriminate. }
      split; [|intros H; contradiction]. intros H. exfalso.
      destruct uri as [|c uri]; [destruct name as [n|]|].
      * unfold ns_new in H. rewrite F2 in H. destruct (parsed_base e (PUnknown (Some n) (NSUnknown [])) local) as [(q & _ & M & _)|E]; [discriminate M|]. rewrite E in H. discriminate H.
      * rewrite (KN (PKnown SVG) SVG eq_refl eq_refl) in H. discriminate H.
      * unfold ns_new in H. rewrite F2 in H. destruct (parsed_base e (PUnknown name (NSUnknown (c :: uri))) local) as [(q & _ & M & _)|E]; [discriminate M|]. rewrite E in H. discriminate H.
Qed.
Lemma svg_not_xlink e local : has_prefix (base_prefix (id_unaliased (parse_attr_id e (PKnown SVG) local))) XLink = false.
Proof.
  destruct (parsed_base e (PKnown SVG) local) as [(q & _ & M & ->)| ->]; [|reflexivity]. rewrite base_recognised. cbn [base_prefix]. apply andb_true_iff in M as [M _].
  unfold prefix_eqb in M. cbn [prefix_ns is_ns] in M. destruct (kind_prefix q); try discriminate M; reflexivity.
Qed.
Lemma xlink_reported r parent e uri name local v rest l : r_xlink r <> Off ->
  ((exists q s, In (NoXLink q, s) (report r parent e [mkAttr (parse_attr_id e (prefix_new uri name) local) v rest])) <-> uri = known_uri XLink)
  /\ (In (mkAttr (parse_attr_id e (prefix_new uri name) local) v rest) l -> uri = known_uri XLink -> exists q s, In (NoXLink q, s) (report r parent e l)).
Proof.
  intros Hr. assert (B : forall l, In (mkAttr (parse_attr_id e (prefix_new uri name) local) v rest) l -> uri = known_uri XLink -> exists q s, In (NoXLink q, s) (report r parent e l)).
  { intros l' Hl E. apply (prefix_xlink e uri name local) in E. apply (xlink_iff e _ local v rest) in E as [q E]. exists q, (r_xlink r). apply report_in. split; [reflexivity|]. split; [exact Hr|].
    unfold found. rewrite !in_app_iff. do 4 right. left. apply in_flat_map. eexists. split; [exact Hl|]. rewrite E. left. reflexivity. }
  split; [split|exact (B l)].
  - intros (q & s & H). apply report_in in H as (_ & _ & H). apply (prefix_xlink e uri name local). apply (xlink_iff e _ local v rest).
    unfold found in H. rewrite !in_app_iff in H. destruct H as [H|[H|[H|[H|[H|H]]]]].
    + exfalso. apply (of_elements (mkRules Err Off Off Off Off Off)) in H. discriminate H.
    + exfalso. apply (of_attributes (mkRules Off Err Off Off Off Off)) in H. discriminate H.
    + exfalso. apply (of_deprecated (mkRules Off Off Err Off Off Off)) in H. discriminate H.
    + exfalso. apply (of_default (mkRules Off Off Off Err Off Off)) in H. discriminate H.
    + unfold no_xlink in H. cbn [flat_map] in H. rewrite app_nil_r in H. destruct (xlink_problem_of _) as [q'|]; [eauto|destruct H].
    + exfalso. apply (of_invalid (mkRules Off Off Off Off Off Err)) in H. discriminate H.
  - intros E. apply B; [left; reflexivity|exact E].
Qed.

(** ** Nothing reported *)
Local Transparent elem_table own_attributes attr_table common_attributes initial_texts default_table.
Definition check_dep (k : ekind) (own : list kind) (groups : N) (s : string) : bool :=
  existsb (String.eqb s) missing_attributes || existsb (String.eqb s) without_effect || negb (intersects (id_info (ABase (id_unaliased (quick_parse own groups (lit s))))) deprecated).
Definition check_dep_element (all : list ekind) (r : string * list string) : bool :=
  let e := lit (fst r) in
  forallb (fun k => if text_eqb (e_local k) e then
                      let own := own_kinds k in let groups := elem_groups (EKnown k) in negb (intersects (elem_info (EKnown k)) legacy) && forallb (check_dep k own groups) (common_attributes ++ snd r)
                    else true) all.
Definition check_dep_all : bool := let all := elem_table in forallb (check_dep_element all) own_attributes.
Lemma check_dep_true : check_dep_all = true.
Proof. vm_cast_no_check (eq_refl true). Qed.
Local Opaque elem_table own_attributes attr_table common_attributes initial_texts default_table.
Lemma dep_checked k local : In k elem_table -> svg2_attribute (e_local k) local ->
  exists s, local = lit s /\ check_dep k (own_kinds k) (elem_groups (EKnown k)) s = true.
Proof.
  intros Hk (e & own & a & Hin & He & Ha & Hl). pose proof check_dep_true as C. unfold check_dep_all in C. cbv zeta in C.
  apply (proj1 (forallb_forall _ _)) with (x := (e, own)) in C; [|exact Hin]. unfold check_dep_element in C. cbn [fst snd] in C. cbv zeta in C.
  apply (proj1 (forallb_forall _ _)) with (x := k) in C; [|exact Hk]. rewrite He, text_eqb_refl in C. apply andb_true_iff in C as [_ C].
  apply (proj1 (forallb_forall _ _)) with (x := a) in C; [|exact Ha]. exists a. auto.
Qed.
Lemma not_legacy k : In k elem_table -> (exists e own, In (e, own) own_attributes /\ lit e = e_local k) -> intersects (elem_info (EKnown k)) legacy = false.
Proof.
  intros Hk (e & own & Hin & He). pose proof check_dep_true as C. unfold check_dep_all in C. cbv zeta in C.
  apply (proj1 (forallb_forall _ _)) with (x := (e, own)) in C; [|exact Hin]. unfold check_dep_element in C. cbn [fst snd] in C. cbv zeta in C.
  apply (proj1 (forallb_forall _ _)) with (x := k) in C; [|exact Hk]. rewrite He, text_eqb_refl in C. apply andb_true_iff in C as [C _]. apply negb_true_iff in C. exact C.
Qed.
Lemma not_deprecated k local : In k elem_table -> svg2_attribute (e_local k) local -> known_kept local -> ~ In local (map lit without_effect) ->
  intersects (id_info (ABase (id_unaliased (parse_attr_id (EKnown k) (PKnown SVG) local)))) deprecated = false.
Proof.
  intros Hk Ha Hn Hw. destruct (dep_checked k local Hk Ha) as (s & -> & C). rewrite quick_parse_eq. unfold check_dep in C.
  apply orb_true_iff in C as [C|C]; [apply orb_true_iff in C as [C|C]|].
  - exfalso. apply Hn. apply existsb_exists in C as [x [Hx E]]. apply String.eqb_eq in E as ->. apply in_map, Hx.
  - exfalso. apply Hw. apply existsb_exists in C as [x [Hx E]]. apply String.eqb_eq in E as ->. apply in_map, Hx.
  - apply negb_true_iff in C. exact C.
Qed.
Lemma not_all_groups k : In k elem_table -> ElemModel.contains (elem_groups (EKnown k)) all_groups = false.
Proof.
  intros Hk. assert (B : forallb (fun k => negb (ElemModel.contains (elem_groups (EKnown k)) all_groups)) elem_table = true) by (vm_compute; reflexivity).
  apply (proj1 (forallb_forall _ _)) with (x := k) in B; [|exact Hk]. apply negb_true_iff in B. exact B.
Qed.
Lemma is_expected k local : In k elem_table -> svg2_attribute (e_local k) local -> known_kept local ->
  expected (EKnown k) (parse_attr_id (EKnown k) (PKnown SVG) local) = true.
Proof.
  intros Hk Ha Hn. pose proof (permitted k local Hk Ha Hn) as P. unfold seen_as in P. cbv zeta in P. apply andb_true_iff in P as [_ P].
  unfold is_permitted_attribute in P. rewrite (not_all_groups k Hk), orb_false_l in P. cbn [id_unaliased] in P. unfold expected.
  unfold id_groups in P. cbn [id_unaliased] in P. fold (id_groups (parse_attr_id (EKnown k) (PKnown SVG) local)) in P.
  apply orb_true_iff in P as [-> | ->]; [rewrite orb_true_r; reflexivity|reflexivity].
Qed.
(** As [no_default_attributes] asks, so does the job of C66. *)
Lemma default_initial k local v : In k elem_table -> svg2_attribute (e_local k) local -> known_kept local -> has_default (e_local k) local ->
  forall d, id_default (ABase (id_unaliased (parse_attr_id (EKnown k) (PKnown SVG) local))) = Some d -> avalue_eqb (Typed v) d = true -> initial (e_local k) local v.
Proof.
  intros Hk Ha Hn [Hd Ht] d D V. apply avalue_eqb_eq in V. subst d.
  destruct (checked k local Hk Ha) as (s & -> & C). rewrite quick_parse_eq in D. unfold check_attribute in C. cbv zeta in C. rewrite D in C.
  apply orb_true_iff in C as [C|C].
  { exfalso. apply Hn. apply existsb_exists in C as [x [Hx E]]. apply String.eqb_eq in E as ->. apply in_map, Hx. }
  apply andb_true_iff in C as [_ C]. apply orb_true_iff in C as [C|C]; [apply orb_true_iff in C as [C|C]|].
  - exfalso. apply existsb_exists in C as [[x y] [Hx E]]. cbn [fst snd] in E. apply andb_true_iff in E as [E1 E2]. apply text_eqb_spec in E1. apply String.eqb_eq in E2 as ->.
    destruct Hx as [E|Hx].
    + injection E as <- <-. assert (X : forall k, In k elem_table -> e_local k <> []) by
        (intros k' Hk'; assert (B : forallb (fun k => negb (text_eqb (e_local k) [])) elem_table = true) by (vm_compute; reflexivity);
         apply (proj1 (forallb_forall _ _)) with (x := k') in B; [|exact Hk']; apply negb_true_iff in B; intros Z; rewrite Z in B; discriminate).
      apply (X k Hk). symmetry. exact E1.
    + apply Hd. rewrite <- E1. apply (in_map (fun x => (lit (fst x), lit (snd x)))) in Hx. exact Hx.
  - exfalso. apply String.eqb_eq in C as ->. apply Ht. reflexivity.
  - apply initialb_ok, C.
Qed.
Lemma flat_nil {A B} (f : A -> list B) l : (forall a, In a l -> f a = []) -> flat_map f l = [].
Proof. induction l as [|a l IH]; intros H; [reflexivity|]. cbn [flat_map]. rewrite (H a (or_introl eq_refl)), IH; [reflexivity|]. intros b Hb. apply H. right. exact Hb. Qed.
Lemma svg_known element : (exists e own, In (e, own) own_attributes /\ lit e = element) -> element <> lit "discard" ->
  exists k, svg element = EKnown k /\ In k elem_table /\ e_local k = element.
Proof.
  intros (e & own & Hin & He) Hd. destruct (svg_elem_known element) as [H|E]; [exact H|exfalso].
  pose proof elements_known as K. apply (proj1 (forallb_forall _ _)) with (x := (e, own)) in K; [|exact Hin].
  unfold element_known in K. cbn [fst] in K. rewrite He, E, orb_false_r in K. apply String.eqb_eq in K. subst e. apply Hd. symmetry. exact He.
Qed.
Lemma child_permitted parent child : svg2_child parent child -> child <> lit "discard" -> ~ (parent = lit "a" /\ (child = lit "tspan" \/ child = lit "textPath")) ->
  no_unknown_elements (Some (svg parent)) (svg child) = [].
Proof.
  intros (p & kids & c & Hin & <- & Hc & <-) Hd Ha. pose proof children_known as K. apply (proj1 (forallb_forall _ _)) with (x := (p, kids)) in K; [|exact Hin].
  cbn [fst snd] in K. apply (proj1 (forallb_forall _ _)) with (x := c) in K; [|exact Hc]. unfold child_known in K.
  apply orb_true_iff in K as [K|K]; [apply orb_true_iff in K as [K|K]|].
  - exfalso. apply String.eqb_eq in K. subst c. apply Hd. reflexivity.
  - exfalso. unfold a_text in K. apply andb_true_iff in K as [K1 K2]. apply String.eqb_eq in K1. subst p. apply orb_true_iff in K2.
    apply Ha. split; [reflexivity|]. destruct K2 as [K2|K2]; apply String.eqb_eq in K2; subst c; auto.
  - unfold no_unknown_elements. change svg with svg_elem. destruct (svg_elem (lit c)) as [k| |]; try discriminate. rewrite K. destruct (negb _); reflexivity.
Qed.
Lemma clean r parent element attrs : (exists e own, In (e, own) own_attributes /\ lit e = element) -> element <> lit "discard" ->
  match parent with Some p => svg2_child p element /\ ~ (p = lit "a" /\ (element = lit "tspan" \/ element = lit "textPath")) | None => True end ->
  (forall av, In av attrs -> fine element av) ->
  report r (option_map svg parent) (svg element) (map (fun av => attribute element (fst av) (snd av)) attrs) = [].
Proof.
  intros Hin Hd Hp Hf. destruct (svg_known element Hin Hd) as (k & E & Hk & L).
  assert (P : no_unknown_elements (option_map svg parent) (svg element) = []).
  { destruct parent as [p|]; [|reflexivity]. destruct Hp as [Hp Ha]. apply child_permitted; assumption. }
  assert (Q : forall a, In a (map (fun av => attribute element (fst av) (snd av)) attrs) -> exists local v, fine element (local, v) /\ a = mkAttr (parse_attr_id (EKnown k) (PKnown SVG) local) (Typed v) false).
  { intros a Ha. apply in_map_iff in Ha as ([x v] & <- & Ha). exists x, v. split; [apply Hf; exact Ha|]. unfold attribute. rewrite E. reflexivity. }
  unfold report. rewrite P, E. generalize dependent (map (fun av => attribute element (fst av) (snd av)) attrs). intros l Q.
  replace (no_unknown_attributes (EKnown k) l) with (@nil problem).
  2:{ symmetry. unfold no_unknown_attributes. apply flat_nil. intros a Ha. destruct (Q a Ha) as (x & v & (F1 & F2 & F3 & F4 & F5) & ->). cbn [a_id fst snd] in *. rewrite <- L in *. rewrite is_expected by assumption. reflexivity. }
  replace (no_deprecated (EKnown k) l) with (@nil problem).
  2:{ symmetry. unfold no_deprecated. rewrite not_legacy; [|exact Hk|rewrite L; exact Hin]. cbn [app]. apply flat_nil. intros a Ha. destruct (Q a Ha) as (x & v & (F1 & F2 & F3 & F4 & F5) & ->).
      unfold a_name. cbn [a_id fst snd] in *. rewrite <- L in *. rewrite not_deprecated by assumption. reflexivity. }
  replace (no_default_attributes l) with (@nil problem).
  2:{ symmetry. apply flat_nil. intros a Ha. destruct (Q a Ha) as (x & v & (F1 & F2 & F3 & F4 & F5) & ->). unfold a_name. cbn [a_id a_value fst snd] in *. rewrite <- L in *.
      destruct (id_default _) as [d|] eqn:D; [|reflexivity]. destruct (avalue_eqb (Typed v) d) eqn:V; [|reflexivity]. exfalso. apply F5. eapply default_initial; eauto. }
  replace (no_xlink l) with (@nil problem).
  2:{ symmetry. apply flat_nil. intros a Ha. destruct (Q a Ha) as (x & v & _ & ->). destruct (xlink_problem_of _) as [q|] eqn:X; [|reflexivity]. exfalso.
      pose proof (proj1 (xlink_iff (EKnown k) (PKnown SVG) x (Typed v) false) (ex_intro _ q X)) as Y. rewrite svg_not_xlink in Y. discriminate. }
  replace (no_invalid_attributes l) with (@nil problem).
  2:{ symmetry. apply flat_nil. intros a Ha. destruct (Q a Ha) as (x & v & _ & ->). cbn [a_id a_value a_rest]. destruct (parse_attr_id _ _ _) as [[?|?]|? ?]; reflexivity. }
  destruct r as [[] [] [] [] [] []]; reflexivity.
Qed.

(** ** What is reported *)
Lemma unknown_reported r parent element local v rest l : r_attributes r <> Off -> (exists k, In k elem_table /\ e_local k = element) ->
  (forall k, In k attr_table -> kind_prefix k = SVG -> kind_local k <> local) ->
  In (mkAttr (parse_attr_id (svg element) (PKnown SVG) local) v rest) l ->
  In (UnknownAttribute (ABase (BUnknown (mkName (PKnown SVG) local))) (svg element), r_attributes r) (report r parent (svg element) l).
Proof.
  intros Hr (k0 & Hk0 & L0) Hu Hl. rewrite recognised_local in Hl by exact Hu. apply report_in. split; [reflexivity|]. split; [exact Hr|].
  unfold found. rewrite !in_app_iff. right. left. destruct (svg_elem_known element) as [(k & E & Hk & L)|E]; change svg_elem with svg in E.
  - rewrite E in *. unfold no_unknown_attributes. apply in_flat_map. eexists. split; [exact Hl|]. cbn [a_id].
    replace (expected (EKnown k) _) with false; [left; reflexivity|]. unfold expected, id_groups. cbn [id_unaliased]. unfold intersects. rewrite N.land_0_r. reflexivity.
  - exfalso. unfold svg, elem_new in E. cbn [prefix_unaliased is_aliased] in E. destruct (find _ elem_table) eqn:F; [discriminate|].
    apply find_none with (x := k0) in F; [|exact Hk0]. rewrite L0, text_eqb_refl in F. discriminate.
Qed.
Local Transparent elem_table own_attributes.
Lemma closed_elements : forallb (fun r => existsb (String.eqb (fst r)) ("discard" :: holds_any)%string
    || forallb (fun k => if text_eqb (e_local k) (lit (fst r)) then negb (ElemModel.contains (e_permitted k) all_categories) else true) elem_table) own_attributes = true.
Proof. vm_compute. reflexivity. Qed.
Local Opaque elem_table own_attributes.
Lemma child_reported r parent child attrs : r_elements r <> Off -> (exists e own, In (e, own) own_attributes /\ lit e = parent) -> parent <> lit "discard" -> ~ In parent (map lit holds_any) ->
  (forall k, In k elem_table -> e_local k <> child) ->
  In (UnknownElement (svg parent) (svg child), r_elements r) (report r (Some (svg parent)) (svg child) attrs).
Proof.
  intros Hr Hin Hd Hh Hu. apply report_in. split; [reflexivity|]. split; [exact Hr|]. unfold found. rewrite !in_app_iff. left.
  destruct (svg_elem_known child) as [(k & _ & Hk & L)|E]; [exfalso; exact (Hu k Hk L)|]. change svg_elem with svg in E. rewrite E.
  destruct (svg_known parent Hin Hd) as (k & EP & Hk & L). rewrite EP. unfold no_unknown_elements. cbn [elem_prefix].
  replace (has_prefix (PKnown SVG) SVG) with true by reflexivity. cbn [negb].
  replace (is_permitted_child (EKnown k) (EUnknown (PKnown SVG) child)) with false; [left; reflexivity|].
  unfold is_permitted_child. cbn [permitted_categories permitted_elements elem_cats].
  replace (ElemModel.contains 0 all_categories) with false by reflexivity.
  replace (intersects (e_permitted k) 0) with false by (unfold intersects; rewrite N.land_0_r; reflexivity).
  assert (X : existsb (elem_is (EUnknown (PKnown SVG) child)) (e_children k) = false).
  { clear. induction (e_children k) as [|x l IH]; [reflexivity|]. cbn [existsb]. rewrite IH. reflexivity. }
  rewrite X, !orb_false_r. symmetry. destruct Hin as (e & own & Hin & He). pose proof closed_elements as C.
  apply (proj1 (forallb_forall _ _)) with (x := (e, own)) in C; [|exact Hin]. cbn [fst] in C. apply orb_true_iff in C as [C|C].
  - exfalso. apply existsb_exists in C as (x & Hx & Ex). apply String.eqb_eq in Ex. subst x. destruct Hx as [<-|Hx]; [apply Hd; symmetry; exact He|]. apply Hh. rewrite <- He. apply in_map. exact Hx.
  - apply (proj1 (forallb_forall _ _)) with (x := k) in C; [|exact Hk]. rewrite L, He, text_eqb_refl in C. apply negb_true_iff in C. exact C.
Qed.
Lemma invalid_reported r parent e k v rest l : r_invalid r <> Off -> In (mkAttr (ABase (BKnown k)) v rest) l -> (rest = true \/ exists t, v = Unparsed t) ->
  In (InvalidAttribute (ABase (BKnown k)), r_invalid r) (report r parent e l).
Proof.
  intros Hr Hl Hv. apply report_in. split; [reflexivity|]. split; [exact Hr|]. unfold found. rewrite !in_app_iff. do 5 right. apply in_flat_map. eexists. split; [exact Hl|]. cbn [a_id a_value a_rest].
  destruct v as [t|t]; [|left; reflexivity]. destruct Hv as [-> |[? Hv]]; [left; reflexivity|discriminate].
Qed.
Local Transparent elem_table.
Lemma dropped_known : forallb (fun s => existsb (String.eqb s) still_there || intersects (elem_info (svg (lit s))) legacy) dropped = true.
Proof. vm_compute. reflexivity. Qed.
Local Opaque elem_table.
Lemma dropped_reported r parent s attrs : r_deprecated r <> Off -> In s dropped -> ~ In s still_there ->
  In (DeprecatedElement (svg (lit s)), r_deprecated r) (report r parent (svg (lit s)) attrs).
Proof.
  intros Hr Hs Hn. apply report_in. split; [reflexivity|]. split; [exact Hr|]. unfold found. rewrite !in_app_iff. do 2 right. left. unfold no_deprecated. apply in_app_iff. left.
  pose proof dropped_known as C. apply (proj1 (forallb_forall _ _)) with (x := s) in C; [|exact Hs]. apply orb_true_iff in C as [C| ->]; [|left; reflexivity].
  exfalso. apply existsb_exists in C as (x & Hx & Ex). apply String.eqb_eq in Ex. subst x. exact (Hn Hx).
Qed.

Lemma declarations_fine r parent e local v rest a e' s :
  ~ In (UnknownAttribute a e', s) (report r parent e [mkAttr (parse_attr_id e (prefix_new (lit "http://www.w3.org/2000/xmlns/") (Some (lit "xmlns"))) local) v rest]).
Proof.
  intros H. apply report_in in H as (_ & _ & H). replace (prefix_new _ _) with (PKnown XMLNS) in H by reflexivity.
  unfold found in H. rewrite !in_app_iff in H. destruct H as [H|[H|[H|[H|[H|H]]]]].
  - apply (of_elements (mkRules Err Off Off Off Off Off)) in H. discriminate H.
  - unfold no_unknown_attributes in H. destruct e as [k|p k|p n]; [| |exact H]; cbn [flat_map a_id app] in H;
      (match type of H with context [expected ?e ?i] => replace (expected e i) with true in H; [exact H|]; symmetry; unfold expected; apply orb_true_iff; right; destruct (parsed_base e (PKnown XMLNS) local) as [(k' & _ & M & ->)| ->] end; [|reflexivity];
       unfold matches in M; apply andb_true_iff in M as [M _]; unfold recognised; cbn [is_aliased id_prefix base_prefix]; revert M; destruct (kind_prefix k'); intros M; first [reflexivity|discriminate M]).
  - apply (of_deprecated (mkRules Off Off Err Off Off Off)) in H. discriminate H.
  - apply (of_default (mkRules Off Off Off Err Off Off)) in H. discriminate H.
  - apply (of_xlink (mkRules Off Off Off Off Err Off)) in H. discriminate H.
  - apply (of_invalid (mkRules Off Off Off Off Off Err)) in H. discriminate H.
Qed.
Lemma show_said r parent rest : r_xlink r <> Off -> let show := parse_attr_id (svg (lit "a")) (prefix_new (lit "http://www.w3.org/1999/xlink") (Some (lit "xlink"))) (lit "show") in
  In (NoXLink ShowNew, r_xlink r) (report r parent (svg (lit "a")) [mkAttr show (Typed (lit "new")) rest]) /\
  In (NoXLink ShowReplace, r_xlink r) (report r parent (svg (lit "a")) [mkAttr show (Typed (lit "replace")) rest]).
Proof.
  intros Hr show. assert (E : is_kind show "XLinkShow" = true) by (vm_compute; reflexivity). clearbody show.
  split; (apply report_in; split; [reflexivity|]; split; [exact Hr|]; unfold found; rewrite !in_app_iff; do 4 right; left; unfold no_xlink, xlink_problem_of; cbn [flat_map a_id a_value]; rewrite E; left; reflexivity).
Qed.
