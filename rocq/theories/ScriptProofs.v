From Coq Require Import String List NArith Bool Lia.
From Verif Require Import Chars NameModel AttrTable ElemModel ElemSpec ElemProofs TextModel TextSpec TextProofs ScriptModel ScriptSpec.
Import ListNotations.

Local Opaque attr_table elem_table kind_groups elem_groups svg_space.

Lemma svg_space_known k : known_uri k = svg_space <-> k = SVG.
Proof. split; [|intros ->; reflexivity]. change svg_space with (known_uri SVG). apply known_uri_inj. Qed.
Lemma svg_space_nil : svg_space <> [].
Proof. vm_compute. discriminate. Qed.

(** The namespace of a name that is bound. *)
Lemma ns_of_space n : bound n -> forall k, prefix_ns (prefix_new (s_uri n) (s_prefix n)) = NSKnown k <-> known_uri k = space n.
Proof.
  intros B k. unfold space, bound in *. destruct n as [u p l]. cbn in *. split.
  - intros H. apply prefix_new_ns in H. destruct H as [<-|(-> & -> & ->)]; [|reflexivity].
    destruct (known_uri k) eqn:E; [|reflexivity]. destruct k; vm_compute in E; discriminate.
  - intros H. destruct u as [|c u].
    + destruct p as [p|]; [exfalso; apply B; [discriminate|reflexivity]|]. apply svg_space_known in H. subst k. reflexivity.
    + unfold prefix_new. destruct (find (fun j => _ && _) all_known) as [j|] eqn:F.
      * cbn. apply find_some in F. destruct F as [_ F]. apply andb_true_iff in F. destruct F as [F _]. apply text_eqb_spec in F.
        f_equal. apply known_uri_inj. congruence.
      * rewrite <- H. rewrite find_uri. reflexivity.
Qed.
Lemma resolved_prefix default a : bound a -> default = [] \/ default = svg_space ->
  prefix_new (resolved default a) (s_prefix a) = prefix_new (s_uri a) (s_prefix a).
Proof.
  intros B D. unfold resolved, bound in *. destruct (s_uri a) as [|c u]; [|reflexivity].
  destruct (s_prefix a) as [p|]; [exfalso; apply B; [discriminate|reflexivity]|]. destruct D as [->| ->]; reflexivity.
Qed.

(** Elements by name. *)
Definition same_names (ids locals : list string) : bool :=
  forallb (fun k => Bool.eqb (existsb (fun i => text_eqb (e_id k) (lit i)) ids) (existsb (fun i => text_eqb (e_local k) (lit i)) locals)) elem_table &&
  forallb (fun l => existsb (fun k => text_eqb (e_local k) (lit l)) elem_table) locals.
Lemma existsb_texts t l : existsb (fun i => text_eqb t (lit i)) l = true <-> In t (map lit l).
Proof.
  rewrite existsb_exists, in_map_iff. split.
  - intros (i & Hi & E). apply text_eqb_spec in E. exists i. auto.
  - intros (i & E & Hi). exists i. split; [exact Hi|]. apply text_eqb_spec. auto.
Qed.
Lemma elem_of_is n ids locals : bound n -> same_names ids locals = true ->
  existsb (fun i => elem_is (elem_of n) (lit i)) ids = true <-> svg_named n locals.
Proof.
  intros B T. apply andb_true_iff in T. destruct T as [T1 T2]. unfold elem_of, elem_new, svg_named.
  pose proof (ns_of_space n B) as Hs. set (p := prefix_new (s_uri n) (s_prefix n)) in *.
  assert (Hp : prefix_unaliased p = PKnown SVG <-> space n = svg_space).
  { split.
    - intros E. symmetry. change svg_space with (known_uri SVG). apply Hs. destruct p as [k|o m|q o]; cbn in *; [congruence|discriminate|]. subst q. reflexivity.
    - intros E. symmetry in E. change svg_space with (known_uri SVG) in E. apply Hs in E.
      destruct (prefix_new_shape _ _ _ E) as [E'|E']; fold p in E'; rewrite E'; reflexivity. }
  assert (Hk : forall k, existsb (fun i => elem_is (if is_aliased p then EAliased p k else EKnown k) (lit i)) ids = existsb (fun i => text_eqb (e_id k) (lit i)) ids)
    by (intros k; destruct (is_aliased p); reflexivity).
  assert (Hu : existsb (fun i => elem_is (EUnknown p (s_local n)) (lit i)) ids = false) by (clear; induction ids; cbn; auto).
  destruct (prefix_unaliased p) as [k0| |] eqn:Ep.
  - destruct k0; try (rewrite Hu; split; [discriminate|]; intros [E _]; apply Hp in E; discriminate).
    destruct (find (fun k => text_eqb (e_local k) (s_local n)) elem_table) as [k|] eqn:F.
    + apply find_some in F. destruct F as [Hin F]. apply text_eqb_spec in F.
      rewrite Hk. pose proof (proj1 (forallb_forall _ _) T1 _ Hin) as E. apply eqb_prop in E. rewrite E, existsb_texts. replace (e_local k) with (s_local n) by congruence. split; [|tauto].
      intros H. split; [|exact H]. apply Hp. reflexivity.
    + rewrite Hu. split; [discriminate|]. intros [_ Hl]. apply in_map_iff in Hl. destruct Hl as (l & El & Hl).
      pose proof (proj1 (forallb_forall _ _) T2 _ Hl) as E. apply existsb_exists in E. destruct E as (k & Hin & E).
      pose proof (find_none _ _ F _ Hin) as E'. cbv beta in E'. rewrite <- El in E'; congruence.
  - rewrite Hu. split; [discriminate|]. intros [E _]. apply Hp in E. discriminate.
  - rewrite Hu. split; [discriminate|]. intros [E _]. apply Hp in E. discriminate.
Qed.
Lemma names_script : same_names ["Script"%string] ["script"%string] = true. Proof. vm_compute. reflexivity. Qed.
Lemma names_animations : same_names ["Animate"; "AnimateColor"; "AnimateMotion"; "AnimateTransform"; "Set"]%string animations = true. Proof. vm_compute. reflexivity. Qed.
Lemma names_links : same_names ["A"; "Image"; "FontFaceURI"; "FeImage"]%string ["a"; "image"; "font-face-uri"; "feImage"]%string = true. Proof. vm_compute. reflexivity. Qed.
Lemma names_a : same_names ["A"%string] ["a"%string] = true. Proof. vm_compute. reflexivity. Qed.

(** Attributes by name. *)
Definition attr_id_of (n a : sname) : attr_id := parse_attr_id (elem_of n) (prefix_new (s_uri a) (s_prefix a)) (s_local a).
Lemma takes_known n a K locals : bound a ->
  takes n a (known_uri K) locals <-> exists k, id_unaliased (attr_id_of n a) = BKnown k /\ In k attr_table /\ kind_prefix k = K /\ In (kind_local k) (map lit locals).
Proof.
  intros B. pose proof (ns_of_space a B) as Hs. unfold takes, attr_id_of. set (p := prefix_new (s_uri a) (s_prefix a)) in *. set (e := elem_of n).
  assert (Hr : forall k, id_unaliased (recognised p k) = BKnown k) by (intros k; unfold recognised; destruct (is_aliased p); reflexivity).
  split.
  - intros (E & Hl & k & Hin & [Hu Hk] & Hx). symmetry in E. apply Hs in E.
    destruct (parse_cases e p (s_local a)) as [(k' & P & M & Hin' & _)|P].
    + exists k'. rewrite P, Hr. apply matches_ns in M. destruct M as [M1 M2]. rewrite M2. repeat split; auto. congruence.
    + exfalso. destruct (proj2 (recognised_iff e p (s_local a))) as (k' & R); [|rewrite P in R; discriminate].
      exists k. apply known_uri_inj in Hu. rewrite Hu. auto.
  - intros (k & R & Hin & HK & Hl). destruct (parse_cases e p (s_local a)) as [(k' & P & M & Hin' & Hx)|P]; rewrite P in R; [|discriminate].
    rewrite Hr in R. injection R as ->. apply matches_ns in M. destruct M as [M1 M2]. rewrite HK in M1. apply Hs in M1. rewrite M2 in Hl.
    repeat split; auto. exists k. split; [exact Hin|]. split; [|exact Hx]. split; [congruence|exact M2].
Qed.
Definition group_names (test : kind -> bool) (K : known) (locals : list string) : bool :=
  forallb (fun k => Bool.eqb (test k) (known_eqb (kind_prefix k) K && existsb (fun i => text_eqb (kind_local k) (lit i)) locals)) attr_table.
Lemma takes_test n a test K locals : bound a -> group_names test K locals = true ->
  takes n a (known_uri K) locals <-> match id_unaliased (attr_id_of n a) with BKnown k => test k | BUnknown _ => false end = true.
Proof.
  intros B T. rewrite (takes_known n a K locals B). split.
  - intros (k & -> & Hin & HK & Hl). pose proof (proj1 (forallb_forall _ _) T _ Hin) as E. apply eqb_prop in E. rewrite E.
    apply andb_true_iff. split; [apply known_eqb_true; exact HK|apply existsb_texts; exact Hl].
  - destruct (parse_cases (elem_of n) (prefix_new (s_uri a) (s_prefix a)) (s_local a)) as [(k & P & M & Hin & Hx)|P]; unfold attr_id_of; rewrite P; [|discriminate].
    assert (Hr : id_unaliased (recognised (prefix_new (s_uri a) (s_prefix a)) k) = BKnown k) by (unfold recognised; destruct (is_aliased _); reflexivity).
    rewrite Hr. intros H. pose proof (proj1 (forallb_forall _ _) T _ Hin) as E. apply eqb_prop in E. rewrite H in E. symmetry in E.
    apply andb_true_iff in E. destruct E as [E1 E2]. apply known_eqb_true in E1. apply existsb_texts in E2. exists k. auto.
Qed.
Lemma names_events : group_names (fun k => intersects (kind_groups k) g_event) SVG events = true. Proof. vm_compute. reflexivity. Qed.
Lemma names_conditions : group_names (fun k => contains (kind_groups k) g_conditional) SVG conditions = true. Proof. vm_compute. reflexivity. Qed.
Lemma names_xlink : group_names (fun k => text_eqb (kind_id k) (lit "XLinkHref")) XLink ["href"%string] = true. Proof. vm_compute. reflexivity. Qed.
Lemma names_href : group_names (fun k => text_eqb (kind_id k) (lit "Href")) SVG ["href"%string] = true. Proof. vm_compute. reflexivity. Qed.
Lemma g_conditional_zero : contains 0 g_conditional = false. Proof. reflexivity. Qed.
Lemma takes_events n a : bound a -> takes n a svg_space events <-> is_event (attr_id_of n a) = true.
Proof.
  intros B. change svg_space with (known_uri SVG). rewrite (takes_test _ _ _ _ _ B names_events). unfold is_event, id_groups.
  destruct (id_unaliased _); [reflexivity|]. split; discriminate.
Qed.
Lemma takes_conditions n a : bound a -> takes n a svg_space conditions <-> contains (id_groups (attr_id_of n a)) g_conditional = true.
Proof.
  intros B. change svg_space with (known_uri SVG). rewrite (takes_test _ _ _ _ _ B names_conditions). unfold id_groups.
  destruct (id_unaliased _); [reflexivity|]. rewrite g_conditional_zero. reflexivity.
Qed.
Lemma takes_xlink n a : bound a -> takes n a xlink_space ["href"%string] <->
  match id_unaliased (attr_id_of n a) with BKnown k => text_eqb (kind_id k) (lit "XLinkHref") | BUnknown _ => false end = true.
Proof. intros B. change xlink_space with (known_uri XLink). apply (takes_test _ _ _ _ _ B names_xlink). Qed.
