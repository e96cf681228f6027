From Coq Require Import String List NArith Bool Lia Permutation.
From Verif Require Import Chars NameModel AttrTable ElemModel TextModel ParseModel ListModel ScriptModel PruneModel PruneSpec PruneProofs3 BareSpec RootModel RootSpec.
Import ListNotations.

(** ** Names of kinds *)
Fixpoint apart (l : list text) : bool := match l with [] => true | t :: l => negb (existsb (text_eqb t) l) && apart l end.
Lemma apart_ids : apart (map kind_id attr_table) = true.
Proof. vm_compute. reflexivity. Qed.
Lemma same_kind k1 k2 : In k1 attr_table -> In k2 attr_table -> kind_id k1 = kind_id k2 -> k1 = k2.
Proof.
  assert (H := apart_ids). revert H. generalize attr_table. induction l as [|k l IH]; intros H H1 H2 E; [destruct H1|]. cbn [map apart] in H. apply andb_true_iff in H. destruct H as [N H].
  apply negb_true_iff in N. assert (X : forall k', In k' l -> kind_id k' <> kind_id k).
  { intros k' Hk' C. assert (T : existsb (text_eqb (kind_id k)) (map kind_id l) = true); [|rewrite T in N; discriminate]. apply existsb_exists. exists (kind_id k'). split; [apply in_map, Hk'|]. apply text_eqb_spec. symmetry. exact C. }
  destruct H1 as [<- |H1], H2 as [<- |H2]; [reflexivity| | |apply IH; assumption].
  - exfalso. apply (X k2 H2). symmetry. exact E.
  - exfalso. apply (X k1 H1 E).
Qed.
Lemma kind_of_in i k : kind_of i = Some k -> In k attr_table.
Proof. intros H. apply find_some in H. apply H. Qed.
Local Opaque attr_table elem_table.
(** What the reading of a name gives. *)
Lemma parse_attr_cases e p n : (exists k, parse_attr_id e p n = recognised p k /\ In k attr_table /\ matches p n k = true) \/ parse_attr_id e p n = ABase (BUnknown (mkName p n)).
Proof.
  unfold parse_attr_id, group_parse_attr_id. destruct (find (matches p n) (flat_map _ _)) as [k|] eqn:E.
  - left. exists k. apply find_some in E. destruct E as [E1 E2]. split; [reflexivity|]. split; [|exact E2]. apply in_flat_map in E1. destruct E1 as (i & _ & Hi). destruct (kind_of i) as [k'|] eqn:K; [|destruct Hi].
    destruct Hi as [<- |[]]. apply (kind_of_in i), K.
  - destruct (find (matches p n) (group_attributes _)) as [k|] eqn:E2; [|right; reflexivity]. left. exists k. apply find_some in E2. destruct E2 as [E1 E2]. split; [reflexivity|]. split; [|exact E2].
    unfold group_attributes in E1. apply filter_In in E1. apply E1.
Qed.
Lemma known_eqb_eq a b : known_eqb a b = true <-> a = b.
Proof. destruct a, b; cbn; split; congruence. Qed.
Lemma usual_svg p : usual_prefix p -> prefix_eqb p (PKnown SVG) = true \/ prefix_eqb (PKnown SVG) p = true -> p = PKnown SVG.
Proof.
  intros U H. destruct p as [k|[n|] [m|m]|q a]; try contradiction; destruct H as [H|H]; unfold prefix_eqb in H; cbn in H; try discriminate; destruct k; try discriminate; reflexivity.
Qed.
Lemma usual_unaliased p k : usual_prefix p -> recognised p k = ABase (BKnown k).
Proof. destruct p as [q|[n|] [m|m]|q a]; try contradiction; reflexivity. Qed.
Lemma svg_prefix k : known_name k = None <-> k = SVG.
Proof. destruct k; cbn; split; congruence. Qed.
Lemma no_colon_split n : no_colon n -> split_char 58 n = [n].
Proof.
  unfold no_colon. induction n as [|c n IH]; intros H; [reflexivity|]. cbn [split_char]. destruct (N.eqb_spec c 58) as [-> |_]; [exfalso; apply H; left; reflexivity|]. rewrite IH; [reflexivity|].
  intros C. apply H. right. exact C.
Qed.
(** ** The attribute with a name *)
Lemma id_eqb_refl a : id_eqb a a = true.
Proof.
  unfold id_eqb. destruct (id_unaliased a) as [k|q]; [apply text_eqb_spec; reflexivity|]. unfold qual_name_eqb. apply andb_true_iff. split; [|apply text_eqb_spec; reflexivity].
Abort.
Lemma svg_eqb : prefix_eqb (PKnown SVG) (PKnown SVG) = true. Proof. reflexivity. Qed.
Section Names.
  Variable e : elem_id.
  Let svg_id (n : text) : attr_id := parse_attr_id e (PKnown SVG) n.
  Lemma svg_id_qualified n : qualified (svg_id n) = n.
  Proof.
    unfold svg_id. destruct (parse_attr_cases e (PKnown SVG) n) as [(k & -> & _ & M)| ->]; [|reflexivity]. unfold matches in M. apply andb_true_iff in M. destruct M as [M1 M2]. apply text_eqb_spec in M2.
    rewrite (usual_unaliased (PKnown SVG) k Logic.I). unfold qualified, id_prefix, id_local, id_unaliased, base_prefix, base_local, prefix_value. unfold prefix_eqb in M1. cbn in M1. destruct (kind_prefix k); try discriminate. exact M2.
  Qed.
  Lemma svg_id_read n : read_for e (svg_id n).
  Proof. exists (PKnown SVG), n. split; [reflexivity|exact Logic.I]. Qed.
  Lemma read_plain a : read_for e a -> exists b, a = ABase b.
  Proof.
    intros (p & n & -> & U). destruct (parse_attr_cases e p n) as [(k & -> & _)| ->]; [|eexists; reflexivity]. rewrite (usual_unaliased p k U). eexists. reflexivity.
  Qed.
  (** An attribute without a prefix is the one that its name is read to. *)
  Lemma unprefixed_is a n : read_for e a -> qualified a = n -> no_colon n -> a = svg_id n.
  Proof.
    intros (p & m & -> & U) Q C.
    assert (V : prefix_value (id_prefix (parse_attr_id e p m)) = None).
    { destruct (prefix_value (id_prefix (parse_attr_id e p m))) as [x|] eqn:E; [|reflexivity]. exfalso. apply C. rewrite <- Q. unfold qualified. rewrite E. apply in_or_app. right. left. reflexivity. }
    assert (L : id_local (parse_attr_id e p m) = n) by (unfold qualified in Q; rewrite V in Q; exact Q).
    destruct (parse_attr_cases e p m) as [(k & E & _ & M)|E]; rewrite E in V, L.
    - rewrite (usual_unaliased p k U) in V, L. cbn in V, L. apply svg_prefix in V. unfold matches in M. apply andb_true_iff in M. destruct M as [M1 M2]. apply text_eqb_spec in M2.
      rewrite V in M1. rewrite (usual_svg p U (or_intror M1)). unfold svg_id. change (kind_local k = n) in L. rewrite <- L, M2. reflexivity.
    - cbn in V, L. change (m = n) in L. subst m. destruct p as [q|[x|] [w|w]|q a]; try contradiction; try discriminate. cbn in V. apply svg_prefix in V. subst q. reflexivity.
  Qed.
  Lemma has_svg_id a n : read_for e a -> no_colon n -> (id_eqb a (svg_id n) = true <-> qualified a = n).
  Proof.
    intros R C. split.
    - destruct R as (p & m & -> & U). intros H. rewrite <- (svg_id_qualified n). unfold svg_id, id_eqb in *.
      destruct (parse_attr_cases e p m) as [(k & E & K & M)|E], (parse_attr_cases e (PKnown SVG) n) as [(k' & E' & K' & M')|E']; rewrite E, E' in H |- *;
        rewrite ?(usual_unaliased p k U), ?(usual_unaliased (PKnown SVG) k' Logic.I) in H |- *; cbn [id_unaliased] in H; try discriminate.
      + apply text_eqb_spec in H. rewrite (same_kind k k' K K' H). reflexivity.
      + unfold qual_name_eqb in H. cbn [q_prefix q_local] in H. apply andb_true_iff in H. destruct H as [H1 H2]. apply text_eqb_spec in H2. rewrite (usual_svg p U (or_introl H1)), H2. reflexivity.
    - intros Q. rewrite (unprefixed_is a n R Q C). unfold svg_id, id_eqb. destruct (parse_attr_cases e (PKnown SVG) n) as [(k & -> & _)| ->].
      + rewrite (usual_unaliased (PKnown SVG) k Logic.I). cbn. apply text_eqb_spec. reflexivity.
      + cbn. unfold qual_name_eqb. cbn. apply text_eqb_spec. reflexivity.
  Qed.
  Lemma same_place a n : read_for e a -> no_colon n -> prefix_eqb (id_prefix a) (id_prefix (svg_id n)) = true -> id_local a = id_local (svg_id n) -> qualified a = n.
  Proof.
    intros R C P L. assert (Pn : id_prefix (svg_id n) = PKnown SVG).
    { unfold svg_id. destruct (parse_attr_cases e (PKnown SVG) n) as [(k & -> & _ & M)| ->]; [|reflexivity]. rewrite (usual_unaliased (PKnown SVG) k Logic.I). cbn. unfold matches in M. apply andb_true_iff in M. destruct M as [M _].
      rewrite (usual_svg (PKnown (kind_prefix k)) Logic.I (or_introl M)). reflexivity. }
    rewrite Pn in P. assert (Pa : id_prefix a = PKnown SVG).
    { destruct R as (p & m & -> & U). destruct (parse_attr_cases e p m) as [(k & E & _ & M)|E]; rewrite E in P |- *.
      - rewrite (usual_unaliased p k U) in P |- *. cbn in P |- *. apply (usual_svg (PKnown (kind_prefix k)) Logic.I (or_introl P)).
      - cbn in P |- *. apply (usual_svg p U (or_introl P)). }
    rewrite <- (svg_id_qualified n). unfold qualified. rewrite Pa, Pn, L. reflexivity.
  Qed.
  Lemma has_iff attrs n : Forall (fun a => read_for e (fst a)) attrs -> no_colon n -> has_attribute attrs (svg_id n) = negb (missing attrs (n, [])).
  Proof.
    intros F C. unfold has_attribute, missing. cbn [fst]. rewrite negb_involutive. apply eq_true_iff_eq. rewrite !existsb_exists. rewrite Forall_forall in F. split; intros (a & Ha & E); exists a; (split; [exact Ha|]).
    - apply text_eqb_spec. apply (has_svg_id (fst a) n (F a Ha) C), E.
    - apply text_eqb_spec in E. apply (has_svg_id (fst a) n (F a Ha) C), E.
  Qed.
  Lemma set_appends attrs n v : Forall (fun a => read_for e (fst a)) attrs -> no_colon n -> missing attrs (n, []) = true -> set_attribute attrs (svg_id n, v) = attrs ++ [(svg_id n, v)].
  Proof.
    unfold missing. cbn [fst]. induction attrs as [|a attrs IH]; intros F C M; [reflexivity|]. cbn [existsb] in M. apply negb_true_iff, orb_false_iff in M. destruct M as [M1 M2].
    apply Forall_cons_iff in F. destruct F as [F1 F2]. cbn [set_attribute app fst]. destruct (prefix_eqb (id_prefix (fst a)) (id_prefix (svg_id n)) && text_eqb (id_local (fst a)) (id_local (svg_id n))) eqn:E.
    - exfalso. apply andb_true_iff in E. destruct E as [E1 E2]. apply text_eqb_spec in E2. assert (Q := same_place _ n F1 C E1 E2). rewrite Q in M1.
      assert (T : text_eqb n n = true) by (apply text_eqb_spec; reflexivity). rewrite T in M1. discriminate.
    - f_equal. apply IH; [exact F2|exact C|apply negb_true_iff, M2].
  Qed.
  Lemma root_id attrs n : svg_default attrs -> no_colon n -> root_attr_id e attrs n = Some (svg_id n).
  Proof.
    intros D C. unfold root_attr_id. rewrite (no_colon_split n C). unfold svg_id. do 2 f_equal. assert (E : find_xmlns attrs None = known_uri SVG); [|rewrite E; vm_compute; reflexivity].
    unfold find_xmlns. destruct (find _ attrs) as [[a v]|] eqn:F; [|reflexivity]. apply find_some in F. destruct F as [F1 F2]. cbn [fst] in F2. destruct a as [[k|[p local]]|]; try discriminate.
    - apply (D k v F1). apply text_eqb_spec, F2.
    - destruct p as [[]| |]; discriminate.
  Qed.
  Definition added (attrs : list (attr_id * text)) (pairs : list (text * text)) : list (attr_id * text) := map (fun p => (svg_id (fst p), snd p)) (filter (missing attrs) pairs).
  Lemma missing_app attrs b pair : missing (attrs ++ [b]) pair = missing attrs pair && negb (text_eqb (qualified (fst b)) (fst pair)).
  Proof. unfold missing. rewrite existsb_app. cbn [existsb]. rewrite orb_false_r, negb_orb. reflexivity. Qed.
  Lemma add_ok pairs : forall attrs, Forall (fun a => read_for e (fst a)) attrs -> svg_default attrs -> Forall (fun p => no_colon (fst p) /\ fst p <> lit "xmlns") pairs -> NoDup (map fst pairs) ->
    add_loop e pairs attrs = Some (attrs ++ added attrs pairs).
  Proof.
    induction pairs as [|[n v] pairs IH]; intros attrs F D C ND; [unfold added; cbn; rewrite app_nil_r; reflexivity|]. apply Forall_cons_iff in C. destruct C as [[C X] Cs]. cbn [fst] in C, X.
    cbn [map fst] in ND. inversion ND as [|? ? N1 N2]; subst. cbn [add_loop]. rewrite (root_id attrs n D C), (has_iff attrs n F C).
    unfold added. cbn [filter]. assert (E : missing attrs (n, v) = missing attrs (n, [])) by reflexivity. rewrite E. destruct (missing attrs (n, [])) eqn:M; cbn [negb].
    - rewrite (set_appends attrs n v F C M). rewrite IH; [| | |exact Cs|exact N2].
      + rewrite <- app_assoc. cbn [app map fst snd]. unfold added. do 4 f_equal. apply filter_ext_in. intros [m w] Hm. rewrite missing_app. cbn [fst]. rewrite svg_id_qualified.
        destruct (text_eqb n m) eqn:T; [|apply andb_true_r]. exfalso. apply text_eqb_spec in T. subst m. apply N1. apply (in_map fst) in Hm. exact Hm.
      + apply Forall_app. split; [exact F|]. constructor; [apply svg_id_read|constructor].
      + intros k w Hin K. apply in_app_or in Hin. destruct Hin as [Hin|[Hin|[]]]; [apply (D k w Hin K)|]. exfalso. apply (f_equal fst) in Hin. cbn [fst] in Hin. apply X.
        rewrite <- (svg_id_qualified n), Hin. destruct (parse_attr_cases e (PKnown SVG) n) as [(k' & E' & K' & M')|E']; unfold svg_id in Hin; rewrite E' in Hin; [|discriminate].
        rewrite (usual_unaliased (PKnown SVG) k' Logic.I) in Hin. injection Hin as ->.
        assert (K2 : In (mkKind (lit "XMLNS") SVG (lit "xmlns")) attr_table). { clear. Local Transparent attr_table. assert (T : existsb (fun k => text_eqb (kind_id k) (lit "XMLNS") && known_eqb (kind_prefix k) SVG && text_eqb (kind_local k) (lit "xmlns")) attr_table = true) by (vm_compute; reflexivity).
          Local Opaque attr_table. apply existsb_exists in T. destruct T as ([i p l] & Hk & T). cbn in T. apply andb_true_iff in T. destruct T as [T T3]. apply andb_true_iff in T. destruct T as [T1 T2].
          apply text_eqb_spec in T1. apply text_eqb_spec in T3. apply known_eqb_eq in T2. subst. exact Hk. }
        rewrite (same_kind k (mkKind (lit "XMLNS") SVG (lit "xmlns")) K' K2 K). reflexivity.
    - apply IH; assumption.
  Qed.
End Names.
