From Coq Require Import String List NArith Bool Lia Permutation.
From Verif Require Import Chars NameModel AttrTable ElemModel TextModel ParseModel ListModel ScriptModel PruneModel PruneSpec PruneProofs3 BareSpec RootModel RootSpec RootProofs.
Import ListNotations.
Local Opaque attr_table elem_table.

(** ** Attributes *)
Lemma attributes_ok e pairs attrs : is_svg e -> Forall (fun a => read_for e (fst a)) attrs -> svg_default attrs -> Forall (fun p => no_colon (fst p) /\ fst p <> lit "xmlns") pairs -> NoDup (map fst pairs) ->
  exists new, add_attributes pairs true e attrs = Some (attrs ++ new) /\ map (fun a => (qualified (fst a), snd a)) new = filter (missing attrs) pairs.
Proof.
  intros S F D C ND. unfold add_attributes, is_svg in *. rewrite S. cbn [negb orb]. rewrite (add_ok e pairs attrs F D C ND). eexists. split; [reflexivity|]. unfold added. rewrite map_map. cbn [fst snd].
  rewrite <- (map_id (filter (missing attrs) pairs)) at 2. apply map_ext. intros [n v]. cbn [fst snd]. rewrite svg_id_qualified. reflexivity.
Qed.
Lemma elsewhere pairs names name shuffle root e attrs : root = false \/ elem_is e (lit "Svg") = false -> add_attributes pairs root e attrs = Some attrs /\ add_classes shuffle names name root e attrs = Some attrs.
Proof. intros H. unfold add_attributes, add_classes. destruct H as [-> | ->]; [split; reflexivity|]. rewrite orb_true_r. split; reflexivity. Qed.

(** ** Classes *)
Lemma distinct_in l c : In c (distinct l) <-> In c l.
Proof.
  induction l as [|t l IH]; [reflexivity|]. cbn [distinct]. destruct (existsb (text_eqb t) l) eqn:E.
  - rewrite IH. split; [right; assumption|]. intros [<- |H]; [|exact H]. apply existsb_exists in E. destruct E as (x & Hx & E). apply text_eqb_spec in E. subst x. exact Hx.
  - cbn [In]. rewrite IH. reflexivity.
Qed.
Lemma distinct_nodup l : NoDup (distinct l).
Proof.
  induction l as [|t l IH]; [constructor|]. cbn [distinct]. destruct (existsb (text_eqb t) l) eqn:E; [exact IH|]. constructor; [|exact IH]. rewrite distinct_in. intros H.
  assert (T : existsb (text_eqb t) l = true); [|rewrite T in E; discriminate]. apply existsb_exists. exists t. split; [exact H|]. apply text_eqb_spec. reflexivity.
Qed.
Lemma spaced_print ws : print_list (fun t => t) Space ws = spaced ws.
Proof. destruct ws; reflexivity. Qed.
Lemma class_ok shuffle names name e l1 k ws l2 : (forall l, Permutation (shuffle l) l) -> is_svg e -> Forall (fun a => read_for e (fst a) /\ qualified (fst a) <> lit "class") l1 -> kind_prefix k = SVG -> kind_local k = lit "class" ->
  Forall (fun w => word w /\ unquoted w) ws -> exists cs, add_classes shuffle (Some names) name true e (l1 ++ (ABase (BKnown k), spaced ws) :: l2) = Some (l1 ++ (ABase (BKnown k), spaced cs) :: l2) /\
  NoDup cs /\ forall c, In c cs <-> In c ws \/ In c names.
Proof.
  intros Sh S F P L W. exists (shuffle (distinct (ws ++ names))). split; [|split].
  - unfold add_classes, is_svg in *. rewrite S. cbn [negb orb]. induction F as [|[a v] l1 [R Q] F IH].
    + cbn [app class_loop]. cbn [id_prefix base_prefix id_local id_unaliased base_local]. rewrite P, L. change (prefix_eqb (PKnown SVG) (PKnown SVG) && text_eqb (lit "class") (lit "class")) with true. cbn iota.
      rewrite (class_value_spaced ws W). cbn [new_classes]. rewrite spaced_print. reflexivity.
    + cbn [app class_loop]. cbn [fst] in R, Q. destruct (prefix_eqb (id_prefix a) (PKnown SVG) && text_eqb (id_local a) (lit "class")) eqn:E.
      * exfalso. apply Q. apply andb_true_iff in E. destruct E as [E1 E2]. apply text_eqb_spec in E2. destruct (read_plain e a R) as [b ->]. destruct R as (p & n & Rn & U).
        unfold qualified. rewrite E2. assert (X : id_prefix (ABase b) = PKnown SVG); [|rewrite X; reflexivity].
        destruct (parse_attr_cases e p n) as [(k' & Ek & _)|Ek]; rewrite Ek in Rn.
        -- rewrite (usual_unaliased p k' U) in Rn. injection Rn as ->. cbn in E1 |- *. apply (usual_svg (PKnown (kind_prefix k')) Logic.I (or_introl E1)).
        -- injection Rn as ->. cbn in E1 |- *. apply (usual_svg p U (or_introl E1)).
      * rewrite IH. reflexivity.
  - apply (Permutation_NoDup (Permutation_sym (Sh _))), distinct_nodup.
  - intros c. rewrite <- in_app_iff, <- (distinct_in (ws ++ names) c). split; apply Permutation_in; [apply Sh|apply Permutation_sym, Sh].
Qed.

(** ** Declarations of the default namespace *)
Lemma xmlns_all e l1 a l2 : is_svg e -> known_as "XMLNS" (fst a) -> Forall (fun b => ~ known_as "XMLNS" (fst b)) (l1 ++ l2) -> remove_xmlns e (l1 ++ a :: l2) = l1 ++ l2.
Proof.
  intros S K F. unfold remove_xmlns. unfold is_svg in S. rewrite S. apply Forall_app in F. destruct F as [F _]. induction F as [|b l1 Hb F IH].
  - cbn [app remove_known]. destruct K as (k & E & I). rewrite E, I. assert (T : text_eqb (lit "XMLNS") (lit "XMLNS") = true) by reflexivity. rewrite T. reflexivity.
  - cbn [app remove_known]. destruct (match id_unaliased (fst b) with BKnown k => text_eqb (kind_id k) (lit "XMLNS") | BUnknown _ => false end) eqn:E; [|rewrite IH; reflexivity].
    exfalso. apply Hb. unfold known_as. destruct (id_unaliased (fst b)) as [k|q]; [|discriminate]. exists k. split; [reflexivity|apply text_eqb_spec, E].
Qed.
Lemma xmlns_none e attrs : elem_is e (lit "Svg") = false \/ Forall (fun b => ~ known_as "XMLNS" (fst b)) attrs -> remove_xmlns e attrs = attrs.
Proof.
  intros H. unfold remove_xmlns. destruct H as [-> |F]; [reflexivity|]. destruct (elem_is e (lit "Svg")); [|reflexivity]. induction F as [|b l Hb F IH]; [reflexivity|]. cbn [remove_known].
  destruct (match id_unaliased (fst b) with BKnown k => text_eqb (kind_id k) (lit "XMLNS") | BUnknown _ => false end) eqn:E; [|rewrite IH; reflexivity].
  exfalso. apply Hb. unfold known_as. destruct (id_unaliased (fst b)) as [k|q]; [|discriminate]. exists k. split; [reflexivity|apply text_eqb_spec, E].
Qed.

Local Transparent attr_table elem_table.
(** ** Examples *)
Definition svg_elem : elem_id := elem_new (PKnown SVG) (lit "svg").
Definition own (n v : string) : attr_id * text := (parse_attr_id svg_elem (PKnown SVG) (lit n), lit v).
Definition root_attrs : list (attr_id * text) := [(parse_attr_id svg_elem (PKnown SVG) (lit "xmlns"), known_uri SVG); own "width" "10"; own "class" "a b"].
Definition pairs : list (text * text) := [(lit "data-x", lit "1"); (lit "width", lit "20")].
Lemma attributes_sample : is_svg svg_elem /\ Forall (fun a => read_for svg_elem (fst a)) root_attrs /\ svg_default root_attrs /\ Forall (fun p => no_colon (fst p) /\ fst p <> lit "xmlns") pairs /\ NoDup (map fst pairs) /\
  add_attributes pairs true svg_elem root_attrs = Some (root_attrs ++ [own "data-x" "1"]).
Proof.
  refine (conj _ (conj _ (conj _ (conj _ (conj _ _))))).
  - vm_compute. reflexivity.
  - unfold root_attrs, own. repeat (apply Forall_cons; [eexists _, _; split; [reflexivity|exact Logic.I]|]). apply Forall_nil.
  - intros k v Hin K. destruct Hin as [E|[E|[E|[]]]].
    + apply (f_equal snd) in E. cbn [snd] in E. symmetry. exact E.
    + exfalso. apply (f_equal fst) in E. cbn [fst own] in E. apply (f_equal (fun a => match a with ABase (BKnown k) => text_eqb (kind_id k) (lit "XMLNS") | _ => false end)) in E. rewrite K in E. vm_compute in E. discriminate.
    + exfalso. apply (f_equal fst) in E. cbn [fst own] in E. apply (f_equal (fun a => match a with ABase (BKnown k) => text_eqb (kind_id k) (lit "XMLNS") | _ => false end)) in E. rewrite K in E. vm_compute in E. discriminate.
  - repeat (apply Forall_cons; [split; [intros C; vm_compute in C; repeat (destruct C as [C|C]; [discriminate|]); exact C|intros C; vm_compute in C; discriminate]|]). apply Forall_nil.
  - constructor; [intros [C|[]]; vm_compute in C; discriminate|]. constructor; [intros []|constructor].
  - vm_compute. reflexivity.
Qed.
Lemma colons_refuted : exists pairs e attrs, is_svg e /\ add_attributes pairs true e attrs = None.
Proof. exists [(lit "a:b:c", [])], svg_elem, []. split; vm_compute; reflexivity. Qed.
Lemma added_refuted : exists name value e attrs attrs', is_svg e /\ Forall (fun a => read_for e (fst a)) attrs /\ add_attributes [(name, value)] true e attrs = Some attrs' /\ Forall (fun a => qualified (fst a) <> name) attrs'.
Proof.
  exists (lit "x:id"), (lit "b"), svg_elem, [own "id" "a"], [own "id" "a"]. split; [vm_compute; reflexivity|]. split; [unfold own; apply Forall_cons; [eexists _, _; split; [reflexivity|exact Logic.I]|apply Forall_nil]|].
  split; [vm_compute; reflexivity|]. apply Forall_cons; [|apply Forall_nil]. intros C. vm_compute in C. discriminate.
Qed.
Lemma class_in attrs c : (forall a v, In (a, v) attrs -> text_eqb (qualified a) (lit "class") = true -> match class_value v with Some l => existsb (text_eqb c) l = false | None => True end) -> ~ class_of attrs c.
Proof.
  intros H (a & v & l & Hin & Q & V & Hc). apply text_eqb_spec in Q. specialize (H a v Hin Q). rewrite V in H. assert (T : existsb (text_eqb c) l = true); [|congruence]. apply existsb_exists. exists c. split; [exact Hc|]. apply text_eqb_spec. reflexivity.
Qed.
Lemma no_class_refuted : exists names attrs c, In c names /\ forall shuffle, exists attrs', add_classes shuffle (Some names) None true svg_elem attrs = Some attrs' /\ ~ class_of attrs' c.
Proof.
  exists [lit "a"], [own "width" "10"], (lit "a"). split; [left; reflexivity|]. intros shuffle. exists [own "width" "10"]. split; [vm_compute; reflexivity|]. apply class_in. intros a v [E|[]] Q.
  apply (f_equal fst) in E. cbn [fst own] in E. rewrite <- E in Q. vm_compute in Q. discriminate.
Qed.
Lemma replaced_refuted : exists name attrs c, class_of attrs c /\ forall shuffle, exists attrs', add_classes shuffle None (Some name) true svg_elem attrs = Some attrs' /\ ~ class_of attrs' c.
Proof.
  exists (lit "b"), [own "class" "a"], (lit "a"). split.
  - eexists _, _, _. split; [left; reflexivity|]. split; [vm_compute; reflexivity|]. split; [vm_compute; reflexivity|left; reflexivity].
  - intros shuffle. exists [own "class" "b"]. split; [vm_compute; reflexivity|]. apply class_in. intros a v [E|[]] _. apply (f_equal snd) in E. cbn [snd own] in E. rewrite <- E. vm_compute. reflexivity.
Qed.
Lemma class_panic_refuted : exists names attrs, forall shuffle, add_classes shuffle (Some names) None true svg_elem attrs = None.
Proof. exists [lit "a"], [(parse_attr_id svg_elem (PAliased (PKnown SVG) (Some (lit "s"))) (lit "class"), lit "a")]. intros shuffle. vm_compute. reflexivity. Qed.
Lemma classes_sample : exists l1 k ws, root_attrs = l1 ++ (ABase (BKnown k), spaced ws) :: [] /\ Forall (fun a => read_for svg_elem (fst a) /\ qualified (fst a) <> lit "class") l1 /\ kind_prefix k = SVG /\ kind_local k = lit "class" /\
  Forall (fun w => word w /\ unquoted w) ws /\ add_classes (fun l => l) (Some [lit "c"; lit "a"]) None true svg_elem root_attrs = Some (l1 ++ [(ABase (BKnown k), lit "b c a")]).
Proof.
  exists [(parse_attr_id svg_elem (PKnown SVG) (lit "xmlns"), known_uri SVG); own "width" "10"], (mkKind (lit "Class") SVG (lit "class")), [lit "a"; lit "b"].
  refine (conj _ (conj _ (conj _ (conj _ (conj _ _))))); try (vm_compute; reflexivity).
  - unfold own. repeat (apply Forall_cons; [split; [eexists _, _; split; [reflexivity|exact Logic.I]|intros C; vm_compute in C; discriminate]|]). apply Forall_nil.
  - repeat constructor; discriminate.
Qed.
