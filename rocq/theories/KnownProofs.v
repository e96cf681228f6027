From Coq Require Import String List NArith Bool Lia.
From Verif Require Import Chars NameModel AttrTable ElemTable ElemModel ElemSpec KnownTable KnownModel KnownSpec.
Import ListNotations.
Local Open Scope list_scope.

Lemma find_filter {A} (f g : A -> bool) l : find f (filter g l) = find (fun x => if f x then g x else false) l.
Proof.
  induction l as [|a l IH]; [reflexivity|]. cbn [filter find]. destruct (g a) eqn:G; cbn [find]; destruct (f a) eqn:F; rewrite ?G; auto.
Qed.
(** The same with less work. *)
Definition own_kinds (k : ekind) : list kind := flat_map (fun i => match kind_of i with Some k => [k] | None => [] end) (e_attrs k).
Definition quick_parse (own : list kind) (groups : N) (local : text) : attr_id :=
  match find (matches (PKnown SVG) local) own with
  | Some k => recognised (PKnown SVG) k
  | None =>
      match find (fun x => if matches (PKnown SVG) local x then intersects groups (kind_groups x) else false) attr_table with
      | Some k => recognised (PKnown SVG) k
      | None => ABase (BUnknown (mkName (PKnown SVG) local))
      end
  end.
Lemma quick_parse_eq k local : parse_attr_id (EKnown k) (PKnown SVG) local = quick_parse (own_kinds k) (elem_groups (EKnown k)) local.
Proof. unfold parse_attr_id, quick_parse, group_parse_attr_id, group_attributes. rewrite find_filter. reflexivity. Qed.

(** ** Attributes *)
Definition seen_as (k : ekind) (a : attr_id) : bool :=
  let name := ABase (id_unaliased a) in
  negb (starts_with (lit "aria-") (id_local name)) && negb (is_kind name "Role") && is_permitted_attribute (EKnown k) name.
Definition initial_texts : list (text * list text * list text) := Eval vm_compute in map (fun r => match r with (x, els, vs) => (lit x, map lit els, map lit vs) end) initial_rows.
Lemma initial_texts_eq : initial_texts = map (fun r => match r with (x, els, vs) => (lit x, map lit els, map lit vs) end) initial_rows.
Proof. vm_compute. reflexivity. Qed.
Definition initialb (e a v : text) : bool :=
  existsb (fun r => match r with (x, els, vs) =>
    if text_eqb x a then (match els with [] => true | _ => existsb (fun y => text_eqb y e) els end) && existsb (fun y => text_eqb y v) vs else false end) initial_texts.
Lemma initialb_ok e a v : initialb e a v = true -> initial e a v.
Proof.
  unfold initialb, initial. rewrite initial_texts_eq, existsb_exists. intros [r [Hin H]]. apply in_map_iff in Hin as [[[x els] vs] [<- Hin]]. cbv beta iota in H.
  destruct (text_eqb (lit x) a) eqn:Hx; [|discriminate]. apply andb_true_iff in H as [He Hv].
  apply existsb_exists in Hv as [y [Hy Hyv]]. apply in_map_iff in Hy as [y' [<- Hy]]. apply text_eqb_spec in Hx, Hyv.
  destruct els as [|y0 els].
  - exists x, [], vs, EmptyString, y'. repeat split; auto.
  - apply (existsb_exists (fun y => text_eqb y e)) in He as [z [Hz Hze]]. change (lit y0 :: map lit els) with (map lit (y0 :: els)) in Hz. apply in_map_iff in Hz as [z' [<- Hz]].
    apply text_eqb_spec in Hze. exists x, (y0 :: els), vs, z', y'. repeat split; auto.
Qed.
Definition check_attribute (k : ekind) (own : list kind) (groups : N) (s : string) : bool :=
  let a := quick_parse own groups (lit s) in
  existsb (String.eqb s) missing_attributes
  || (seen_as k a
      && (existsb (fun x => text_eqb (lit (fst x)) (e_local k) && String.eqb (snd x) s) (("", "")%string :: no_default) || String.eqb s "transform-origin"
          || match id_default (ABase (id_unaliased a)) with Some (Typed d) => initialb (e_local k) (lit s) d | Some (Unparsed _) => false | None => true end)).
Definition check_element (all : list ekind) (r : string * list string) : bool :=
  let e := lit (fst r) in
  forallb (fun k => if text_eqb (e_local k) e then
                      let own := own_kinds k in let groups := elem_groups (EKnown k) in forallb (check_attribute k own groups) (common_attributes ++ snd r)
                    else true) all.
Definition check_all : bool := let all := elem_table in forallb (check_element all) own_attributes.
Lemma check_all_true : check_all = true.
Proof. vm_cast_no_check (eq_refl true). Qed.

Local Opaque elem_table own_attributes attr_table common_attributes initial_texts default_table.
Lemma checked k local : In k elem_table -> svg2_attribute (e_local k) local ->
  exists s, local = lit s /\ check_attribute k (own_kinds k) (elem_groups (EKnown k)) s = true.
Proof.
  intros Hk (e & own & a & Hin & He & Ha & Hl). pose proof check_all_true as C. unfold check_all in C. cbv zeta in C.
  apply (proj1 (forallb_forall _ _)) with (x := (e, own)) in C; [|exact Hin]. unfold check_element in C. cbn [fst snd] in C. cbv zeta in C.
  apply (proj1 (forallb_forall _ _)) with (x := k) in C; [|exact Hk]. rewrite He, text_eqb_refl in C.
  apply (proj1 (forallb_forall _ _)) with (x := a) in C; [|exact Ha]. exists a. auto.
Qed.
Lemma lit_inj s t : lit s = lit t -> s = t.
Proof.
  revert t. induction s as [|c s IH]; intros [|d t] H; try discriminate; [reflexivity|]. cbn in H. injection H as H1 H2. f_equal; [|apply IH; exact H2].
  rewrite <- (Ascii.ascii_N_embedding c), <- (Ascii.ascii_N_embedding d), H1. reflexivity.
Qed.

Lemma permitted k local : In k elem_table -> svg2_attribute (e_local k) local -> known_kept local ->
  seen_as k (parse_attr_id (EKnown k) (PKnown SVG) local) = true.
Proof.
  intros Hk Ha Hn. destruct (checked k local Hk Ha) as (s & -> & C). rewrite quick_parse_eq. unfold check_attribute in C. cbv zeta in C.
  apply orb_true_iff in C as [C|C].
  - exfalso. apply Hn. apply existsb_exists in C as [x [Hx E]]. apply String.eqb_eq in E as ->. apply in_map, Hx.
  - apply andb_true_iff in C as [C _]. exact C.
Qed.
(** The options with unknown attributes left. *)
Definition leave_unknown (o : options) : options :=
  mkOptions (unknown_content o) false (default_attrs o) (useless_overrides o) (keep_data o) (keep_aria o) (keep_role o).
Lemma attributes_known o f k has_id inherited local v : In k elem_table -> svg2_attribute (e_local k) local -> known_kept local ->
  attribute_kept o f (EKnown k) has_id inherited (parse_attr_id (EKnown k) (PKnown SVG) local) v =
  attribute_kept (leave_unknown o) f (EKnown k) has_id inherited (parse_attr_id (EKnown k) (PKnown SVG) local) v.
Proof.
  intros Hk Ha Hn. pose proof (permitted k local Hk Ha Hn) as P. unfold seen_as in P. cbv zeta in P.
  apply andb_true_iff in P as [P P3]. apply andb_true_iff in P as [P1 P2].
  unfold attribute_kept. destruct f; [reflexivity|]. destruct (prefix_value _); [reflexivity|].
  unfold keep, leave_unknown. cbv zeta. cbn [unknown_attrs default_attrs useless_overrides keep_data keep_aria keep_role].
  rewrite P3. rewrite andb_false_r. reflexivity.
Qed.

(** ** Defaults *)
Lemma avalue_eqb_eq a b : avalue_eqb a b = true -> a = b.
Proof. destruct a, b; cbn; try discriminate; intros H; apply text_eqb_spec in H as ->; reflexivity. Qed.
Lemma defaults_initial o f k has_id inherited local v : In k elem_table -> svg2_attribute (e_local k) local -> known_kept local -> has_default (e_local k) local ->
  (forall a, inherited a = None) ->
  attribute_kept o f (EKnown k) has_id inherited (parse_attr_id (EKnown k) (PKnown SVG) local) v = false ->
  exists t, v = Typed t /\ initial (e_local k) local t.
Proof.
  intros Hk Ha Hn [Hd Ht] Hi. pose proof (permitted k local Hk Ha Hn) as P. unfold seen_as in P. cbv zeta in P.
  apply andb_true_iff in P as [P P3]. apply andb_true_iff in P as [P1 P2]. apply negb_true_iff in P1, P2.
  destruct (checked k local Hk Ha) as (s & -> & C). rewrite quick_parse_eq in *. unfold check_attribute in C. cbv zeta in C.
  set (a := quick_parse (own_kinds k) (elem_groups (EKnown k)) (lit s)) in *.
  unfold attribute_kept. destruct f; [discriminate|]. destruct (prefix_value (elem_prefix (EKnown k))); [discriminate|].
  unfold keep. cbv zeta. rewrite P1, P2, P3, andb_false_r.
  destruct (ignored_prefix (id_prefix a)); [discriminate|]. destruct (keep_data o && _); [discriminate|].
  rewrite Hi.
  set (iv := match prefix_value (id_prefix (ABase (id_unaliased a))) with Some _ => None | None => if inheritable_type (ABase (id_unaliased a)) then None else None end).
  assert (IV : iv = @None (avalue * mode)).
  { unfold iv. generalize (prefix_value (id_prefix (ABase (id_unaliased a)))), (inheritable_type (ABase (id_unaliased a))). intros [x|] [|]; reflexivity. }
  rewrite IV. clear iv IV.
  rewrite andb_false_r. destruct (id_default (ABase (id_unaliased a))) as [d|] eqn:D; [|rewrite andb_false_r; discriminate].
  destruct (avalue_eqb d v) eqn:V; [|rewrite andb_false_r; discriminate]. intros _. apply avalue_eqb_eq in V. subst d.
  apply orb_true_iff in C as [C|C].
  { exfalso. apply Hn. apply existsb_exists in C as [x [Hx E]]. apply String.eqb_eq in E as ->. apply in_map, Hx. }
  apply andb_true_iff in C as [_ C]. apply orb_true_iff in C as [C|C]; [apply orb_true_iff in C as [C|C]|].
  - exfalso. apply existsb_exists in C as [[x y] [Hx E]]. cbn [fst snd] in E. apply andb_true_iff in E as [E1 E2]. apply text_eqb_spec in E1. apply String.eqb_eq in E2 as ->.
    destruct Hx as [E|Hx].
    + injection E as <- <-. assert (X : forall k, In k elem_table -> e_local k <> []) by
        (intros k' Hk'; assert (B : forallb (fun k => negb (text_eqb (e_local k) [])) elem_table = true) by (vm_compute; reflexivity);
         apply (proj1 (forallb_forall _ _)) with (x := k') in B; [|exact Hk']; apply negb_true_iff in B; intros Z; rewrite Z in B; discriminate).
      apply (X k Hk). symmetry. exact E1.
    + apply Hd. rewrite <- E1. apply (in_map (fun x => (lit (fst x), lit (snd x)))) in Hx. exact Hx.
  - exfalso. apply String.eqb_eq in C as ->. apply Ht. reflexivity.
  - destruct v as [t|t]; [|discriminate]. exists t. split; [reflexivity|]. apply initialb_ok, C.
Qed.

(** ** By name *)
Definition svg_elem (n : text) : elem_id := elem_new (PKnown SVG) n.
Lemma svg_elem_known n : (exists k, svg_elem n = EKnown k /\ In k elem_table /\ e_local k = n) \/ (svg_elem n = EUnknown (PKnown SVG) n).
Proof.
  unfold svg_elem, elem_new. cbn [prefix_unaliased is_aliased]. destruct (find _ elem_table) as [k|] eqn:F; [left|right; reflexivity].
  apply find_some in F as [F1 F2]. apply text_eqb_spec in F2. eauto.
Qed.
Local Transparent elem_table own_attributes attr_table common_attributes initial_texts default_table.
Definition element_known (n : string) : bool := String.eqb n "discard" || match svg_elem (lit n) with EKnown _ => true | _ => false end.
Lemma elements_known : forallb (fun r => element_known (fst r)) own_attributes = true.
Proof. vm_cast_no_check (eq_refl true). Qed.
Definition a_text (p c : string) : bool := String.eqb p "a" && (String.eqb c "tspan" || String.eqb c "textPath").
Definition child_known (p c : string) : bool :=
  String.eqb c "discard" || a_text p c || match svg_elem (lit c) with EKnown _ => is_permitted_child (svg_elem (lit p)) (svg_elem (lit c)) | _ => false end.
Lemma children_known : forallb (fun r => forallb (child_known (fst r)) (snd r)) svg2_children = true.
Proof. vm_cast_no_check (eq_refl true). Qed.
Local Opaque elem_table own_attributes attr_table common_attributes initial_texts default_table svg2_children.

Lemma attributes_named o f has_id inherited element local v : svg2_attribute element local -> element <> lit "discard" -> known_kept local ->
  attribute_kept o f (svg_elem element) has_id inherited (parse_attr_id (svg_elem element) (PKnown SVG) local) v =
  attribute_kept (leave_unknown o) f (svg_elem element) has_id inherited (parse_attr_id (svg_elem element) (PKnown SVG) local) v.
Proof.
  intros Ha Hd Hn. destruct (svg_elem_known element) as [(k & -> & Hk & <-)|E]; [apply attributes_known; assumption|]. exfalso.
  destruct Ha as (e & own & a & Hin & He & _). pose proof elements_known as K. apply (proj1 (forallb_forall _ _)) with (x := (e, own)) in K; [|exact Hin].
  unfold element_known in K. cbn [fst] in K. rewrite He, E, orb_false_r in K. apply String.eqb_eq in K. subst e. apply Hd. symmetry. exact He.
Qed.
Lemma defaults_named o f has_id inherited element local v : svg2_attribute element local -> element <> lit "discard" -> known_kept local -> has_default element local ->
  (forall a, inherited a = None) ->
  attribute_kept o f (svg_elem element) has_id inherited (parse_attr_id (svg_elem element) (PKnown SVG) local) v = false ->
  exists t, v = Typed t /\ initial element local t.
Proof.
  intros Ha Hd Hn. destruct (svg_elem_known element) as [(k & -> & Hk & <-)|E]; [apply defaults_initial; assumption|]. exfalso.
  destruct Ha as (e & own & a & Hin & He & _). pose proof elements_known as K. apply (proj1 (forallb_forall _ _)) with (x := (e, own)) in K; [|exact Hin].
  unfold element_known in K. cbn [fst] in K. rewrite He, E, orb_false_r in K. apply String.eqb_eq in K. subst e. apply Hd. symmetry. exact He.
Qed.
Lemma children_named o f parent child : svg2_child parent child -> child <> lit "discard" ->
  ~ (parent = lit "a" /\ (child = lit "tspan" \/ child = lit "textPath")) ->
  element_kept o f (svg_elem child) (Within (svg_elem parent)) = true.
Proof.
  intros (p & kids & c & Hin & <- & Hc & <-) Hd Ha. pose proof children_known as K. apply (proj1 (forallb_forall _ _)) with (x := (p, kids)) in K; [|exact Hin].
  cbn [fst snd] in K. apply (proj1 (forallb_forall _ _)) with (x := c) in K; [|exact Hc]. unfold child_known in K.
  apply orb_true_iff in K as [K|K]; [apply orb_true_iff in K as [K|K]|].
  - exfalso. apply String.eqb_eq in K. subst c. apply Hd. reflexivity.
  - exfalso. unfold a_text in K. apply andb_true_iff in K as [K1 K2]. apply String.eqb_eq in K1. subst p. apply orb_true_iff in K2.
    apply Ha. split; [reflexivity|]. destruct K2 as [K2|K2]; apply String.eqb_eq in K2; subst c; auto.
  - unfold element_kept. destruct f; [reflexivity|]. destruct (svg_elem (lit c)) as [k| |]; try discriminate. cbn [elem_prefix prefix_value known_name].
    unfold keep_element. destruct (unknown_content o); [exact K|reflexivity].
Qed.
(** The outermost element stays. *)
Lemma root_kept o f : element_kept o f (svg_elem (lit "svg")) InDocument = true.
Proof. unfold element_kept. destruct f; [reflexivity|]. assert (E : match svg_elem (lit "svg") with EKnown _ => true | _ => false end = true) by (vm_compute; reflexivity).
  destruct (svg_elem (lit "svg")); try discriminate. cbn [elem_prefix prefix_value known_name]. unfold keep_element. destruct (unknown_content o); reflexivity. Qed.

(** ** Unknown ones *)
Lemma recognised_local e local : (forall k, In k attr_table -> kind_prefix k = SVG -> kind_local k <> local) ->
  parse_attr_id e (PKnown SVG) local = ABase (BUnknown (mkName (PKnown SVG) local)).
Proof.
  intros H. assert (M : forall l, (forall k, In k l -> In k attr_table) -> find (matches (PKnown SVG) local) l = None).
  { intros l Hl. destruct (find _ l) as [k|] eqn:F; [exfalso|reflexivity]. apply find_some in F as [F1 F2]. unfold matches in F2. apply andb_true_iff in F2 as [P L].
    apply text_eqb_spec in L. apply (H k (Hl k F1)); [|exact L]. destruct (kind_prefix k); try discriminate P. reflexivity. }
  unfold parse_attr_id. rewrite M.
  - unfold group_parse_attr_id. rewrite M; [reflexivity|]. intros k Hk. apply filter_In in Hk as [Hk _]. exact Hk.
  - intros k Hk. apply in_flat_map in Hk as [i [_ Hk]]. destruct (kind_of i) eqn:K; [|destruct Hk]. destruct Hk as [<-|[]]. unfold kind_of in K. apply find_some in K as [K _]. exact K.
Qed.
Lemma unknown_dropped o has_id inherited element local v : unknown_attrs o = true -> (forall k, In k attr_table -> kind_prefix k = SVG -> kind_local k <> local) ->
  (forall rest, local <> lit "data-" ++ rest) -> (forall rest, local <> lit "aria-" ++ rest) -> svg_elem element <> EUnknown (PKnown SVG) element ->
  attribute_kept o false (svg_elem element) has_id inherited (parse_attr_id (svg_elem element) (PKnown SVG) local) v = false.
Proof.
  intros Ho H Hda Har He. rewrite recognised_local by exact H. destruct (svg_elem_known element) as [(k & -> & Hk & <-)|E]; [|contradiction].
  unfold attribute_kept. cbn [elem_prefix prefix_value known_name]. unfold keep. cbv zeta. cbn [id_unaliased id_prefix base_prefix q_prefix id_local base_local q_local].
  replace (ignored_prefix (PKnown SVG)) with false by reflexivity.
  assert (S : forall p, (forall rest, local <> p ++ rest) -> starts_with p local = false).
  { intros p Hp. unfold starts_with. destruct (strip_prefix p local) as [r|] eqn:E; [|reflexivity]. exfalso. apply (Hp r). apply strip_prefix_spec in E. exact E. }
  rewrite (S _ Hda), andb_false_r, (S _ Har). unfold is_kind at 1. cbn [id_unaliased]. rewrite Ho. unfold is_kind. cbn [id_unaliased negb andb].
  replace (is_permitted_attribute (EKnown k) (ABase (BUnknown (mkName (PKnown SVG) local)))) with false; [reflexivity|].
  unfold is_permitted_attribute. cbn [id_unaliased]. unfold id_groups. cbn [id_unaliased]. unfold intersects. rewrite N.land_0_r, N.eqb_refl. cbn [negb]. rewrite !orb_false_r.
  symmetry. assert (B : forallb (fun k => negb (ElemModel.contains (elem_groups (EKnown k)) all_groups)) elem_table = true) by (vm_compute; reflexivity).
  apply (proj1 (forallb_forall _ _)) with (x := k) in B; [|exact Hk]. apply negb_true_iff in B. exact B.
Qed.

(** ** Attributes of other namespaces, the declaration of the default namespace, elements with an id, and the options *)
Lemma parsed_prefix e p local :
  id_prefix (parse_attr_id e p local) = p \/ (exists k, prefix_eqb (PKnown (kind_prefix k)) p = true /\ parse_attr_id e p local = ABase (BKnown k)).
Proof.
  assert (R : forall k, matches p local k = true -> id_prefix (recognised p k) = p \/ exists k0, prefix_eqb (PKnown (kind_prefix k0)) p = true /\ recognised p k = ABase (BKnown k0)).
  { intros k M. unfold recognised. destruct (is_aliased p); [left; reflexivity|right]. exists k. apply andb_true_iff in M as [M _]. auto. }
  unfold parse_attr_id. destruct (find _ _) as [k|] eqn:F; [apply find_some in F as [_ F]; apply R; exact F|].
  unfold group_parse_attr_id. destruct (find _ (group_attributes _)) as [k|] eqn:G; [apply find_some in G as [_ G]; apply R; exact G|]. left. reflexivity.
Qed.
Lemma known_uri_eq k u : text_eqb (known_uri k) u = true -> known_uri k = u.
Proof. apply text_eqb_spec. Qed.
Lemma namespaces_kept o f has_id inherited e uri name local v : uri <> [] -> uri <> known_uri SVG -> uri <> known_uri HTML -> uri <> known_uri MathML ->
  attribute_kept o f e has_id inherited (parse_attr_id e (prefix_new uri name) local) v = true.
Proof.
  intros H0 H1 H2 H3. unfold attribute_kept. destruct f; [reflexivity|]. destruct (prefix_value (elem_prefix e)); [reflexivity|].
  assert (K : ignored_prefix (id_prefix (parse_attr_id e (prefix_new uri name) local)) = true); [|unfold keep; cbv zeta; rewrite K; reflexivity].
  assert (G : forall k, known_uri k = uri -> ignored_prefix (PKnown k) = true) by (intros [] E; try reflexivity; exfalso; congruence).
  unfold prefix_new. destruct (find (fun k => text_eqb (known_uri k) uri && otext_eqb (known_name k) name) all_known) as [k|] eqn:F1.
  - apply find_some in F1 as [_ F1]. apply andb_true_iff in F1 as [F1 _]. apply text_eqb_spec in F1.
    destruct (parsed_prefix e (PKnown k) local) as [->|(q & M & ->)]; [apply G; exact F1|]. cbn [id_prefix base_prefix].
    unfold prefix_eqb in M. cbn [prefix_ns is_ns] in M. assert (kind_prefix q = k) as -> by (destruct (kind_prefix q), k; try discriminate M; reflexivity). apply G. exact F1.
  - destruct (find (fun k => text_eqb (known_uri k) uri) all_known) as [k|] eqn:F2.
    + apply find_some in F2 as [_ F2]. apply text_eqb_spec in F2. specialize (G k F2).
      destruct (parsed_prefix e (PAliased (PKnown k) name) local) as [->|(q & M & ->)].
      * revert G. unfold ignored_prefix. cbn [prefix_unaliased]. destruct k; intros; try discriminate; reflexivity.
      * cbn [id_prefix base_prefix]. unfold prefix_eqb in M. cbn [prefix_ns is_ns] in M. assert (kind_prefix q = k) as -> by (destruct (kind_prefix q), k; try discriminate M; reflexivity). exact G.
    + replace (match uri, name with | [], None => PKnown SVG | _, _ => PUnknown name (ns_new uri) end) with (PUnknown name (ns_new uri)) by (destruct uri; [contradiction|reflexivity]).
      unfold ns_new. rewrite F2.
      destruct (parsed_prefix e (PUnknown name (NSUnknown uri)) local) as [->|(q & M & _)]; [reflexivity|]. discriminate M.
Qed.
Lemma declaration_kept o f has_id inherited e k v : In k attr_table -> kind_id k = lit "XMLNS" ->
  attribute_kept o f e has_id inherited (ABase (BKnown k)) v = true.
Proof.
  intros Hk E. assert (C : forallb (fun k => if text_eqb (kind_id k) (lit "XMLNS") then
      negb (starts_with (lit "aria-") (kind_local k)) && match id_default (ABase (BKnown k)) with None => true | Some _ => false end && negb (ElemModel.contains (id_groups (ABase (BKnown k))) g_presentation) else true)
      attr_table = true) by (vm_compute; reflexivity).
  apply (proj1 (forallb_forall _ _)) with (x := k) in C; [|exact Hk]. rewrite E, text_eqb_refl in C.
  apply andb_true_iff in C as [C C3]. apply andb_true_iff in C as [C1 C2]. apply negb_true_iff in C1, C3.
  unfold attribute_kept. destruct f; [reflexivity|]. destruct (prefix_value (elem_prefix e)); [reflexivity|].
  unfold keep. cbv zeta. cbn [id_unaliased]. destruct (ignored_prefix _); [reflexivity|]. destruct (keep_data o && _); [reflexivity|].
  unfold id_local at 1. cbn [id_unaliased base_local]. rewrite C1.
  assert (R : is_kind (ABase (BKnown k)) "Role" = false) by (unfold is_kind; cbn [id_unaliased]; rewrite E; reflexivity).
  assert (X : is_kind (ABase (BKnown k)) "XMLNS" = true) by (unfold is_kind; cbn [id_unaliased]; rewrite E; apply text_eqb_refl).
  rewrite R, X. cbn [negb]. rewrite andb_false_r. cbn [andb]. destruct (id_default (ABase (BKnown k))); [discriminate|]. rewrite C3. rewrite !andb_false_r. cbn [andb]. reflexivity.
Qed.
Lemma id_kept o f inherited e a v :
  attribute_kept o f e true inherited a v =
  attribute_kept (mkOptions (unknown_content o) (unknown_attrs o) false false (keep_data o) (keep_aria o) (keep_role o)) f e true inherited a v.
Proof. unfold attribute_kept, keep. cbn. rewrite !andb_false_r. reflexivity. Qed.
Lemma data_kept o f has_id inherited e rest v : keep_data o = true -> attribute_kept o f e has_id inherited (parse_attr_id e (PKnown SVG) (lit "data-" ++ rest)) v = true.
Proof.
  intros H. unfold attribute_kept. destruct f; [reflexivity|]. destruct (prefix_value (elem_prefix e)); [reflexivity|]. unfold keep. cbv zeta. destruct (ignored_prefix _); [reflexivity|].
  assert (L : id_local (ABase (id_unaliased (parse_attr_id e (PKnown SVG) (lit "data-" ++ rest)))) = lit "data-" ++ rest); [|rewrite L, H].
  { unfold id_local. cbn [id_unaliased]. assert (R : forall k, matches (PKnown SVG) (lit "data-" ++ rest) k = true -> base_local (id_unaliased (recognised (PKnown SVG) k)) = lit "data-" ++ rest).
    { intros k M. apply andb_true_iff in M as [_ M]. apply text_eqb_spec in M. exact M. }
    unfold parse_attr_id. destruct (find _ _) as [k|] eqn:F; [apply find_some in F as [_ F]; apply R; exact F|].
    unfold group_parse_attr_id. destruct (find _ (group_attributes _)) as [k|] eqn:G; [apply find_some in G as [_ G]; apply R; exact G|]. reflexivity. }
  assert (S : starts_with (lit "data-") (lit "data-" ++ rest) = true); [|rewrite S; reflexivity].
  unfold starts_with. replace (strip_prefix _ _) with (Some rest) by (symmetry; apply strip_prefix_spec; reflexivity). reflexivity.
Qed.
Lemma aria_kept o f has_id inherited e rest v : attribute_kept o f e has_id inherited (parse_attr_id e (PKnown SVG) (lit "aria-" ++ rest)) v =
  if f then true else match prefix_value (elem_prefix e) with Some _ => true | None => keep_aria o end.
Proof.
  unfold attribute_kept. destruct f; [reflexivity|]. destruct (prefix_value (elem_prefix e)); [reflexivity|]. unfold keep. cbv zeta.
  assert (L : id_local (ABase (id_unaliased (parse_attr_id e (PKnown SVG) (lit "aria-" ++ rest)))) = lit "aria-" ++ rest /\ ignored_prefix (id_prefix (parse_attr_id e (PKnown SVG) (lit "aria-" ++ rest))) = false).
  { unfold id_local. cbn [id_unaliased]. assert (R : forall k, matches (PKnown SVG) (lit "aria-" ++ rest) k = true -> base_local (id_unaliased (recognised (PKnown SVG) k)) = lit "aria-" ++ rest /\ ignored_prefix (id_prefix (recognised (PKnown SVG) k)) = false).
    { intros k M. apply andb_true_iff in M as [P M]. apply text_eqb_spec in M. split; [exact M|]. cbn. unfold prefix_eqb in P. cbn [prefix_ns is_ns] in P. destruct (kind_prefix k); try discriminate P. reflexivity. }
    unfold parse_attr_id. destruct (find _ _) as [k|] eqn:F; [apply find_some in F as [_ F]; apply R; exact F|].
    unfold group_parse_attr_id. destruct (find _ (group_attributes _)) as [k|] eqn:G; [apply find_some in G as [_ G]; apply R; exact G|]. split; reflexivity. }
  destruct L as [L P]. rewrite L, P. replace (starts_with (lit "data-") (lit "aria-" ++ rest)) with false by reflexivity. rewrite andb_false_r.
  assert (S : starts_with (lit "aria-") (lit "aria-" ++ rest) = true); [|rewrite S; reflexivity].
  unfold starts_with. replace (strip_prefix _ _) with (Some rest) by (symmetry; apply strip_prefix_spec; reflexivity). reflexivity.
Qed.
