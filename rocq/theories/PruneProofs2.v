From Coq Require Import String List NArith Bool Lia.
From Verif Require Import Chars NameModel AttrTable ElemModel ElemSpec ElemProofs TextModel TextSpec TextProofs ParseModel ListModel ListProofs ScriptModel ScriptSpec ScriptProofs ScriptProofs2 PruneModel PruneSpec PruneProofs.
Import ListNotations.

Local Opaque attr_table elem_table kind_groups elem_groups svg_space.

Lemma table_kind id K l : existsb (fun k => text_eqb (kind_id k) id && known_eqb (kind_prefix k) K && text_eqb (kind_local k) l) attr_table = true -> In (mkKind id K l) attr_table.
Proof.
  intros T. apply existsb_exists in T. destruct T as ([i p q] & Hin & E). cbn [kind_id kind_prefix kind_local] in E. apply andb_true_iff in E. destruct E as [E E3]. apply andb_true_iff in E. destruct E as [E1 E2].
  apply text_eqb_spec in E1, E3. apply known_eqb_true in E2. subst. exact Hin.
Qed.
Lemma core_always e : N.testbit (elem_groups e) 8 = true.
Proof. Local Transparent elem_groups. unfold elem_groups. rewrite N.lor_spec. apply orb_true_r. Qed.
Local Opaque elem_groups.
(** Every element takes the attributes of the core group. *)
Lemma takes_core n a id K l : In (mkKind id K (lit l)) attr_table -> N.testbit (kind_groups (mkKind id K (lit l))) 8 = true ->
  space a = known_uri K -> s_local a = lit l -> takes n a (known_uri K) [l].
Proof.
  intros Hin G S L. split; [exact S|]. split; [rewrite L; left; reflexivity|]. exists (mkKind id K (lit l)). split; [exact Hin|]. split; [split; [reflexivity|cbn; congruence]|].
  right. exists 8%N. split; [apply core_always|exact G].
Qed.
Lemma known_first n attrs id K l : all_bound attrs -> unique attrs -> group_names (fun k => text_eqb (kind_id k) id) K [l] = true ->
  (forall a, space a = known_uri K -> s_local a = lit l -> takes n a (known_uri K) [l]) ->
  forall v, get_known id (map (fun a => (attr_id_of n (fst a), snd a)) attrs) = Some v <-> exists a, In (a, v) attrs /\ space a = known_uri K /\ s_local a = lit l.
Proof.
  intros B U G Ht v.
  assert (F : forall a w, In (a, w) attrs -> match id_unaliased (attr_id_of n a) with BKnown k => text_eqb (kind_id k) id | BUnknown _ => false end = true -> space a = known_uri K /\ s_local a = lit l).
  { intros a w Hin E. apply (takes_test n a _ _ _ (B _ _ Hin) G) in E. destruct E as (S & L & _). destruct L as [L|[]]. auto. }
  split.
  - intros H. apply get_known_some in H. destruct H as (i & Hin & E). apply in_map_iff in Hin. destruct Hin as ([a w] & E' & Hin). injection E' as <- <-.
    exists a. split; [exact Hin|]. eapply F; eassumption.
  - intros (a & Hin & S & L). pose proof (proj1 (takes_test n a _ _ _ (B _ _ Hin) G) (Ht a S L)) as T.
    destruct (get_known id _) as [w|] eqn:E.
    + apply get_known_some in E. destruct E as (i & Hin' & E). apply in_map_iff in Hin'. destruct Hin' as ([a' w'] & E' & Hin'). injection E' as <- <-. destruct (F _ _ Hin' E) as [S' L'].
      f_equal. clear - U Hin Hin' S L S' L'. unfold unique in U. induction attrs as [|x attrs IH]; [contradiction|]. cbn in U. inversion U as [|? ? Nin U']; subst.
      destruct Hin as [->|Hin], Hin' as [H'|Hin'].
      * injection H' as _ ->. reflexivity.
      * exfalso. apply Nin. cbn [fst]. rewrite S, L, <- S', <- L'. change (In ((fun b : sname * text => (space (fst b), s_local (fst b))) (a', w')) (map (fun b => (space (fst b), s_local (fst b))) attrs)). apply in_map, Hin'.
      * exfalso. subst x. apply Nin. cbn [fst]. rewrite S', L', <- S, <- L. change (In ((fun b : sname * text => (space (fst b), s_local (fst b))) (a, v)) (map (fun b => (space (fst b), s_local (fst b))) attrs)). apply in_map, Hin.
      * apply IH; assumption.
    + exfalso. assert (X : In (attr_id_of n a, v) (map (fun a : sname * text => (attr_id_of n (fst a), snd a)) attrs)) by (apply in_map_iff; exists (a, v); auto).
      pose proof (proj1 (get_known_none _ _) E _ _ X) as Y. cbv beta in T. congruence.
Qed.
Lemma names_image : same_names ["Image"%string] ["image"%string] = true. Proof. vm_compute. reflexivity. Qed.
Lemma names_style : same_names ["Style"%string] ["style"%string] = true. Proof. vm_compute. reflexivity. Qed.
Lemma names_id : group_names (fun k => text_eqb (kind_id k) (lit "Id")) SVG ["id"%string] = true. Proof. vm_compute. reflexivity. Qed.
Lemma names_class : group_names (fun k => text_eqb (kind_id k) (lit "Class")) SVG ["class"%string] = true. Proof. vm_compute. reflexivity. Qed.
Lemma kind_href : In (mkKind (lit "XLinkHref") XLink (lit "href")) attr_table. Proof. apply table_kind. vm_compute. reflexivity. Qed.
Lemma kind_id_ : In (mkKind (lit "Id") SVG (lit "id")) attr_table. Proof. apply table_kind. vm_compute. reflexivity. Qed.
Lemma kind_class : In (mkKind (lit "Class") SVG (lit "class")) attr_table. Proof. apply table_kind. vm_compute. reflexivity. Qed.
Lemma image_takes n : bound n -> svg_named n ["image"%string] -> forall a, space a = xlink_space -> s_local a = lit "href" -> takes n a xlink_space ["href"%string].
Proof.
  intros Bn N a S L. split; [exact S|]. split; [rewrite L; left; reflexivity|]. eexists. split; [exact kind_href|]. split; [split; [reflexivity|cbn [kind_local]; congruence]|].
  right. exists 16%N. split; [|vm_compute; reflexivity].
  apply (elem_of_is n _ _ Bn names_image) in N. cbn [existsb] in N. rewrite orb_false_r in N.
  assert (T : forallb (fun k => if text_eqb (e_id k) (lit "Image") then N.testbit (e_groups k) 16 else true) elem_table = true) by (vm_compute; reflexivity).
  unfold elem_of, elem_new in *. destruct (match prefix_unaliased _ with PKnown SVG => _ | _ => _ end) as [k|] eqn:F; [|discriminate].
  assert (Hin : In k elem_table). { destruct (prefix_unaliased _) as [[]| |]; try discriminate. apply find_some in F. tauto. }
  pose proof (proj1 (forallb_forall _ _) T _ Hin) as E. cbv beta in E. Local Transparent elem_groups.
  destruct (is_aliased _); cbn [elem_is] in N; rewrite N in E; unfold elem_groups; rewrite !N.lor_spec, E; reflexivity.
Qed.
Local Opaque elem_groups.
Lemma raster_test_iff n df attrs : bound n -> all_bound attrs -> df = [] \/ df = svg_space -> unique attrs -> raster_test (elem_of n) (read_attrs n df attrs) = true <-> raster n attrs.
Proof.
  intros B BA D U. rewrite read_attrs_eq by assumption. unfold raster_test, raster. rewrite <- (elem_of_is n _ _ B names_image). cbn [existsb]. rewrite orb_false_r.
  destruct (elem_is (elem_of n) (lit "Image")) eqn:E; [|split; [discriminate|intros [X _]; discriminate]].
  assert (N : svg_named n ["image"%string]) by (apply (elem_of_is n _ _ B names_image); cbn [existsb]; rewrite E; reflexivity).
  pose proof (known_first n attrs _ XLink "href" BA U names_xlink (image_takes n B N)) as F. split.
  - destruct (get_known _ _) as [v|]; [|discriminate]. intros H. apply raster_marked in H. split; [reflexivity|]. destruct (proj1 (F v) eq_refl) as (a & H1 & H2 & H3). exists a, v. auto.
  - intros (_ & a & v & H1 & H2 & H3 & H4). rewrite (proj2 (F v)) by (exists a; auto). apply raster_marked, H4.
Qed.
Lemma raster_cut l : Forall fine l -> exists l', cut raster l l' /\ remove_raster_images true (map read l) = map read l'.
Proof.
  intros H. apply (prune_cut raster_test raster fine); [intros; eapply fine_kid; eassumption| |exact H].
  intros n df attrs kids (W & Us & U). assert (X : within (SEl n df attrs kids) n df attrs) by constructor. destruct (W _ _ _ X) as [B BA]. apply raster_test_iff; [exact B|exact BA|exact (Us _ _ _ X)|exact (U _ _ _ X)].
Qed.
Lemma style_cut l : Forall fine l -> exists l', cut style_sheet l l' /\ remove_style_element true (map read l) = map read l'.
Proof.
  intros H. apply (prune_cut style_test style_sheet fine); [intros; eapply fine_kid; eassumption| |exact H].
  intros n df attrs kids (W & _). assert (X : within (SEl n df attrs kids) n df attrs) by constructor. destruct (W _ _ _ X) as [B _].
  unfold style_test, style_sheet. rewrite <- (elem_of_is n _ _ B names_style). cbn [existsb]. rewrite orb_false_r. reflexivity.
Qed.
