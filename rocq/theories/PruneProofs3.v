From Coq Require Import String List NArith Bool Lia.
From Verif Require Import Chars NameModel AttrTable ElemModel ElemSpec ElemProofs TextModel TextSpec TextProofs ParseModel ListModel ListSpec ListProofs ScriptModel ScriptSpec ScriptProofs ScriptProofs2 PruneModel PruneSpec PruneProofs PruneProofs2.
Import ListNotations.

Local Opaque attr_table elem_table kind_groups elem_groups svg_space.

Lemma id_value_word v : word v -> id_value v = Some v.
Proof. intros [H1 H2]. unfold id_value. destruct (proj2 (non_whitespace_reads v H1 H2)) as (q & ->). reflexivity. Qed.
Lemma class_value_spaced ws : Forall (fun w => word w /\ unquoted w) ws -> class_value (spaced ws) = Some ws.
Proof.
  intros F. unfold class_value. destruct (class_round_trip ws) as (q & E).
  - revert F. apply Forall_impl. intros t [[H1 H2] [H3 H4]]. auto.
  - change (spaced ws) with (print_list (fun t => t) Space ws). rewrite E. reflexivity.
Qed.
Lemma spaced_join ws : spaced ws = join_space ws.
Proof.
  destruct ws as [|w ws]; [reflexivity|]. cbn [spaced]. revert w. induction ws as [|x ws IH]; intros w; [cbn; apply app_nil_r|].
  cbn [flat_map]. change (join_space (w :: x :: ws)) with (w ++ 32%N :: join_space (x :: ws)). rewrite <- IH. reflexivity.
Qed.
Lemma spaced_words ws : Forall (fun w => word w /\ unquoted w) ws -> words_of (spaced ws) ws.
Proof.
  intros F. rewrite spaced_join. apply join_words. revert F. apply Forall_impl. intros t [[H1 H2] _]. split; [exact H1|]. revert H2. apply Forall_impl.
  intros c H. unfold white. congruence.
Qed.
Lemma spaced_words_of ws l : Forall (fun w => word w /\ unquoted w) ws -> words_of (spaced ws) l -> l = ws.
Proof. intros F H. apply words_of_split in H. pose proof (words_of_split _ _ (spaced_words ws F)). congruence. Qed.

Lemma find_eq {A} (f g : A -> bool) l : (forall x, In x l -> f x = g x) -> find f l = find g l.
Proof. induction l as [|x l IH]; intros H; [reflexivity|]. cbn. rewrite (H x) by (left; reflexivity). rewrite IH; [reflexivity|]. intros; apply H; right; assumption. Qed.
Lemma class_list_known n attrs : all_bound attrs -> (forall a v, In (a, v) attrs -> space a = svg_space -> s_prefix a = None) ->
  class_list (map (fun a => (attr_id_of n (fst a), snd a)) attrs) =
  match get_known (lit "Class") (map (fun a => (attr_id_of n (fst a), snd a)) attrs) with
  | Some v => match class_value v with Some l => l | None => [] end | None => [] end.
Proof.
  intros B Pl. unfold class_list, get_known. rewrite (find_eq _ (fun a => match id_unaliased (fst a) with BKnown k => text_eqb (kind_id k) (lit "Class") | BUnknown _ => false end)).
  - destruct (find _ _); reflexivity.
  - intros x Hx. apply in_map_iff in Hx. destruct Hx as ([a v] & <- & Hin). cbn [fst].
    destruct (attr_id_of n a) as [[k|q]|p [k|q]] eqn:E; try reflexivity. cbn [id_unaliased]. destruct (text_eqb (kind_id k) (lit "Class")) eqn:K; [|reflexivity]. exfalso.
    pose proof (takes_test n a _ _ _ (B _ _ Hin) names_class) as T. rewrite E in T. cbn [id_unaliased] in T. apply T in K. clear T.
    destruct K as (S & _). pose proof (Pl _ _ Hin S) as P. unfold attr_id_of in E.
    destruct (parse_cases (elem_of n) (prefix_new (s_uri a) (s_prefix a)) (s_local a)) as [(k' & E' & M & _)|E']; rewrite E' in E; [|discriminate].
    unfold recognised in E. destruct (is_aliased _) eqn:A; [|discriminate]. rewrite P in A.
    symmetry in S. apply (ns_of_space a (B _ _ Hin)) in S. rewrite P in S. destruct (prefix_new_ns _ _ _ S) as [U|(U & _)].
    + rewrite <- U in A. vm_compute in A. discriminate.
    + rewrite U in A. vm_compute in A. discriminate.
Qed.
Lemma core_id : N.testbit (kind_groups (mkKind (lit "Id") SVG (lit "id"))) 8 = true. Proof. vm_compute. reflexivity. Qed.
Lemma core_class : N.testbit (kind_groups (mkKind (lit "Class") SVG (lit "class"))) 8 = true. Proof. vm_compute. reflexivity. Qed.
Lemma plain_space a : s_uri a = [] -> s_prefix a = None -> space a = svg_space.
Proof. intros U P. unfold space. rewrite U, P. reflexivity. Qed.
Lemma attr_test_iff ids classes n df attrs : bound n -> all_bound attrs -> df = [] \/ df = svg_space -> unique attrs ->
  (forall a v, In (a, v) attrs -> (s_local a = lit "id" -> word v) /\ (s_local a = lit "class" -> exists ws, v = spaced ws /\ Forall (fun w => word w /\ unquoted w) ws) /\ (space a = svg_space -> s_uri a = [] /\ s_prefix a = None)) ->
  attr_test ids classes (elem_of n) (read_attrs n df attrs) = true <-> picked ids classes n attrs.
Proof.
  intros B BA D U Ti. rewrite read_attrs_eq by assumption. unfold attr_test, picked. rewrite class_list_known; [|exact BA|intros a v Hin S; apply (Ti a v Hin), S].
  pose proof (known_first n attrs _ SVG "id" BA U names_id (fun a => takes_core n a _ _ _ kind_id_ core_id)) as Fi.
  pose proof (known_first n attrs _ SVG "class" BA U names_class (fun a => takes_core n a _ _ _ kind_class core_class)) as Fc.
  change (known_uri SVG) with svg_space in Fi, Fc. rewrite orb_true_iff.
  assert (A1 : match get_known (lit "Id") (map (fun a : sname * text => (attr_id_of n (fst a), snd a)) attrs) with Some v => match id_value v with Some i => existsb (text_eqb i) ids | None => false end | None => false end = true
    <-> exists i, In i ids /\ has_id attrs i).
  { split.
    - destruct (get_known (lit "Id") _) as [v|]; [|discriminate]. destruct (proj1 (Fi v) eq_refl) as (a & Hin & S & L). destruct (Ti a v Hin) as (T1 & _ & T3). rewrite (id_value_word v (T1 L)).
      intros H. apply existsb_exists in H. destruct H as (i & Hi & E). apply text_eqb_spec in E. subst i. exists v. split; [exact Hi|]. exists a. destruct (T3 S). repeat split; assumption.
    - intros (i & Hi & a & (P1 & P2 & P3) & Hin). rewrite (proj2 (Fi i)) by (exists a; split; [exact Hin|]; split; [apply plain_space; assumption|exact P3]).
      destruct (Ti a i Hin) as (T1 & _). rewrite (id_value_word i (T1 P3)). apply existsb_exists. exists i. split; [exact Hi|apply text_eqb_refl]. }
  assert (A2 : existsb (fun c => existsb (text_eqb c) classes) match get_known (lit "Class") (map (fun a : sname * text => (attr_id_of n (fst a), snd a)) attrs) with Some v => match class_value v with Some l => l | None => [] end | None => [] end = true
    <-> exists c, In c classes /\ has_class attrs c).
  { split.
    - destruct (get_known (lit "Class") _) as [v|]; [|discriminate]. destruct (proj1 (Fc v) eq_refl) as (a & Hin & S & L). destruct (Ti a v Hin) as (_ & T2 & T3). destruct (T2 L) as (ws & -> & Fw).
      rewrite (class_value_spaced ws Fw). intros H. apply existsb_exists in H. destruct H as (c & Hc & E). apply existsb_exists in E. destruct E as (c' & Hc' & E). apply text_eqb_spec in E. subst c'.
      exists c. split; [exact Hc'|]. exists a, (spaced ws), ws. destruct (T3 S). split; [repeat split; assumption|]. split; [exact Hin|]. split; [apply spaced_words, Fw|exact Hc].
    - intros (c & Hc & a & v & l & (P1 & P2 & P3) & Hin & Hw & Hl). rewrite (proj2 (Fc v)) by (exists a; split; [exact Hin|]; split; [apply plain_space; assumption|exact P3]).
      destruct (Ti a v Hin) as (_ & T2 & _). destruct (T2 P3) as (ws & -> & Fw). apply (spaced_words_of ws l Fw) in Hw. subst l. rewrite (class_value_spaced ws Fw).
      apply existsb_exists. exists c. split; [exact Hl|]. apply existsb_exists. exists c. split; [exact Hc|apply text_eqb_refl]. }
  rewrite A1, A2. reflexivity.
Qed.
Lemma tidy_kid n df attrs kids k : tidy (SEl n df attrs kids) -> In k kids -> tidy k.
Proof. intros T Hk m df' b a v W. apply (T m df' b). econstructor; eassumption. Qed.
Lemma by_attr_cut ids classes l : Forall (fun d => fine d /\ tidy d) l -> exists l', cut (picked ids classes) l l' /\ remove_elements_by_attr ids classes (map read l) = map read l'.
Proof.
  intros H. apply (prune_cut (attr_test ids classes) (picked ids classes) (fun d => fine d /\ tidy d)); [| |exact H].
  - intros n df attrs kids k [F T] Hk. split; [eapply fine_kid; eassumption|eapply tidy_kid; eassumption].
  - intros n df attrs kids [(W & Us & U) T]. assert (X : within (SEl n df attrs kids) n df attrs) by constructor. destruct (W _ _ _ X) as [B BA].
    apply attr_test_iff; [exact B|exact BA|exact (Us _ _ _ X)|exact (U _ _ _ X)|]. intros a v Hin. exact (T _ _ _ _ _ X Hin).
Qed.
(** Nothing to do. *)
Lemma prune_false test l : (forall e attrs, test e attrs = false) -> prune test l = l.
Proof.
  intros H. assert (One : forall n, prune_node test n = [n]).
  { fix one 1. intros [e attrs kids|]; [|reflexivity]. cbn [prune_node]. rewrite H. f_equal. f_equal. induction kids as [|k kids IH]; [reflexivity|]. cbn. rewrite (one k), IH. reflexivity. }
  unfold prune. induction l as [|n l IH]; [reflexivity|]. cbn. rewrite One, IH. reflexivity.
Qed.
Lemma existsb_false {A} (l : list A) : existsb (fun _ => false) l = false.
Proof. induction l; auto. Qed.
Lemma nothing_to_do l : remove_raster_images false l = l /\ remove_style_element false l = l /\ remove_elements_by_attr [] [] l = l.
Proof.
  split; [reflexivity|]. split; [reflexivity|]. apply prune_false. intros e attrs. unfold attr_test. cbn [existsb].
  rewrite existsb_false, orb_false_r. destruct (get_known _ _) as [v|]; [|reflexivity]. destruct (id_value v); reflexivity.
Qed.
