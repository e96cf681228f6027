(** Proofs about moving common attributes of children to their group. *)
From Coq Require Import String List NArith ZArith Bool Arith Lia.
From Verif Require Import Chars GroupModel GroupSpec GroupProofs.
Import ListNotations.

(** ** The common attributes *)
Lemma NoDup_map_filter (f : gattr -> bool) l : each_once l -> each_once (filter f l).
Proof.
  unfold each_once. induction l as [|a l IH]; intros N; [exact N|]. cbn [map] in N. inversion N; subst. cbn [filter].
  destruct (f a); [|auto]. cbn [map]. constructor; [|auto]. intros H. apply in_map_iff in H. destruct H as (b & E & H).
  apply filter_In in H. apply H1. rewrite <- E. apply in_map. apply H.
Qed.
Lemma elem_attrs_in kids c : In c (flat_map elem_attrs kids) <-> exists cn ks, In (GE cn c ks) kids.
Proof.
  rewrite in_flat_map. split.
  - intros ([cn c' ks|t] & H & E); cbn in E; [|destruct E]. destruct E as [->|[]]. eauto.
  - intros (cn & ks & H). exists (GE cn c ks). split; [exact H|left; reflexivity].
Qed.
Lemma common_spec kids a : In a (common_attributes kids) ->
  movable a = true /\ (exists cn c ks, In (GE cn c ks) kids /\ In a c) /\
  forall cn c ks, In (GE cn c ks) kids -> get_attr (name_of a) c = Some a.
Proof.
  unfold common_attributes. destruct (flat_map elem_attrs kids) as [|first rest] eqn:E; [intros []|].
  intros H. apply filter_In in H. destruct H as [H1 H2]. apply filter_In in H1. destruct H1 as [H0 H1].
  split; [exact H1|]. split.
  - destruct (proj1 (elem_attrs_in kids first)) as (cn & ks & Hk); [rewrite E; left; reflexivity|]. exists cn, first, ks. auto.
  - intros cn c ks Hk. rewrite forallb_forall in H2. specialize (H2 c). rewrite <- E in H2. specialize (H2 (proj2 (elem_attrs_in kids c) (ex_intro _ cn (ex_intro _ ks Hk)))).
    destruct (get_attr (name_of a) c) as [b|]; [|discriminate]. destruct (gattr_dec b a); [subst; reflexivity|discriminate].
Qed.
Lemma common_once kids : (forall cn c ks, In (GE cn c ks) kids -> each_once c) -> each_once (common_attributes kids).
Proof.
  intros H. unfold common_attributes. destruct (flat_map elem_attrs kids) as [|first rest] eqn:E; [constructor|].
  destruct (proj1 (elem_attrs_in kids first)) as (cn & ks & Hk); [rewrite E; left; reflexivity|].
  apply NoDup_map_filter, NoDup_map_filter. eauto.
Qed.

(** ** Attributes after the move *)
Definition strip (common c : list gattr) : list gattr := fold_left (fun l a => remove_attr (name_of a) l) common c.
Lemma strip_once common : forall c, each_once c -> each_once (strip common c).
Proof. induction common as [|a common IH]; intros c H; [exact H|]. cbn [strip fold_left]. apply IH, remove_once, H. Qed.
Lemma get_strip n common : forall c, each_once c ->
  get_attr n (strip common c) = if in_dec aname_dec n (map name_of common) then None else get_attr n c.
Proof.
  induction common as [|a common IH]; intros c H; [reflexivity|]. unfold strip. cbn [fold_left]. fold (strip common (remove_attr (name_of a) c)).
  rewrite IH by (apply remove_once; exact H). cbn [map].
  destruct (in_dec aname_dec n (map name_of common)) as [Hi|Hi]; destruct (in_dec aname_dec n (name_of a :: map name_of common)) as [Hj|Hj]; try reflexivity.
  - destruct Hj. right. exact Hi.
  - destruct Hj as [<-|Hj]; [|contradiction]. rewrite get_remove, name_eqb_refl by exact H. reflexivity.
  - rewrite get_remove, name_eqb_neq; auto. intros D. apply Hj. left. exact D.
Qed.
Definition merged (attrs : list gattr) (a : gattr) : gattr :=
  match a with
  | ATransform l => match get_attr NTransform attrs with Some (ATransform g) => ATransform (g ++ l) | _ => a end
  | _ => a
  end.
Lemma merged_name attrs a : name_of (merged attrs a) = name_of a.
Proof. destruct a; try reflexivity. cbn [merged]. destruct (get_attr NTransform attrs) as [[]|]; reflexivity. Qed.
Lemma put_merged attrs a : put_on_group attrs a = set_attr (merged attrs a) attrs.
Proof. destruct a; try reflexivity. cbn [put_on_group merged]. destruct (get_attr NTransform attrs) as [[]|]; reflexivity. Qed.
Lemma merged_same a b attrs : get_attr (name_of a) b = get_attr (name_of a) attrs -> merged b a = merged attrs a.
Proof. destruct a; try reflexivity. cbn [merged name_of]. intros ->. reflexivity. Qed.
Lemma get_put_other n common : forall attrs, ~ In n (map name_of common) -> get_attr n (fold_left put_on_group common attrs) = get_attr n attrs.
Proof.
  induction common as [|a common IH]; intros attrs H; [reflexivity|]. cbn [fold_left map In] in *. rewrite IH by auto.
  rewrite put_merged, get_set, merged_name, name_eqb_neq by auto. reflexivity.
Qed.
Lemma get_put_in a common : forall attrs, each_once common -> In a common ->
  get_attr (name_of a) (fold_left put_on_group common attrs) = Some (merged attrs a).
Proof.
  unfold each_once. induction common as [|b common IH]; intros attrs N Ha; [destruct Ha|]. cbn [map] in N. inversion N; subst. cbn [fold_left].
  destruct Ha as [->|Ha].
  - rewrite get_put_other by assumption. rewrite put_merged, get_set, merged_name, name_eqb_refl. reflexivity.
  - rewrite IH by assumption. f_equal. apply merged_same. rewrite put_merged, get_set, merged_name, name_eqb_neq; [reflexivity|].
    intros E. apply H1. rewrite E. apply in_map. exact Ha.
Qed.

(** ** What holds of all elements still does *)
Section Keep.
Variable P : ename -> list gattr -> Prop.
Hypothesis Hremove : forall name n attrs, P name attrs -> P name (remove_attr n attrs).
Hypothesis Hput : forall cn c a attrs, P EG attrs -> P cn c -> In a c -> movable a = true -> P EG (put_on_group attrs a).
Lemma keep_put kids common : Forall (every P) kids -> (forall a, In a common -> In a (common_attributes kids)) ->
  forall attrs, P EG attrs -> P EG (fold_left put_on_group common attrs).
Proof.
  intros HK. induction common as [|a common IH]; intros Hc attrs H; [exact H|]. cbn [fold_left]. apply IH; [intros b Hb; apply Hc; right; exact Hb|].
  destruct (common_spec kids a (Hc a (or_introl eq_refl))) as (M & (cn & c & ks & Hk & Ha) & _).
  rewrite Forall_forall in HK. specialize (HK _ Hk). apply every_kids in HK. apply (Hput cn c); tauto.
Qed.
Lemma keep_strip name common c : P name c -> P name (strip common c).
Proof. revert c. induction common as [|a common IH]; intros c H; [exact H|]. cbn [strip fold_left]. apply IH, Hremove, H. Qed.
Lemma keep_hoist name attrs kids : every P (GE name attrs kids) -> every P (hoist name attrs kids).
Proof.
  intros H. unfold hoist. destruct (negb (is_g name)) eqn:G; [exact H|]. destruct (filter is_elem kids) as [|x [|y r]]; try exact H.
  cbv zeta. set (common := if _ || _ then _ else _). destruct name; try discriminate G. apply every_kids in H. destruct H as [H1 H2].
  apply every_kids. split.
  - apply (keep_put kids); [exact H2| |exact H1]. intros a Ha. subst common. destruct (_ || _); [apply filter_In in Ha; tauto|exact Ha].
  - apply Forall_map. eapply Forall_impl; [|exact H2]. intros [cn c ks|t] Hk; [|exact Logic.I]. cbn [strip_common].
    apply every_kids in Hk. apply every_kids. split; [apply keep_strip|]; tauto.
Qed.
Lemma keep_hoist_all n : every P n -> every P (hoist_all n).
Proof.
  induction n as [t|name attrs kids IH] using node_ind'; [auto|]. rewrite every_kids. intros [H1 H2]. cbn [hoist_all].
  apply keep_hoist. apply every_kids. split; [exact H1|]. apply Forall_map. rewrite Forall_forall in *. auto.
Qed.
End Keep.

(** ** The walk *)
Section HoistWalk.
Context {E : Type} (st : ename -> E -> list gattr -> E) (P : ename -> list gattr -> Prop).
Hypothesis Hremove : forall name n attrs, P name attrs -> P name (remove_attr n attrs).
Hypothesis Hput : forall cn c a attrs, P EG attrs -> P cn c -> In a c -> movable a = true -> P EG (put_on_group attrs a).
(** One step on a group and a child. *)
Hypothesis Hstep : forall kids common env attrs cn c ks,
  P EG attrs -> Forall (every P) kids -> In (GE cn c ks) kids ->
  each_once common -> (forall a, In a common -> In a (common_attributes kids)) ->
  (has_attr (NProp p_filter) attrs || has_attr (NProp p_clip_path) attrs || has_attr (NProp p_mask) attrs = true -> ~ In NTransform (map name_of common)) ->
  st cn (st EG env (fold_left put_on_group common attrs)) (strip common c) = st cn (st EG env attrs) c.
Hypothesis Honce : forall name attrs, P name attrs -> each_once attrs.
Lemma hoist_seen name attrs kids env : every P (GE name attrs kids) -> seen st env (hoist name attrs kids) = seen st env (GE name attrs kids).
Proof.
  intros H. unfold hoist. destruct (negb (is_g name)) eqn:G; [reflexivity|]. destruct (filter is_elem kids) as [|x [|y r]]; try reflexivity.
  cbv zeta. match goal with |- context [if ?b then ?t else ?e] => set (common := if b then t else e) end.
  destruct name; try discriminate G. apply every_kids in H. destruct H as [H1 H2].
  assert (C1 : forall a, In a common -> In a (common_attributes kids)).
  { intros a Ha. subst common. destruct (_ || _); [apply filter_In in Ha; tauto|exact Ha]. }
  assert (C2 : each_once common).
  { assert (each_once (common_attributes kids)) as CO.
    { apply common_once. intros cn c ks Hk. rewrite Forall_forall in H2. specialize (H2 _ Hk). apply every_kids in H2. apply (Honce cn). tauto. }
    subst common. destruct (_ || _); [apply NoDup_map_filter|]; exact CO. }
  assert (C3 : has_attr (NProp p_filter) attrs || has_attr (NProp p_clip_path) attrs || has_attr (NProp p_mask) attrs = true -> ~ In NTransform (map name_of common)).
  { intros D Hi. subst common. rewrite <- !orb_assoc in Hi. rewrite <- orb_assoc in D. rewrite D, orb_true_r in Hi. apply in_map_iff in Hi.
    destruct Hi as (a & Na & Ha). apply filter_In in Ha. destruct Ha as [_ Ha]. rewrite Na, name_eqb_refl in Ha. discriminate. }
  cbn [seen is_g app]. rewrite flat_map_map'. apply flat_map_ext_Forall. apply Forall_forall. intros [cn c ks|t] Hk; [|reflexivity].
  cbn [strip_common seen]. fold (strip common c). rewrite (Hstep kids) with (ks := ks) by assumption. reflexivity.
Qed.
Lemma hoist_all_seen n : every P n -> forall env, seen st env (hoist_all n) = seen st env n.
Proof.
  induction n as [t|name attrs kids IH] using node_ind'; intros H env; [reflexivity|]. apply every_kids in H. destruct H as [H1 H2].
  cbn [hoist_all]. rewrite hoist_seen.
  - cbn [seen]. f_equal. rewrite flat_map_map'. apply flat_map_ext_Forall. rewrite Forall_forall in *. auto.
  - apply every_kids. split; [exact H1|]. apply Forall_map. rewrite Forall_forall in *. intros k Hk. apply keep_hoist_all; auto.
Qed.
End HoistWalk.

(** ** Total transforms *)
Definition okh (name : ename) (attrs : list gattr) : Prop := okt name attrs /\ no_resource_transform name attrs.
Lemma okh_remove name n attrs : okh name attrs -> okh name (remove_attr n attrs).
Proof.
  intros [[H1 H2] H3]. split; [split|].
  - apply remove_once, H1.
  - intros a Ha. apply H2. exact (in_remove_attr _ _ _ Ha).
  - intros E a Ha. apply H3; [exact E|]. exact (in_remove_attr _ _ _ Ha).
Qed.
Lemma okh_put cn c a attrs : okh EG attrs -> okh cn c -> In a c -> movable a = true -> okh EG (put_on_group attrs a).
Proof.
  intros [[H1 H2] H3] [[C1 C2] C3] Ha M. rewrite put_merged. split; [split|].
  - apply set_once, H1.
  - intros b Hb. apply in_set_attr in Hb. destruct Hb as [->|Hb]; [|apply H2; exact Hb]. specialize (C2 a Ha). destruct a; try exact C2.
    cbn [merged]. destruct (get_attr NTransform attrs) as [[]|]; exact Logic.I.
  - discriminate.
Qed.
Lemma tr_step kids common env attrs cn c ks :
  okh EG attrs -> Forall (every okh) kids -> In (GE cn c ks) kids ->
  each_once common -> (forall a, In a common -> In a (common_attributes kids)) ->
  step_t cn (step_t EG env (fold_left put_on_group common attrs)) (strip common c) = step_t cn (step_t EG env attrs) c.
Proof.
  intros HG HK Hk CO CI. rewrite Forall_forall in HK. pose proof (HK _ Hk) as HC. apply every_kids in HC. destruct HC as [[[C1 C2] C3] _].
  unfold step_t, tr. cbn [base]. rewrite get_strip by exact C1.
  destruct (in_dec aname_dec NTransform (map name_of common)) as [Hi|Hi].
  - apply in_map_iff in Hi. destruct Hi as (a & N & Ha). destruct (common_spec kids a (CI a Ha)) as (_ & _ & HA).
    specialize (HA cn c ks Hk). rewrite <- N at 1. rewrite (get_put_in a common attrs CO Ha). rewrite N in HA. rewrite HA.
    destruct (get_name _ _ _ HA) as [Hac _]. specialize (C2 a Hac). destruct a; try discriminate N; try contradiction. cbn [merged].
    assert (cn <> EResource) as NR.
    { intros ->. exact (C3 eq_refl _ Hac eq_refl). }
    destruct (get_attr NTransform attrs) as [b|] eqn:EG.
    + destruct (get_name _ _ _ EG) as [Hb Nb]. pose proof (proj2 (proj1 HG) b Hb) as PB. destruct b; try discriminate Nb; try contradiction.
      destruct cn; try congruence; cbn [base]; rewrite <- ?app_assoc, ?app_nil_r; reflexivity.
    + destruct cn; try congruence; cbn [base]; rewrite <- ?app_assoc, ?app_nil_r; reflexivity.
  - rewrite get_put_other by exact Hi. reflexivity.
Qed.
Theorem hoist_totals n : every (fun _ => each_once) n -> every plain_transforms n -> every no_resource_transform n ->
  totals (hoist_all n) = totals n.
Proof.
  intros H1 H2 H3. pose proof (every_and _ _ _ (okt_both n H1 H2) H3) as H. change (every okh n) in H.
  assert (KP : every okh (hoist_all n)) by (apply keep_hoist_all; [exact okh_remove|exact okh_put|exact H]).
  rewrite !totals_t; [|eapply every_impl; [|exact H]; intros ? ? []; assumption|eapply every_impl; [|exact KP]; intros ? ? []; assumption].
  apply hoist_all_seen with (P := okh); [exact okh_remove|exact okh_put|intros; eapply tr_step; eassumption| |exact H]. intros name attrs [[]]; assumption.
Qed.

(** ** Inherited values *)
Definition oki (k : nat) (name : ename) (attrs : list gattr) : Prop := each_once attrs /\ plain_inherited k name attrs.
Lemma oki_remove k name n attrs : oki k name attrs -> oki k name (remove_attr n attrs).
Proof.
  intros [H1 H2]. split; [apply remove_once, H1|]. intros a Ha. apply H2. exact (in_remove_attr _ _ _ Ha).
Qed.
Lemma oki_put k cn c a attrs : oki k EG attrs -> oki k cn c -> In a c -> movable a = true -> oki k EG (put_on_group attrs a).
Proof.
  intros [H1 H2] [C1 C2] Ha M. rewrite put_merged. split; [apply set_once, H1|].
  intros b Hb. apply in_set_attr in Hb. destruct Hb as [->|Hb]; [|apply H2; exact Hb]. specialize (C2 a Ha).
  destruct a; try exact C2; try discriminate M. cbn [merged]. destruct (get_attr NTransform attrs) as [[]|]; exact Logic.I.
Qed.
Lemma inherited_get k name env attrs : each_once attrs ->
  step_inherited k name env attrs =
  match match get_attr NStyle attrs with Some a => style_prop (Inh k) a | None => None end with
  | Some v => Some v
  | None => match match get_attr (NProp (Inh k)) attrs with Some a => attr_prop (Inh k) env a | None => None end with Some v => v | None => env end
  end.
Proof.
  intros H. unfold step_inherited. rewrite (pick_get (style_prop (Inh k)) NStyle) by (auto; intros []; cbn; congruence).
  rewrite (pick_get (attr_prop (Inh k) env) (NProp (Inh k))); [reflexivity|exact H|].
  intros [] D; try reflexivity. cbn [attr_prop]. destruct (prop_dec p (Inh k)); [subst; destruct (D eq_refl)|reflexivity].
Qed.
Lemma fold_put_once common : forall attrs, each_once attrs -> each_once (fold_left put_on_group common attrs).
Proof. induction common as [|a common IH]; intros attrs H; [exact H|]. cbn [fold_left]. apply IH. rewrite put_merged. apply set_once, H. Qed.
Lemma no_style_common kids common : (forall a, In a common -> In a (common_attributes kids)) -> ~ In NStyle (map name_of common).
Proof.
  intros CI H. apply in_map_iff in H. destruct H as (a & N & Ha). destruct (common_spec kids a (CI a Ha)) as (M & _).
  unfold movable in M. rewrite N in M. discriminate.
Qed.
Lemma inh_step k kids common env attrs cn c ks :
  oki k EG attrs -> Forall (every (oki k)) kids -> In (GE cn c ks) kids ->
  each_once common -> (forall a, In a common -> In a (common_attributes kids)) ->
  step_inherited k cn (step_inherited k EG env (fold_left put_on_group common attrs)) (strip common c) =
  step_inherited k cn (step_inherited k EG env attrs) c.
Proof.
  intros [G1 G2] HK Hk CO CI. rewrite Forall_forall in HK. pose proof (HK _ Hk) as HC. apply every_kids in HC. destruct HC as [[C1 C2] _].
  rewrite !inherited_get by (try apply strip_once; try apply fold_put_once; assumption).
  pose proof (no_style_common kids common CI) as NS. rewrite !get_strip, !(get_put_other NStyle) by assumption.
  destruct (in_dec aname_dec NStyle (map name_of common)) as [Hs|_]; [contradiction|].
  assert (GS : match get_attr NStyle attrs with Some a => style_prop (Inh k) a | None => None end = None).
  { destruct (get_attr NStyle attrs) as [a|] eqn:E; [|reflexivity]. destruct (get_name _ _ _ E) as [Ha N]. specialize (G2 a Ha).
    destruct a; try discriminate N. cbn [style_prop]. apply last_some_none. intros [p v|l] Hd; [|reflexivity].
    destruct (prop_dec p (Inh k)) as [->|]; [|reflexivity]. destruct (G2 eq_refl v Hd). }
  rewrite GS.
  destruct (match get_attr NStyle c with Some a => style_prop (Inh k) a | None => None end); [reflexivity|].
  destruct (in_dec aname_dec (NProp (Inh k)) (map name_of common)) as [Hi|Hi].
  - apply in_map_iff in Hi. destruct Hi as (a & N & Ha). destruct (common_spec kids a (CI a Ha)) as (_ & _ & HA).
    specialize (HA cn c ks Hk). rewrite <- N. rewrite (get_put_in a common attrs CO Ha). rewrite HA.
    destruct (get_name _ _ _ HA) as [Hac _]. specialize (C2 a Hac). destruct a as [| | | |p v| |]; try discriminate N. injection N as ->.
    destruct (C2 eq_refl) as (w & ->). cbn [merged attr_prop]. destruct (prop_dec (Inh k) (Inh k)) as [_|D]; [reflexivity|destruct (D eq_refl)].
  - rewrite get_put_other by exact Hi. reflexivity.
Qed.
Theorem hoist_inherited k n : every (fun _ => each_once) n -> every (plain_inherited k) n -> inherited k (hoist_all n) = inherited k n.
Proof.
  intros H1 H2. pose proof (every_and _ _ _ H1 H2) as H. change (every (oki k) n) in H. unfold inherited.
  apply hoist_all_seen with (P := oki k); [exact (oki_remove k)|exact (oki_put k)|intros; eapply inh_step; eassumption| |exact H]. intros name attrs []; assumption.
Qed.

(** Nothing else changes, for every tree. *)
Lemma alone_set x l : of_the_element_alone x = false -> filter of_the_element_alone (set_attr x l) = filter of_the_element_alone l.
Proof.
  intros Hx. assert (HN : forall a, name_of a = name_of x -> of_the_element_alone a = false).
  { intros a E. destruct x as [| | | |[]| |]; try discriminate Hx; destruct a as [| | | |[]| |]; try discriminate E; reflexivity. }
  induction l as [|a l IH]; cbn [set_attr].
  - cbn [filter]. rewrite Hx. reflexivity.
  - destruct (name_eqb (name_of a) (name_of x)) eqn:E.
    + apply name_eqb_spec in E. cbn [filter]. rewrite Hx, (HN a E). reflexivity.
    + cbn [filter]. rewrite IH. reflexivity.
Qed.
Lemma alone_remove x l : of_the_element_alone x = false -> filter of_the_element_alone (remove_attr (name_of x) l) = filter of_the_element_alone l.
Proof.
  intros Hx. assert (HN : forall a, name_of a = name_of x -> of_the_element_alone a = false).
  { intros a E. destruct x as [| | | |[]| |]; try discriminate Hx; destruct a as [| | | |[]| |]; try discriminate E; reflexivity. }
  induction l as [|a l IH]; [reflexivity|]. cbn [remove_attr]. destruct (name_eqb (name_of a) (name_of x)) eqn:E.
  - apply name_eqb_spec in E. cbn [filter]. rewrite (HN a E). reflexivity.
  - cbn [filter]. rewrite IH. reflexivity.
Qed.
Lemma movable_alone a : movable a = true -> of_the_element_alone a = false.
Proof. destruct a as [| | | |[]| |]; cbn; congruence. Qed.
Lemma merged_alone attrs a : of_the_element_alone (merged attrs a) = of_the_element_alone a.
Proof. destruct a; try reflexivity. cbn [merged]. destruct (get_attr NTransform attrs) as [[]|]; reflexivity. Qed.
Lemma alone_put common : (forall a, In a common -> movable a = true) -> forall attrs,
  filter of_the_element_alone (fold_left put_on_group common attrs) = filter of_the_element_alone attrs.
Proof.
  induction common as [|a common IH]; intros H attrs; [reflexivity|]. cbn [fold_left]. rewrite IH by (intros b Hb; apply H; right; exact Hb).
  rewrite put_merged. apply alone_set. rewrite merged_alone. apply movable_alone, H. left; reflexivity.
Qed.
Lemma alone_strip common : (forall a, In a common -> movable a = true) -> forall c,
  filter of_the_element_alone (strip common c) = filter of_the_element_alone c.
Proof.
  induction common as [|a common IH]; intros H c; [reflexivity|]. unfold strip. cbn [fold_left]. fold (strip common (remove_attr (name_of a) c)).
  rewrite IH by (intros b Hb; apply H; right; exact Hb). apply alone_remove. apply movable_alone, H. left; reflexivity.
Qed.
Lemma hoist_rest name attrs kids : without_inherited (hoist name attrs kids) = without_inherited (GE name attrs kids).
Proof.
  unfold hoist. destruct (negb (is_g name)); [reflexivity|]. destruct (filter is_elem kids) as [|x [|y r]]; try reflexivity.
  cbv zeta. match goal with |- context [if ?b then ?t else ?e] => set (common := if b then t else e) end.
  assert (C1 : forall a, In a common -> movable a = true).
  { intros a Ha. apply (common_spec kids). subst common. destruct (_ || _); [apply filter_In in Ha; tauto|exact Ha]. }
  cbn [without_inherited]. rewrite (alone_put common C1). f_equal. rewrite map_map. apply map_ext. intros [cn c ks|t]; [|reflexivity].
  cbn [strip_common without_inherited]. fold (strip common c). rewrite (alone_strip common C1). reflexivity.
Qed.
Theorem hoist_all_rest n : without_inherited (hoist_all n) = without_inherited n.
Proof.
  induction n as [t|name attrs kids IH] using node_ind'; [reflexivity|]. cbn [hoist_all]. rewrite hoist_rest. cbn [without_inherited]. f_equal.
  rewrite map_map. apply map_ext_in. rewrite Forall_forall in IH. exact IH.
Qed.
