From Coq Require Import String List NArith Bool Arith Lia.
From Verif Require Import Chars NameModel AttrTable ElemModel DomModel DomSpec WalkModel WalkSpec WalkProofs WalkOps WalkOps2 WalkOps3 NodeModel TextModel ScriptsModel ScriptsSpec.
Import ListNotations.

Definition U : Type := unit.
Definition enter_r (x : unit) (c : @around ninfo) (t : wtree ninfo) (x' : unit) (act : @enter_act ninfo) : Prop :=
  is_elem (wdata t) = true /\
  act = if is_script (wdata t) then ERemove else EKeep false (unhandled (wdata t)) (wkids t).
Definition exit_r (x : unit) (c : @around ninfo) (t : wtree ninfo) (x' : unit) (out : list (wtree ninfo)) : Prop :=
  is_elem (wdata t) = true /\
  if js_link (wdata t) then
    exists k1 mid k2, wkids t = k1 ++ mid ++ k2 /\ Forall (fun t => is_text (wdata t) = true) k1 /\
    Forall (fun t => is_text (wdata t) = false) mid /\ Forall (fun t => is_text (wdata t) = true) k2 /\
    (mid = [] \/ k2 = [] \/ snd c <> []) /\ out = mid
  else out = [t].
Definition leaf_r (x : unit) (c : @around ninfo) (t : wtree ninfo) (x' : unit) (out : list (wtree ninfo)) : Prop := out = [t].
Definition gone_r (x : unit) (t : wtree ninfo) (x' : unit) : Prop := is_elem (wdata t) = true /\ js_link (wdata t) = false.

Lemma unit_eq (x y : unit) : x = y. Proof. destruct x, y; reflexivity. Qed.

Lemma scripts_enter_ok : enter_ok enter_r scripts_enter.
Proof.
  intros x anc A B t x' act (E & ->). exists 0. intros f s _ _ P.
  pose proof (holds_info _ _ (place_holds _ _ _ _ _ P)) as Hd. unfold scripts_enter. rewrite Hd.
  destruct (wdata t) as [e attrs|tx|k tx] eqn:Ed; try discriminate. unfold is_script, node_is.
  destruct (elem_is e (lit "Script")) eqn:Es.
  - eexists. split; [reflexivity|]. split; [apply unit_eq|]. apply op_remove, P.
  - split; [eapply place_made, P|]. eexists. split; [reflexivity|]. split; [apply unit_eq|]. apply op_info, P.
Qed.

Lemma exit_js s n d : w_info s n = d -> is_elem d = true -> forall f, scripts_exit f s n =
  if js_link d then
    match retain_children f (w_heap s) n (fun c => negb (is_text (w_info s c))) with
    | None => None
    | Some h => match flatten f h n with None => None | Some h => Some (put_heap s h) end
    end
  else Some s.
Proof.
  intros Hd E f. unfold scripts_exit. rewrite Hd. destruct d as [e attrs|tx|k tx]; try discriminate. cbn [js_link].
  destruct (elem_is e (lit "A")); cbn [negb andb]; [|reflexivity].
  change (existsb js_attr attrs) with (existsb js_url attrs). destruct (existsb js_url attrs); reflexivity.
Qed.

Lemma infos_of s (l : list (wtree ninfo)) (v : bool) : Forall (holds s) l -> Forall (fun t => is_text (wdata t) = v) l ->
  forall x, In x (map wid l) -> negb (is_text (w_info (X := unit) s x)) = negb v.
Proof.
  rewrite !Forall_forall. intros H V x Hx. apply in_map_iff in Hx. destruct Hx as (t & <- & Ht).
  rewrite (holds_info _ _ (H t Ht)), (V t Ht). reflexivity.
Qed.

Lemma scripts_exit_ok : put_ok scripts_exit exit_r.
Proof.
  intros x anc A B t x' out (E & H). exists (S (List.length (wkids t))). intros f s Hf _ P.
  pose proof (place_holds _ _ _ _ _ P) as Ht. pose proof (holds_info _ _ Ht) as Hd.
  rewrite (exit_js s _ _ Hd E). destruct (js_link (wdata t)).
  - destruct H as (k1 & mid & k2 & Ek & T1 & T & T2 & C & ->). destruct t as [n d kids]. cbn [wid wkids wdata] in *. subst kids.
    inversion Ht as [i dd kk _ _ Hk]; subst i dd kk. rewrite !Forall_app in Hk. destruct Hk as (K1 & K & K2).
    destruct (op_strip s anc A n d k1 mid k2 B (fun c => negb (is_text (w_info s c))) f P) as (M & h1 & h' & E1 & E2 & E3 & E4); auto.
    + apply (infos_of s k1 true); assumption.
    + apply (infos_of s mid false); assumption.
    + apply (infos_of s k2 true); assumption.
    + split; [exact M|]. rewrite E1, E2. eexists. split; [reflexivity|]. split; [apply unit_eq|]. auto.
  - subst out. destruct (keep_ok _ _ _ _ _ P) as (M & Hb & Ho). split; [exact M|]. exists s. split; [reflexivity|]. split; [apply unit_eq|]. auto.
Qed.
Lemma scripts_leaf_ok : put_ok scripts_leaf leaf_r.
Proof.
  intros x anc A B t x' out ->. exists 0. intros f s _ _ P. destruct (keep_ok _ _ _ _ _ P) as (M & Hb & Ho). split; [exact M|].
  exists s. split; [reflexivity|]. split; [apply unit_eq|]. auto.
Qed.
Lemma scripts_gone_ok : gone_ok gone_r scripts_exit.
Proof.
  intros x t x' (E & H). exists 0. intros f s _ _ Ht _ _ _ _. rewrite (exit_js s _ _ (holds_info _ _ Ht) E), H.
  exists s. split; [reflexivity|]. split; [apply unit_eq|]. auto.
Qed.

(** ** The walk on a tidy document *)
Notation runs := (runs is_elem enter_r exit_r leaf_r gone_r).
Notation runs_list := (runs_list is_elem enter_r exit_r leaf_r gone_r).

Lemma js_unhandled d : js_link (unhandled d) = js_link d.
Proof.
  destruct d as [e attrs|tx|k tx]; try reflexivity. cbn [js_link unhandled]. f_equal.
  assert (H : forall a, js_url a = true -> handler a = false).
  { intros a H. unfold js_url in H. apply andb_true_iff in H. destruct H as [H _]. unfold handler, id_groups.
    unfold attr_is in H. destruct (id_unaliased (fst a)) as [k|q]; [|discriminate].
    assert (Hg : forall i, In i [lit "Href"; lit "XLinkHref"] -> text_eqb (kind_id k) i = true -> intersects (kind_groups k) g_event = false).
    { intros i Hi Hk. apply text_eqb_spec in Hk. unfold kind_groups. rewrite Hk. destruct Hi as [<-|[<-|[]]]; vm_compute; reflexivity. }
    apply orb_true_iff in H. destruct H as [H|H]; eapply Hg; try exact H; [left|right; left]; reflexivity. }
  induction attrs as [|a l IH]; [reflexivity|]. cbn [filter existsb]. destruct (handler a) eqn:Ha; cbn [negb].
  - rewrite IH. destruct (js_url a) eqn:Ej; [rewrite (H a Ej) in Ha; discriminate|reflexivity].
  - cbn [existsb]. rewrite IH. reflexivity.
Qed.
Lemma unhandled_elem d : is_elem (unhandled d) = is_elem d. Proof. destruct d; reflexivity. Qed.
Lemma script_not_link d : is_script d = true -> js_link d = false.
Proof.
  destruct d as [e attrs|tx|k tx]; try reflexivity. unfold is_script, node_is. cbn [js_link]. unfold elem_is.
  destruct e as [k|p k|p l]; try discriminate; rewrite text_eqb_spec; intros ->; reflexivity.
Qed.

Lemma filter_all {A} (f : A -> bool) l : Forall (fun x => f x = true) l -> filter f l = l.
Proof. induction 1 as [|x l H _ IH]; [reflexivity|]. cbn. rewrite H, IH. reflexivity. Qed.
Lemma filter_none {A} (f : A -> bool) l : Forall (fun x => f x = false) l -> filter f l = [].
Proof. induction 1 as [|x l H _ IH]; [reflexivity|]. cbn. rewrite H, IH. reflexivity. Qed.
Lemma nontext_middle k1 mid k2 : Forall (fun t : wtree ninfo => is_text (wdata t) = true) k1 ->
  Forall (fun t => is_text (wdata t) = false) mid -> Forall (fun t => is_text (wdata t) = true) k2 ->
  filter (fun k => negb (is_text (wdata k))) (k1 ++ mid ++ k2) = mid.
Proof.
  intros T1 T T2. rewrite !filter_app, (filter_none _ k1), (filter_all _ mid), (filter_none _ k2), app_nil_r; [reflexivity| | |];
    (eapply Forall_impl; [|eassumption]); intros t ->; reflexivity.
Qed.

Lemma tidy_eq fl n d kids : tidy fl (W n d kids) <->
  (is_script d = false -> js_link d = true -> tidy_kids fl (flat_map cleaned kids)) /\ tidy_all kids.
Proof. reflexivity. Qed.
Lemma tidy_all_cons k r : tidy_all (k :: r) <-> tidy (match r with [] => false | _ => true end) k /\ tidy_all r.
Proof. reflexivity. Qed.

Lemma runs_list_of anc : forall l A, Forall (fun t => forall anc A B, tidy (match B with [] => false | _ => true end) t -> runs (anc, A, B) tt t tt (cleaned t)) l ->
  tidy_all l -> runs_list anc A tt l tt (flat_map cleaned l).
Proof.
  induction l as [|t r IH]; intros A HF HT; [constructor|]. inversion HF; subst. apply (proj1 (tidy_all_cons _ _)) in HT. destruct HT as [T1 T2].
  cbn [flat_map]. econstructor; eauto.
Qed.

Lemma runs_clean : forall t anc A B, tidy (match B with [] => false | _ => true end) t -> runs (anc, A, B) tt t tt (cleaned t).
Proof.
  apply (wtree_ind' (fun t => forall anc A B, tidy (match B with [] => false | _ => true end) t -> runs (anc, A, B) tt t tt (cleaned t))).
  intros n d kids IH anc A B T. apply (proj1 (tidy_eq _ _ _ _)) in T. destruct T as [T TA]. cbn [cleaned].
  destruct (is_elem d) eqn:E; cbn [negb]; [|apply R_leaf; [exact E|reflexivity]].
  destruct (is_script d) eqn:Es.
  - eapply R_gone with (x1 := tt) (x2 := tt) (kids' := flat_map cleaned kids); [exact E| | |].
    + split; [exact E|]. cbn [wdata]. rewrite Es. reflexivity.
    + cbn [wkids]. apply runs_list_of; assumption.
    + split; [exact E|]. cbn [wdata]. apply script_not_link, Es.
  - eapply R_keep with (x1 := tt) (x2 := tt) (d := unhandled d) (kids := kids) (kids' := flat_map cleaned kids); [exact E| | |].
    + split; [exact E|]. cbn [wdata]. rewrite Es. reflexivity.
    + apply runs_list_of; assumption.
    + split; [cbn [wdata]; rewrite unhandled_elem; exact E|]. cbn [wdata wkids wid snd]. rewrite js_unhandled.
      destruct (js_link d) eqn:Ej; [|reflexivity].
      destruct (T eq_refl eq_refl) as (k1 & mid & k2 & Ek & T1 & Tm & T2 & C). exists k1, mid, k2. do 4 (split; [assumption|]).
      split; [|rewrite Ek; apply nontext_middle; assumption].
      destruct C as [C|[C|C]]; auto. right. right. destruct B; [discriminate|intros; discriminate].
Qed.

Theorem scripts_document root d l : tidy_all l ->
  exists f0, forall f s, f0 <= f -> w_info s root = d -> below s root l -> NoDup (root :: all_ids l) ->
  exists s', remove_scripts true f s root = Some s' /\ below s' root (flat_map cleaned l) /\ NoDup (all_ids (flat_map cleaned l)).
Proof.
  intros T. assert (R : runs_list [(root, d)] [] tt l tt (flat_map cleaned l)).
  { apply runs_list_of; [|exact T]. apply Forall_forall. intros t _ anc A B. apply runs_clean. }
  destruct (document_correct is_elem enter_r exit_r leaf_r gone_r scripts_enter scripts_exit scripts_leaf
    scripts_enter_ok scripts_exit_ok scripts_leaf_ok scripts_gone_ok root d tt l tt _ R) as (f0 & H).
  exists f0. intros f s Hf Hd Hb N. destruct (H f s Hf (unit_eq _ _) Hd Hb N) as (s' & E & _ & Eb & _ & No & _). exists s'. auto.
Qed.

(** ** What is left *)
Lemma cleaned_rows p : forall t, leafy t ->
  flat_map (rows p) (cleaned t) = left_over p false t /\
  flat_map (rows p) (filter (fun k => negb (is_text (wdata k))) (cleaned t)) = left_over p true t.
Proof.
  intros t L. revert p. revert t L.
  apply (wtree_ind' (fun t => leafy t -> forall p, flat_map (rows p) (cleaned t) = left_over p false t /\
    flat_map (rows p) (filter (fun k => negb (is_text (wdata k))) (cleaned t)) = left_over p true t)). intros n d kids IH L p.
  inversion L as [? ? ? Lk La]; subst.
  assert (A1 : forall q, flat_map (rows q) (flat_map cleaned kids) = flat_map (left_over q false) kids).
  { intros q. clear -IH La. induction kids as [|k r IHr]; [reflexivity|]. inversion IH; inversion La; subst. cbn [flat_map]. rewrite flat_map_app, IHr by assumption.
    f_equal. apply H1. assumption. }
  assert (A2 : forall q, flat_map (rows q) (filter (fun k => negb (is_text (wdata k))) (flat_map cleaned kids)) = flat_map (left_over q true) kids).
  { intros q. clear -IH La. induction kids as [|k r IHr]; [reflexivity|]. inversion IH; inversion La; subst. cbn [flat_map]. rewrite filter_app, flat_map_app, IHr by assumption.
    f_equal. apply H1. assumption. }
  cbn [cleaned left_over]. destruct (is_elem d) eqn:E; cbn [negb].
  - assert (Et : is_text d = false) by (destruct d; try discriminate; reflexivity). rewrite Et. cbn [andb].
    destruct (is_script d) eqn:Es; [split; reflexivity|]. destruct (js_link d) eqn:Ej.
    + split; [apply A2|]. rewrite <- A2. f_equal. apply filter_all, Forall_forall. intros k Hk. apply filter_In in Hk. apply Hk.
    + assert (Eu : is_text (unhandled d) = false) by (destruct d; try discriminate; reflexivity).
      cbn [filter wdata]. rewrite Eu. cbn [negb flat_map rows]. rewrite app_nil_r, A1. split; reflexivity.
  - rewrite (Lk eq_refl). destruct d as [e at'|tx|k tx]; [discriminate| |]; cbn; split; reflexivity.
Qed.

Lemma all_rows root l : Forall leafy l -> flat_map (rows root) (flat_map cleaned l) = flat_map (left_over root false) l.
Proof.
  induction 1 as [|t r H _ IH]; [reflexivity|]. cbn [flat_map]. rewrite flat_map_app, IH. f_equal. apply cleaned_rows, H.
Qed.

Lemma cleaned_harmless : forall t, leafy t -> Forall (all_nodes harmless) (cleaned t).
Proof.
  apply (wtree_ind' (fun t => leafy t -> Forall (all_nodes harmless) (cleaned t))). intros n d kids IH L. inversion L as [? ? ? Lk La]; subst.
  assert (A : Forall (all_nodes harmless) (flat_map cleaned kids)).
  { clear -IH La. induction kids as [|k r IHr]; [constructor|]. inversion IH; inversion La; subst. cbn [flat_map]. apply Forall_app. auto. }
  cbn [cleaned]. destruct (is_elem d) eqn:E; cbn [negb].
  - destruct (is_script d) eqn:Es; [constructor|]. destruct (js_link d) eqn:Ej.
    + apply Forall_forall. intros k Hk. apply filter_In in Hk. rewrite Forall_forall in A. apply A, Hk.
    + repeat constructor; [| |destruct d; cbn; [|exact Logic.I|exact Logic.I]|exact A].
      * destruct d; exact Es.
      * rewrite js_unhandled. exact Ej.
      * apply Forall_forall. intros a Ha. apply filter_In in Ha. apply negb_true_iff, Ha.
  - rewrite (Lk eq_refl). repeat constructor; destruct d; try discriminate; cbn; auto; exact Logic.I.
Qed.
Lemma all_harmless l : Forall leafy l -> Forall (all_nodes harmless) (flat_map cleaned l).
Proof. induction 1 as [|t r H _ IH]; [constructor|]. cbn [flat_map]. apply Forall_app. split; [apply cleaned_harmless, H|exact IH]. Qed.

Lemma scripts_partial : forall root d l, tidy_all l -> Forall leafy l ->
  exists f0, forall f s, f0 <= f -> w_info s root = d -> below s root l -> NoDup (root :: all_ids l) ->
  exists s' out, remove_scripts true f s root = Some s' /\ below s' root out /\
    flat_map (rows root) out = flat_map (left_over root false) l /\ Forall (all_nodes harmless) out /\
    exists g, read_all g s' 0 (child_nodes_iter (w_heap s') root) = Some (flat_map (depths 0) out).
Proof.
  intros root d l T L. destruct (scripts_document root d l T) as (f0 & H). exists f0. intros f s Hf Hd Hb N.
  destruct (H f s Hf Hd Hb N) as (s' & E & Eb & No). exists s', (flat_map cleaned l).
  destruct (read_below s' root _ Eb No 0) as (g & Hg).
  exact (conj E (conj Eb (conj (all_rows root l L) (conj (all_harmless l L) (ex_intro _ g (Hg g (le_n g))))))).
Qed.
