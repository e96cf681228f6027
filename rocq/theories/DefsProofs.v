From Coq Require Import String List NArith Bool Arith Lia.
From Verif Require Import Chars NameModel AttrTable ElemModel DomModel DomSpec WalkModel WalkSpec WalkProofs WalkOps WalkOps2 WalkOps3 NodeModel ScriptsSpec DefsModel DefsSpec.
Import ListNotations.

Lemma unit_same (x y : unit) : x = y. Proof. destruct x, y; reflexivity. Qed.

(** ** Empty containers *)
Section Containers.
  Variable filtered : nat -> bool.
  Definition c_enter (x : unit) (c : @around ninfo) (t : wtree ninfo) (x' : unit) (act : @enter_act ninfo) : Prop :=
    act = EKeep false (wdata t) (wkids t).
  Definition head_data (anc : list (nat * ninfo)) : ninfo := match anc with (_, d) :: _ => d | [] => NText [] end.
  Definition gone_now (above : ninfo) (t : wtree ninfo) : bool :=
    is_container (wdata t) && negb (excused filtered above (wid t) (wdata t)) && forallb (fun k => white_text (wdata k)) (wkids t).
  Definition c_exit (x : unit) (c : @around ninfo) (t : wtree ninfo) (x' : unit) (out : list (wtree ninfo)) : Prop :=
    is_elem (wdata t) = true /\ out = if gone_now (head_data (fst (fst c))) t then [] else [t].
  Definition c_leaf (x : unit) (c : @around ninfo) (t : wtree ninfo) (x' : unit) (out : list (wtree ninfo)) : Prop := out = [t].
  Definition c_gone (x : unit) (t : wtree ninfo) (x' : unit) : Prop := False.

  Lemma c_enter_ok : enter_ok c_enter keep_enter.
  Proof.
    intros x anc A B t x' act ->. exists 0. intros f s _ _ P. destruct (keep_ok _ _ _ _ _ P) as (M & Hb & Ho).
    rewrite <- wtree_eta. split; [exact M|]. exists s. split; [reflexivity|]. split; [apply unit_same|]. auto.
  Qed.
  Lemma c_leaf_ok : put_ok keep_leaf c_leaf.
  Proof.
    intros x anc A B t x' out ->. exists 0. intros f s _ _ P. destruct (keep_ok _ _ _ _ _ P) as (M & Hb & Ho). split; [exact M|].
    exists s. split; [reflexivity|]. split; [apply unit_same|]. auto.
  Qed.
  Lemma c_gone_ok : gone_ok c_gone (empty_exit filtered).
  Proof. intros x t x' []. Qed.

  Lemma is_empty_of s n d kids f : holds (X := unit) s (W n d kids) -> NoDup (ids (W n d kids)) -> List.length kids < f ->
    is_empty f s n = Some (forallb (fun k => white_text (wdata k)) kids).
  Proof.
    intros H N Hf. inversion H as [i dd kk _ L F]; subst i dd kk. cbn [ids] in N. apply NoDup_cons_iff in N. destruct N as [_ N].
    unfold is_empty. destruct L as (L1 & L2 & L3). rewrite L1. destruct kids as [|k r]; [reflexivity|]. cbn [map headof].
    rewrite (collect_children s n (map wid (k :: r))); [|split; [exact L1|split; [exact L2|exact L3]]|apply nodup_tops, N|rewrite map_length; exact Hf].
    cbn [option_map]. f_equal. clear -F. induction F as [|u l Hu _ IH]; [reflexivity|]. cbn [map forallb].
    rewrite IH, (holds_info _ _ Hu). reflexivity.
  Qed.

  Lemma c_exit_ok : put_ok (empty_exit filtered) c_exit.
  Proof.
    intros x anc A B t x' out (E & ->). exists (S (List.length (wkids t))). intros f s Hf _ P.
    pose proof (place_holds _ _ _ _ _ P) as Ht. pose proof (holds_info _ _ Ht) as Hd.
    destruct (place_node _ _ _ _ _ P) as (p & dp & rest & Ea & e1 & _ & _ & _ & _ & _ & _ & _ & _ & _ & Nt & _).
    assert (Ep : w_info s p = dp).
    { subst anc. destruct P as (Ab & _). apply Ab. }
    assert (Epar : parent_is s (wid t) (lit "Switch") = node_is dp (lit "Switch")).
    { unfold parent_is. rewrite e1, Ep. reflexivity. }
    assert (Em : is_empty f s (wid t) = Some (forallb (fun k => white_text (wdata k)) (wkids t))).
    { destruct t as [n d kids]. eapply is_empty_of; eauto. }
    cbn [fst]. rewrite Ea. cbn [head_data]. rewrite <- Ea.
    assert (R : empty_exit filtered f s (wid t) = if gone_now dp t then Some (put_heap s (remove (w_heap s) (wid t))) else Some s).
    { unfold empty_exit, gone_now, is_container, excused, no_attrs. rewrite Hd, Epar, Em. destruct (wdata t) as [e attrs|tx|k tx]; try discriminate.
      assert (Ne : forall i, node_is (NElem e attrs) i = elem_is e i) by reflexivity. rewrite !Ne.
      unfold c_container. destruct (contains (elem_cats e) 4); cbn [negb andb]; [|reflexivity].
      destruct (forallb _ (wkids t)); rewrite ?andb_true_r, ?andb_false_r; [|reflexivity].
      destruct (elem_is e (lit "Svg")) eqn:E1; [reflexivity|]. cbn [orb].
      assert (Xc : forall i j, i <> j -> elem_is e i = true -> elem_is e j = false).
      { intros i j Hij. unfold elem_is. destruct e as [k|q k|q l]; try discriminate; rewrite text_eqb_spec; intros ->; apply text_eqb_neq; exact Hij. }
      destruct (elem_is e (lit "Pattern")) eqn:E2; cbn [andb negb orb].
      { rewrite (Xc (lit "Pattern") (lit "G")), (Xc (lit "Pattern") (lit "Mask")) by first [exact E2|vm_compute; discriminate].
        destruct attrs; reflexivity. }
      destruct (elem_is e (lit "Mask")) eqn:E3; cbn [andb negb orb].
      { rewrite (Xc (lit "Mask") (lit "G")) by first [exact E3|vm_compute; discriminate]. cbn [andb]. destruct (has_attr _ _); reflexivity. }
      destruct (node_is dp (lit "Switch")); cbn [orb negb andb]; rewrite ?orb_true_r, ?orb_false_r; [reflexivity|].
      destruct (elem_is e (lit "G")); cbn [andb]; [destruct (filtered (wid t))|]; reflexivity. }
    rewrite R. destruct (gone_now dp t).
    - destruct (op_remove s anc A t B P) as (Hb & _ & Ho & _). split; [split; [intros m []|constructor]|].
      eexists. split; [reflexivity|]. split; [apply unit_same|]. cbn [app]. auto.
    - destruct (keep_ok _ _ _ _ _ P) as (M & Hb & Ho). split; [exact M|]. exists s. split; [reflexivity|]. split; [apply unit_same|]. auto.
  Qed.

  Notation runs := (runs is_elem c_enter c_exit c_leaf c_gone).
  Notation runs_list := (runs_list is_elem c_enter c_exit c_leaf c_gone).

  Lemma pruned_white d kids : forallb (fun k => white_text (wdata k)) (flat_map (pruned filtered d) kids) = forallb (hollow filtered d) kids.
  Proof.
    induction kids as [|[n e l] r IH]; [reflexivity|]. cbn [flat_map forallb]. rewrite forallb_app, IH. f_equal.
    cbn [pruned]. destruct (is_elem e) eqn:E; cbn [negb].
    - destruct (hollow filtered d (W n e l)) eqn:H; [reflexivity|]. cbn [forallb wdata]. destruct e; [reflexivity|discriminate|discriminate].
    - cbn [forallb wdata hollow]. destruct e; [discriminate| |]; cbn; rewrite ?orb_false_r, ?andb_true_r; reflexivity.
  Qed.

  Lemma c_runs_list p d anc : forall l A, Forall (fun t => forall anc A B, runs (anc, A, B) tt t tt (pruned filtered (head_data anc) t)) l ->
    runs_list ((p, d) :: anc) A tt l tt (flat_map (pruned filtered d) l).
  Proof.
    induction l as [|t r IH]; intros A HF; [constructor|]. inversion HF; subst. cbn [flat_map]. econstructor; [apply (H1 ((p, d) :: anc))|apply IH; assumption].
  Qed.
  Lemma c_runs : forall t anc A B, runs (anc, A, B) tt t tt (pruned filtered (head_data anc) t).
  Proof.
    apply (wtree_ind' (fun t => forall anc A B, runs (anc, A, B) tt t tt (pruned filtered (head_data anc) t))).
    intros n d kids IH anc A B. cbn [pruned].
    destruct (is_elem d) eqn:E; cbn [negb]; [|apply R_leaf; [exact E|reflexivity]].
    eapply R_keep with (x1 := tt) (x2 := tt) (d := d) (kids := kids) (kids' := flat_map (pruned filtered d) kids); [exact E|reflexivity| |].
    - apply c_runs_list, IH.
    - split; [exact E|]. cbn [fst wid wdata]. unfold gone_now. cbn [wid wdata wkids hollow]. rewrite pruned_white.
      destruct d; [reflexivity|discriminate|discriminate].
  Qed.

  Lemma pruned_lean : forall t above, Forall (lean filtered above) (pruned filtered above t).
  Proof.
    apply (wtree_ind' (fun t => forall above, Forall (lean filtered above) (pruned filtered above t))). intros n d kids IH above.
    cbn [pruned]. destruct (is_elem d) eqn:E; cbn [negb].
    - destruct (hollow filtered above (W n d kids)) eqn:H; constructor; [|constructor]. constructor.
      + rewrite pruned_white. cbn [hollow] in H. apply orb_false_iff in H. apply H.
      + intros _. apply Forall_forall. intros u Hu. apply in_flat_map in Hu. destruct Hu as (k & Hk & Hu). rewrite Forall_forall in IH.
        specialize (IH k Hk d). rewrite Forall_forall in IH. apply IH, Hu.
    - constructor; [|constructor]. constructor; [destruct d; [discriminate|reflexivity|reflexivity]|]. rewrite E. discriminate.
  Qed.

  Definition is_solid (x : nat * ninfo) : bool := solid (snd x).
  Lemma hollow_not_solid : forall t above, leafy t -> hollow filtered above t = true -> filter is_solid (nodes_of t) = [].
  Proof.
    assert (Fc : forall x l, filter is_solid (x :: l) = if solid (snd x) then x :: filter is_solid l else filter is_solid l) by reflexivity.
    apply (wtree_ind' (fun t => forall above, leafy t -> hollow filtered above t = true -> filter is_solid (nodes_of t) = [])).
    intros n d kids IH above L H. inversion L as [? ? ? Lk La]; subst. cbn [hollow] in H. cbn [nodes_of]. rewrite Fc. cbn [snd].
    assert (Es : solid d = false).
    { unfold solid. destruct (white_text d); [apply andb_false_r|]. cbn [orb] in H. destruct (is_container d); [reflexivity|discriminate]. }
    rewrite Es. destruct (white_text d) eqn:Ew.
    - rewrite Lk; [reflexivity|]. destruct d; [discriminate|reflexivity|reflexivity].
    - cbn [orb] in H. apply andb_true_iff in H. destruct H as [_ H]. clear -IH La H. induction kids as [|k r IHr]; [reflexivity|].
      inversion IH; inversion La; subst. cbn [forallb] in H. apply andb_true_iff in H. cbn [flat_map]. rewrite filter_app, IHr by tauto.
      rewrite (H2 d) by tauto. reflexivity.
  Qed.
  Lemma pruned_solid : forall t above, leafy t -> filter is_solid (flat_map nodes_of (pruned filtered above t)) = filter is_solid (nodes_of t).
  Proof.
    assert (Fc : forall x l, filter is_solid (x :: l) = if solid (snd x) then x :: filter is_solid l else filter is_solid l) by reflexivity.
    apply (wtree_ind' (fun t => forall above, leafy t -> filter is_solid (flat_map nodes_of (pruned filtered above t)) = filter is_solid (nodes_of t))).
    intros n d kids IH above L. inversion L as [? ? ? Lk La]; subst. cbn [pruned]. destruct (is_elem d) eqn:E; cbn [negb].
    - destruct (hollow filtered above (W n d kids)) eqn:H; [symmetry; eapply hollow_not_solid; eauto|].
      cbn [flat_map nodes_of]. rewrite app_nil_r, !Fc. 
      assert (A : filter is_solid (flat_map nodes_of (flat_map (pruned filtered d) kids)) = filter is_solid (flat_map nodes_of kids)).
      { clear -IH La. induction kids as [|k r IHr]; [reflexivity|]. inversion IH; inversion La; subst. cbn [flat_map].
        rewrite flat_map_app, !filter_app, IHr by assumption. f_equal. apply H1; assumption. }
      rewrite A. reflexivity.
    - cbn [flat_map]. rewrite app_nil_r. reflexivity.
  Qed.

  Theorem containers_document : forall root d l, Forall leafy l -> exists f0, forall f s,
    f0 <= f -> w_info s root = d -> below s root l -> NoDup (root :: all_ids l) ->
    exists s', remove_empty_containers filtered true f s root = Some s' /\
      below s' root (flat_map (pruned filtered d) l) /\ Forall (lean filtered d) (flat_map (pruned filtered d) l) /\
      filter (fun x => solid (snd x)) (flat_map nodes_of (flat_map (pruned filtered d) l)) = filter (fun x => solid (snd x)) (flat_map nodes_of l) /\
      exists g, read_all g s' 0 (child_nodes_iter (w_heap s') root) = Some (flat_map (depths 0) (flat_map (pruned filtered d) l)).
  Proof.
    intros root d l Lf. assert (R : runs_list [(root, d)] [] tt l tt (flat_map (pruned filtered d) l)).
    { apply c_runs_list, Forall_forall. intros t _ anc A B. apply c_runs. }
    destruct (document_correct is_elem c_enter c_exit c_leaf c_gone keep_enter (empty_exit filtered) keep_leaf
      c_enter_ok c_exit_ok c_leaf_ok c_gone_ok root d tt l tt _ R) as (f0 & H).
    exists f0. intros f s Hf Hd Hb N. destruct (H f s Hf (unit_same _ _) Hd Hb N) as (s' & E & _ & Eb & _ & No & _). exists s'.
    split; [exact E|]. split; [exact Eb|]. split.
    - apply Forall_forall. intros u Hu. apply in_flat_map in Hu. destruct Hu as (k & _ & Hu).
      pose proof (pruned_lean k d) as L. rewrite Forall_forall in L. apply L, Hu.
    - split; [clear -Lf; induction Lf as [|t r Ht _ IH]; [reflexivity|]; cbn [flat_map]; rewrite flat_map_app, !filter_app, IH; f_equal; apply (pruned_solid t d Ht)|].
      destruct (read_below s' root _ Eb No 0) as (g & Hg). exists g. apply Hg, le_n.
  Qed.
End Containers.
