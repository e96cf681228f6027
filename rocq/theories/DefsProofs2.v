From Coq Require Import String List NArith Bool Arith Lia.
From Verif Require Import Chars NameModel AttrTable ElemModel DomModel DomSpec WalkModel WalkSpec WalkProofs WalkOps WalkOps2 WalkOps3 NodeModel ScriptsSpec DefsModel DefsSpec DefsProofs.
Import ListNotations.

(** The nearest useful elements. *)
Fixpoint pick (t : wtree ninfo) : list (wtree ninfo) :=
  match t with W n d kids => if useful d then [t] else if is_elem d then flat_map pick kids else [] end.

Lemma useful_elem d : useful d = true -> is_elem d = true.
Proof. unfold useful. intros H. apply andb_true_iff in H. apply H. Qed.
Lemma pick_kids n d kids : useful d = false -> is_elem d = true -> pick (W n d kids) = flat_map pick kids.
Proof. intros H E. cbn [pick]. rewrite H, E. reflexivity. Qed.

Lemma pick_holds s : forall t, holds (X := unit) s t -> Forall (holds s) (pick t).
Proof.
  apply (wtree_ind' (fun t => holds (X := unit) s t -> Forall (holds s) (pick t))). intros n d kids IH H. cbn [pick].
  destruct (useful d); [constructor; [exact H|constructor]|]. destruct (is_elem d); [|constructor].
  inversion H as [i dd kk _ _ F]; subst i dd kk. apply Forall_forall. intros u Hu. apply in_flat_map in Hu. destruct Hu as (k & Hk & Hu).
  rewrite Forall_forall in IH, F. specialize (IH k Hk (F k Hk)). rewrite Forall_forall in IH. apply IH, Hu.
Qed.
Lemma pick_ids : forall t, incl (all_ids (pick t)) (ids t) /\ (NoDup (ids t) -> NoDup (all_ids (pick t))).
Proof.
  apply (wtree_ind' (fun t => incl (all_ids (pick t)) (ids t) /\ (NoDup (ids t) -> NoDup (all_ids (pick t))))). intros n d kids IH. cbn [pick].
  destruct (useful d); [unfold all_ids; cbn [flat_map]; rewrite app_nil_r; split; [apply incl_refl|auto]|].
  destruct (is_elem d); [|split; [intros m []|constructor]].
  assert (A : incl (all_ids (flat_map pick kids)) (all_ids kids) /\ (NoDup (all_ids kids) -> NoDup (all_ids (flat_map pick kids)))).
  { induction IH as [|k r (H1 & H2) _ (I1 & I2)]; [split; [apply incl_refl|auto]|]. cbn [flat_map]. rewrite all_ids_app, all_ids_cons. split.
    - apply incl_app; [apply incl_appl, H1|apply incl_appr, I1].
    - rewrite !nodup_app_iff. intros (N1 & N2 & N3). split; [auto|]. split; [auto|]. intros m Hm Hm'. apply (N3 m); auto. }
  destruct A as [A1 A2]. split; [intros m Hm; right; apply A1, Hm|]. cbn [ids]. intros N. apply NoDup_cons_iff in N. apply A2, N.
Qed.
Lemma picks_ids kids : incl (all_ids (flat_map pick kids)) (all_ids kids) /\ (NoDup (all_ids kids) -> NoDup (all_ids (flat_map pick kids))).
Proof.
  induction kids as [|k r (I1 & I2)]; [split; [apply incl_refl|auto]|]. destruct (pick_ids k) as [H1 H2]. cbn [flat_map]. rewrite all_ids_app, all_ids_cons. split.
  - apply incl_app; [apply incl_appl, H1|apply incl_appr, I1].
  - rewrite !nodup_app_iff. intros (N1 & N2 & N3). split; [auto|]. split; [auto|]. intros m Hm Hm'. apply (N3 m); auto.
Qed.

Definition each_useful (fuel : nat) (s : wstate ninfo unit) : list nat -> option (list nat) :=
  fix each (l : list nat) : option (list nat) :=
    match l with
    | [] => Some []
    | c :: r =>
        if negb (is_elem (w_info s c)) then each r
        else
          match (if node_is (w_info s c) (lit "Style") || id_or_class (w_info s c) then Some [c] else collect_useful fuel s c), each r with
          | Some a, Some b => Some (a ++ b)
          | _, _ => None
          end
    end.
Lemma collect_S f s n : collect_useful (S f) s n =
  match collect f (w_heap s) (child_nodes_iter (w_heap s) n) with None => None | Some l => each_useful f s l end.
Proof. reflexivity. Qed.
Lemma each_cons f s c r : each_useful f s (c :: r) =
  if negb (is_elem (w_info s c)) then each_useful f s r
  else match (if node_is (w_info s c) (lit "Style") || id_or_class (w_info s c) then Some [c] else collect_useful f s c), each_useful f s r with
       | Some a, Some b => Some (a ++ b) | _, _ => None end.
Proof. reflexivity. Qed.

Lemma each_of : forall kids,
  Forall (fun t => exists f0, forall f s, f0 <= f -> holds s t -> NoDup (ids t) -> collect_useful f s (wid t) = Some (map wid (flat_map pick (wkids t)))) kids ->
  exists f0, forall f s, f0 <= f -> Forall (holds s) kids -> NoDup (all_ids kids) -> each_useful f s (map wid kids) = Some (map wid (flat_map pick kids)).
Proof.
  induction 1 as [|t r (f1 & H1) _ (f2 & H2)].
  - exists 0. reflexivity.
  - exists (f1 + f2). intros f s Hf F N. inversion F; subst. rewrite all_ids_cons, nodup_app_iff in N. cbn [map]. rewrite each_cons.
    rewrite (holds_info _ _ H3). cbn [flat_map]. rewrite map_app.
    rewrite H2 by (tauto || lia). destruct t as [n d kids]. cbn [wid wdata wkids pick] in *. unfold useful.
    destruct (is_elem d) eqn:E; cbn [negb andb]; [|reflexivity]. change (id_or_class d) with (marked d).
    destruct (node_is d (lit "Style") || marked d); [reflexivity|]. rewrite H1 by (tauto || lia). reflexivity.
Qed.
Lemma collect_useful_of : forall t, exists f0, forall f s, f0 <= f -> holds s t -> NoDup (ids t) ->
  collect_useful f s (wid t) = Some (map wid (flat_map pick (wkids t))).
Proof.
  apply (wtree_ind' (fun t => exists f0, forall f s, f0 <= f -> holds s t -> NoDup (ids t) ->
    collect_useful f s (wid t) = Some (map wid (flat_map pick (wkids t))))). intros n d kids IH. destruct (each_of kids IH) as (f1 & H1).
  exists (S (S (f1 + List.length kids))). intros f s Hf H N. inversion H as [i dd kk _ L F]; subst i dd kk. cbn [ids] in N. apply NoDup_cons_iff in N.
  cbn [wid wkids]. destruct f as [|f]; [lia|]. rewrite collect_S, (collect_children s n (map wid kids)); [| exact L|apply nodup_tops, N|rewrite map_length; lia].
  apply H1; [lia|exact F|apply N].
Qed.

Definition d_enter (x : unit) (c : @around ninfo) (t : wtree ninfo) (x' : unit) (act : @enter_act ninfo) : Prop :=
  is_elem (wdata t) = true /\
  act = if unreferred (wdata t) then match flat_map pick (wkids t) with [] => ERemove | u => EKeep false (wdata t) u end
        else EKeep false (wdata t) (wkids t).
Definition d_exit (x : unit) (c : @around ninfo) (t : wtree ninfo) (x' : unit) (out : list (wtree ninfo)) : Prop := out = [t].
Definition d_gone (x : unit) (t : wtree ninfo) (x' : unit) : Prop := True.

Lemma d_enter_ok : enter_ok d_enter defs_enter.
Proof.
  intros x anc A B t x' act (E & Ha). destruct (collect_useful_of t) as (f0 & Hc). exists f0. intros f s Hf _ P.
  pose proof (place_holds _ _ _ _ _ P) as Ht. pose proof (holds_info _ _ Ht) as Hd.
  destruct (place_node _ _ _ _ _ P) as (p & dp & rest & Ea & _ & _ & _ & _ & _ & _ & _ & _ & _ & _ & Nt & _).
  assert (R : defs_enter f s (wid t) = if unreferred (wdata t) then
     match flat_map pick (wkids t) with [] => Some (put_heap s (remove (w_heap s) (wid t)), false)
     | u => Some (put_heap s (replace_children (w_heap s) (wid t) (map wid u)), false) end else Some (s, false)).
  { unfold defs_enter, unreferred. rewrite Hd, (Hc f s Hf Ht Nt). destruct (wdata t) as [e attrs|tx|k tx]; try discriminate.
    change (id_or_class (NElem e attrs)) with (marked (NElem e attrs)). destruct (marked _); [reflexivity|]. cbn [negb andb].
    assert (Ne : forall i, node_is (NElem e attrs) i = elem_is e i) by reflexivity. rewrite !Ne. unfold never_drawn, i_non_rendering.
    destruct (elem_is e (lit "Defs") || elem_is e (lit "SolidColor")); cbn [negb andb orb].
    - destruct (flat_map pick (wkids t)); reflexivity.
    - destruct (contains (elem_info e) 1); cbn [negb]; [destruct (flat_map pick (wkids t)); reflexivity|reflexivity]. }
  rewrite R, Ha. clear R Ha act. destruct (unreferred (wdata t)).
  - destruct (flat_map pick (wkids t)) as [|u r] eqn:Ek.
    + eexists. split; [reflexivity|]. split; [apply unit_same|]. apply op_remove, P.
    + destruct t as [n d kids]. cbn [wid wkids wdata] in *. rewrite <- Ek.
      cbn [ids] in Nt. apply NoDup_cons_iff in Nt. destruct (picks_ids kids) as [I1 I2]. inversion Ht as [i dd kk _ L F]; subst i dd kk.
      destruct (op_replace s anc A n d kids B (flat_map pick kids) P) as (M & Hb & Ho); [ |exact I1|apply I2, Nt|].
      { apply Forall_forall. intros v Hv. apply in_flat_map in Hv. destruct Hv as (k & Hk & Hv). rewrite Forall_forall in F.
        pose proof (pick_holds s k (F k Hk)) as Q. rewrite Forall_forall in Q. apply Q, Hv. }
      split; [exact M|]. eexists. split; [reflexivity|]. split; [apply unit_same|]. auto.
  - destruct (keep_ok _ _ _ _ _ P) as (M & Hb & Ho). rewrite <- wtree_eta. split; [exact M|].
    exists s. split; [reflexivity|]. split; [apply unit_same|]. auto.
Qed.
Lemma d_exit_ok : put_ok keep_exit d_exit.
Proof. exact c_leaf_ok. Qed.
Lemma d_gone_ok : gone_ok d_gone keep_exit.
Proof. intros x t x' _. exists 0. intros f s _ _ _ _ _ _ _. exists s. split; [reflexivity|]. split; [apply unit_same|]. auto. Qed.

Notation runs := (runs is_elem d_enter d_exit d_exit d_gone).
Notation runs_list := (runs_list is_elem d_enter d_exit d_exit d_gone).

(** What is left of a tree, and of a tree in a definition that is gathered. *)
Fixpoint settled (loose : bool) (t : wtree ninfo) : list (wtree ninfo) :=
  match t with W n d kids =>
    if negb (is_elem d) then (if loose then [] else [t])
    else if loose && negb (useful d) then flat_map (settled true) kids
    else if unreferred d then
      match flat_map pick kids with [] => [] | _ => [W n d (flat_map (settled true) kids)] end
    else [W n d (flat_map (settled false) kids)]
  end.

Lemma settled_pick : forall t, flat_map (settled false) (pick t) = settled true t.
Proof.
  apply (wtree_ind' (fun t => flat_map (settled false) (pick t) = settled true t)). intros n d kids IH.
  assert (A : flat_map (settled false) (flat_map pick kids) = flat_map (settled true) kids).
  { induction IH as [|k r H _ IHr]; [reflexivity|]. cbn [flat_map]. rewrite flat_map_app, H, IHr. reflexivity. }
  cbn [pick settled]. destruct (useful d) eqn:U; cbn [negb andb].
  - rewrite (useful_elem _ U). cbn [negb flat_map settled]. rewrite (useful_elem _ U). cbn [negb andb]. rewrite app_nil_r. reflexivity.
  - destruct (is_elem d); cbn [negb]; [exact A|reflexivity].
Qed.
Lemma settled_picks l : flat_map (settled false) (flat_map pick l) = flat_map (settled true) l.
Proof. induction l as [|k r IH]; [reflexivity|]. cbn [flat_map]. rewrite flat_map_app, settled_pick, IH. reflexivity. Qed.

Definition settles (t : wtree ninfo) : Prop := forall anc A B, runs (anc, A, B) tt t tt (settled false t).
Lemma settles_list anc : forall l A, Forall settles l -> runs_list anc A tt l tt (flat_map (settled false) l).
Proof. induction l as [|t r IH]; intros A HF; [constructor|]. inversion HF; subst. cbn [flat_map]. econstructor; [apply H1|apply IH; assumption]. Qed.

Lemma d_runs : forall t, settles t /\ Forall settles (pick t).
Proof.
  apply (wtree_ind' (fun t => settles t /\ Forall settles (pick t))). intros n d kids IH.
  assert (K : Forall settles kids) by (eapply Forall_impl; [|exact IH]; intros t Ht; apply Ht).
  assert (Pk : Forall settles (flat_map pick kids)).
  { apply Forall_forall. intros u Hu. apply in_flat_map in Hu. destruct Hu as (k & Hk & Hu). rewrite Forall_forall in IH.
    destruct (IH k Hk) as [_ Q]. rewrite Forall_forall in Q. apply Q, Hu. }
  assert (S : settles (W n d kids)).
  { intros anc A B. cbn [settled]. destruct (is_elem d) eqn:E; cbn [negb andb]; [|apply R_leaf; [exact E|reflexivity]].
    destruct (unreferred d) eqn:Eu.
    - destruct (flat_map pick kids) as [|u r] eqn:Ek.
      + eapply R_gone with (x1 := tt) (x2 := tt) (kids' := flat_map (settled false) kids); [exact E| | |exact Logic.I].
        * split; [exact E|]. cbn [wdata wkids]. rewrite Eu, Ek. reflexivity.
        * cbn [wkids]. apply settles_list, K.
      + eapply R_keep with (x1 := tt) (x2 := tt) (d := d) (kids := flat_map pick kids) (kids' := flat_map (settled true) kids); [exact E| | |reflexivity].
        * split; [exact E|]. cbn [wdata wkids]. rewrite Eu, Ek. reflexivity.
        * rewrite <- settled_picks. apply settles_list. rewrite Ek. exact Pk.
    - eapply R_keep with (x1 := tt) (x2 := tt) (d := d) (kids := kids) (kids' := flat_map (settled false) kids); [exact E| | |reflexivity].
      + split; [exact E|]. cbn [wdata wkids]. rewrite Eu. reflexivity.
      + apply settles_list, K. }
  split; [exact S|]. cbn [pick]. destruct (useful d); [constructor; [exact S|constructor]|]. destruct (is_elem d); [exact Pk|constructor].
Qed.

(** ** What is left *)
Lemma style_drawn : forall k, In k elem_table -> e_id k = lit "Style" -> contains (e_info k) 1 = false.
Proof.
  assert (A : forallb (fun k => negb (text_eqb (e_id k) (lit "Style")) || negb (contains (e_info k) 1)) elem_table = true) by (vm_compute; reflexivity).
  intros k Hk E. rewrite forallb_forall in A. specialize (A k Hk). rewrite E, text_eqb_refl in A. cbn [negb orb] in A. apply negb_true_iff, A.
Qed.
Lemma elem_new_known p local k : elem_new p local = EKnown k -> In k elem_table.
Proof.
  unfold elem_new. destruct (prefix_unaliased p) as [[]| |]; try discriminate.
  destruct (find _ elem_table) as [k'|] eqn:F; [|discriminate]. apply find_some in F. destruct (is_aliased p); [discriminate|]. intros [= <-]. apply F.
Qed.
Lemma useful_not_unreferred d : recognised d -> useful d = true -> unreferred d = false.
Proof.
  intros R U. unfold useful in U. apply andb_true_iff in U. destruct U as [E U]. unfold unreferred. destruct (marked d); [reflexivity|].
  rewrite orb_false_r in U. cbn [negb andb]. destruct d as [e attrs|tx|k tx]; try discriminate. destruct R as (p & local & He).
  unfold node_is, never_drawn in *. destruct e as [k|q k|q l]; cbn [elem_is elem_info] in *; [| |discriminate].
  - apply text_eqb_spec in U. rewrite U. cbn [orb]. rewrite (style_drawn k (elem_new_known _ _ _ (eq_sym He)) U). reflexivity.
  - apply text_eqb_spec in U. rewrite U. reflexivity.
Qed.

Lemma pick_useful : forall t, has_useful t = match pick t with [] => false | _ => true end.
Proof.
  apply (wtree_ind' (fun t => has_useful t = match pick t with [] => false | _ => true end)). intros n d kids IH. cbn [has_useful pick].
  destruct (useful d); [reflexivity|]. cbn [orb]. destruct (is_elem d); [|reflexivity]. cbn [andb].
  induction IH as [|k r H _ IHr]; [reflexivity|]. cbn [existsb flat_map]. rewrite H, IHr. destruct (pick k); reflexivity.
Qed.
Lemma picks_useful l : existsb has_useful l = match flat_map pick l with [] => false | _ => true end.
Proof. induction l as [|k r IH]; [reflexivity|]. cbn [existsb flat_map]. rewrite pick_useful, IH. destruct (pick k); reflexivity. Qed.

Definition sound (t : wtree ninfo) : Prop := leafy t /\ all_nodes recognised t.
Lemma settled_rows : forall t, leafy t -> all_nodes recognised t -> forall p loose, flat_map (rows p) (settled loose t) = survivors p loose t.
Proof.
  apply (wtree_ind' (fun t => leafy t -> all_nodes recognised t -> forall p loose, flat_map (rows p) (settled loose t) = survivors p loose t)).
  intros n d kids IH L R p loose. inversion L as [? ? ? Lk La]; subst. inversion R as [? ? ? Rd Ra]; subst.
  assert (A : forall q b, flat_map (rows q) (flat_map (settled b) kids) = flat_map (survivors q b) kids).
  { intros q b. clear -IH La Ra. induction kids as [|k r IHr]; [reflexivity|]. inversion IH; inversion La; inversion Ra; subst. cbn [flat_map].
    rewrite flat_map_app, IHr by assumption. f_equal. apply H1; assumption. }
  cbn [settled survivors]. destruct (is_elem d) eqn:E; cbn [negb].
  - rewrite picks_useful. destruct (useful d) eqn:U; cbn [negb]; rewrite ?andb_false_r, ?andb_true_r.
    + rewrite (useful_not_unreferred d Rd U). cbn [flat_map rows]. rewrite app_nil_r, A. reflexivity.
    + destruct loose; [apply A|]. destruct (unreferred d).
      * destruct (flat_map pick kids); [reflexivity|]. cbn [flat_map rows]. rewrite app_nil_r, A. reflexivity.
      * cbn [flat_map rows]. rewrite app_nil_r, A. reflexivity.
  - rewrite (Lk eq_refl). assert (U : useful d = false) by (unfold useful; rewrite E; reflexivity). rewrite U.
    assert (Eu : unreferred d = false) by (destruct d; [discriminate|reflexivity|reflexivity]). rewrite Eu. destruct loose; reflexivity.
Qed.
Lemma all_settled_rows p l : Forall leafy l -> Forall (all_nodes recognised) l ->
  flat_map (rows p) (flat_map (settled false) l) = flat_map (survivors p false) l.
Proof.
  induction l as [|t r IH]; [reflexivity|]. intros L R. inversion L; inversion R; subst. cbn [flat_map]. rewrite flat_map_app, IH by assumption.
  f_equal. apply settled_rows; assumption.
Qed.

Definition row_node (r : row) : nat * ninfo := (snd (fst r), snd r).
Definition is_useful (x : nat * ninfo) : bool := useful (snd x).
Lemma rows_nodes : forall t p, map row_node (rows p t) = nodes_of t.
Proof.
  apply (wtree_ind' (fun t => forall p, map row_node (rows p t) = nodes_of t)). intros n d kids IH p. cbn [rows map nodes_of]. f_equal.
  generalize n. induction IH as [|k r H _ IHr]; intros q; [reflexivity|]. cbn [flat_map]. rewrite map_app, H, IHr. reflexivity.
Qed.
Lemma all_rows_nodes l p : map row_node (flat_map (rows p) l) = flat_map nodes_of l.
Proof. induction l as [|t r IH]; [reflexivity|]. cbn [flat_map]. rewrite map_app, rows_nodes, IH. reflexivity. Qed.
Lemma no_useful : forall t, leafy t -> has_useful t = false -> filter is_useful (nodes_of t) = [].
Proof.
  apply (wtree_ind' (fun t => leafy t -> has_useful t = false -> filter is_useful (nodes_of t) = [])). intros n d kids IH L H.
  inversion L as [? ? ? Lk La]; subst. cbn [has_useful] in H. apply orb_false_iff in H. destruct H as [H1 H2]. cbn [nodes_of filter]. unfold is_useful at 1. cbn [snd]. rewrite H1.
  destruct (is_elem d); cbn [andb] in H2; [|rewrite (Lk eq_refl); reflexivity].
  clear -IH La H2. induction kids as [|k r IHr]; [reflexivity|]. inversion IH; inversion La; subst. cbn [existsb] in H2. apply orb_false_iff in H2.
  cbn [flat_map]. rewrite filter_app, IHr by tauto. rewrite H1 by tauto. reflexivity.
Qed.
Lemma survivors_useful : forall t, leafy t -> forall p loose, filter is_useful (map row_node (survivors p loose t)) = filter is_useful (nodes_of t).
Proof.
  apply (wtree_ind' (fun t => leafy t -> forall p loose, filter is_useful (map row_node (survivors p loose t)) = filter is_useful (nodes_of t))).
  intros n d kids IH L p loose. inversion L as [? ? ? Lk La]; subst.
  assert (A : forall q b, filter is_useful (map row_node (flat_map (survivors q b) kids)) = filter is_useful (flat_map nodes_of kids)).
  { intros q b. clear -IH La. induction kids as [|k r IHr]; [reflexivity|]. inversion IH; inversion La; subst. cbn [flat_map].
    rewrite map_app, !filter_app, IHr by assumption. f_equal. apply H1; assumption. }
  assert (Fc : forall x l, filter is_useful (x :: l) = if useful (snd x) then x :: filter is_useful l else filter is_useful l) by reflexivity.
  cbn [survivors nodes_of]. rewrite Fc. cbn [snd]. destruct (useful d) eqn:U.
  - cbn [map]. rewrite Fc. unfold row_node at 1. cbn [snd fst]. rewrite U, A. reflexivity.
  - destruct loose; [destruct (is_elem d); [apply A|rewrite (Lk eq_refl); reflexivity]|]. destruct (unreferred d).
    + destruct (existsb has_useful kids) eqn:H.
      * cbn [map]. rewrite Fc. unfold row_node at 1. cbn [snd fst]. rewrite U. apply A.
      * cbn [map filter]. symmetry. clear -La H. induction kids as [|k r IHr]; [reflexivity|]. inversion La; subst. cbn [existsb] in H.
        apply orb_false_iff in H. cbn [flat_map]. rewrite filter_app, no_useful, IHr by tauto. reflexivity.
    + cbn [map]. rewrite Fc. unfold row_node at 1. cbn [snd fst]. rewrite U. apply A.
Qed.

Theorem defs_document : forall root d l, Forall leafy l -> Forall (all_nodes recognised) l -> exists f0, forall f s,
  f0 <= f -> w_info s root = d -> below s root l -> NoDup (root :: all_ids l) ->
  exists s' out, remove_useless_defs true f s root = Some s' /\ below s' root out /\
    flat_map (rows root) out = flat_map (survivors root false) l /\
    filter (fun x => useful (snd x)) (flat_map nodes_of out) = filter (fun x => useful (snd x)) (flat_map nodes_of l) /\
    exists g, read_all g s' 0 (child_nodes_iter (w_heap s') root) = Some (flat_map (depths 0) out).
Proof.
  intros root d l L R. assert (Q : runs_list [(root, d)] [] tt l tt (flat_map (settled false) l)).
  { apply settles_list, Forall_forall. intros t _. apply d_runs. }
  destruct (document_correct is_elem d_enter d_exit d_exit d_gone defs_enter keep_exit keep_leaf
    d_enter_ok d_exit_ok c_leaf_ok d_gone_ok root d tt l tt _ Q) as (f0 & H).
  exists f0. intros f s Hf Hd Hb N. destruct (H f s Hf (unit_same _ _) Hd Hb N) as (s' & E & _ & Eb & _ & No & _).
  exists s', (flat_map (settled false) l). split; [exact E|]. split; [exact Eb|].
  pose proof (all_settled_rows root l L R) as Er. split; [exact Er|]. split.
  - rewrite <- (all_rows_nodes _ root), Er. clear -L. induction L as [|t r Ht _ IH]; [reflexivity|]. cbn [flat_map].
    rewrite map_app, !filter_app, IH. f_equal. apply survivors_useful, Ht.
  - destruct (read_below s' root _ Eb No 0) as (g & Hg). exists g. apply Hg, le_n.
Qed.
