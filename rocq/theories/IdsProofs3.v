(** Proofs about [cleanup_ids]: the whole job. *)
From Coq Require Import String List NArith Bool Arith Lia Permutation.
Import ListNotations.
From Verif Require Import Chars IdsModel IdsSpec IdsProofs IdsProofs2.

Lemma forest_kids_incl root f e : In e (preorder_forest (t_kids root)) -> In e (preorder_forest (root :: f)).
Proof.
  destruct root as [x k]. cbn [t_kids]. unfold preorder_forest at 2. cbn [flat_map]. rewrite preorder_node.
  intros H. right. apply in_or_app. left. exact H.
Qed.

Definition fin (m : list (text * text)) (repl : list text) (a : attr) : attr :=
  Attr (aname a) (map (ren_piece (fun t => mem_text t repl) m) (apieces a)).

Section Main.
Variable numeric : text -> bool.
Variable o : options.
Variable doc : list tree.
Variable st : store.
Hypothesis WF : well_formed doc st.
Hypothesis UQ : unique_ids doc st.
Hypothesis IDS : forall e t, In e (elements doc) -> has_id st e t -> numeric t = false /\ has_percent t = false.

Lemma prepare_doc order : Permutation order (preorder_forest doc) ->
  exists st1 p, fold_left (prepare_element numeric o) order (st, Prep [] []) = (st1, p) /\
    (forall e, st1 e = st e) /\ prep_inv o st order p.
Proof.
  intros Pm. destruct WF as [ND W].
  assert (forall e, In e order <-> In e (elements doc)) as IN.
  { intros e. split; apply Permutation_in; [exact Pm|symmetry; exact Pm]. }
  destruct (prepare_spec numeric o st order [] (Prep [] []) st) as (st1 & p & E & Q & I).
  - cbn [app]. eapply Permutation_NoDup; [symmetry; exact Pm|exact ND].
  - auto.
  - constructor; [intros t []|intros e t []].
  - intros e He. apply W, IN, He.
  - intros e t He. apply IDS. now apply IN.
  - intros e1 e2 t H1 H2. apply UQ; now apply IN.
  - exists st1, p. auto.
Qed.

Lemma all_refs_in es e a p t : In e es -> In a (st e) -> In p (apieces a) -> tracked p = Some t ->
  In (Rename e (aname a) t) (all_refs st es).
Proof.
  intros He Ha Hp T. unfold all_refs. apply in_flat_map. exists e. split; auto.
  apply in_flat_map. exists a. split; auto. apply in_map. apply refs_spec. eauto.
Qed.
Lemma all_refs_from es r : In r (all_refs st es) -> In (r_elem r) es /\
  exists a p, In a (st (r_elem r)) /\ aname a = r_name r /\ In p (apieces a) /\ tracked p = Some (r_id r).
Proof.
  unfold all_refs. intros H. apply in_flat_map in H. destruct H as (e & He & H).
  apply in_flat_map in H. destruct H as (a & Ha & H). apply in_map_iff in H. destruct H as (t & <- & Ht).
  apply refs_spec in Ht. destruct Ht as (p & Hp & T). cbn. split; auto. exists a, p. auto.
Qed.

(** What the job computes, with renaming switched on. *)
Record outcome (st' : store) (repl P us : list text) (m : list (text * text)) (below : list nat) : Prop := {
  oc_from : forall t, In t repl -> has_percent t = true \/ is_preserved o t = false;
  oc_to : forall e t, In e (elements doc) -> has_id st e t ->
            if is_preserved o t then In t P else In t repl;
  oc_refs : forall e a p t, In e (elements doc) -> In a (st e) -> In p (apieces a) -> tracked p = Some t ->
            if mem_text t repl
            then exists v, lookup t m = Some v /\ letters v /\ ~ In v P /\ (aname a <> 0 -> In v us)
            else In t P;
  oc_inj : forall k1 k2 v, lookup k1 m = Some v -> lookup k2 m = Some v -> k1 = k2;
  oc_used : forall u, In u us -> exists t, lookup t m = Some u /\ referenced doc st t;
  oc_below : forall e, In e below -> In e (elements doc);
  oc_store : forall e, In e (elements doc) -> st' e =
       if existsb (Nat.eqb e) below then filter (keep_id us P) (map (fin m repl) (st e)) else map (fin m repl) (st e) }.

Lemma cleanup_outcome ignored : o_minify o = true -> (ignored = false \/ o_force o = true) -> doc <> [] ->
  (forall e a, In e (elements doc) -> In a (st e) -> aname a <> 0 -> unmixed a) ->
  exists st' repl P us m below, cleanup_ids numeric o ignored doc st = Some st' /\ outcome st' repl P us m below /\
    (o_remove o = true -> forall root rest, doc = root :: rest ->
       forall e, In e below <-> In e (preorder_forest (t_kids root))).
Proof.
  intros Mn Ig NE UM. unfold cleanup_ids.
  assert (ignored && negb (o_force o) = false) as ->.
  { destruct Ig as [->| ->]; [reflexivity|apply andb_false_r]. }
  destruct (breadth_first_spec doc) as (order & EO & PO). rewrite EO.
  destruct (prepare_doc order PO) as (st1 & p & EP & Q1 & [PF PT]). rewrite EP.
  destruct (set_prevent_spec gen_default (preserved p)) as (g0 & E0 & O0 & P0); [apply default_ok|]. rewrite E0.
  rewrite (track_flat (replaceable p) st st1 (preorder_forest doc) ([], g0) Q1).
  destruct (track_spec (replaceable p) (all_refs st (preorder_forest doc)) [] g0 O0) as (g & ET & OG & I1 & I2).
  rewrite ET. cbn [app].
  set (rs := filter (fun r => mem_text (r_id r) (replaceable p)) (all_refs st (preorder_forest doc))) in *.
  destruct WF as [ND W].
  assert (forall e, In e order <-> In e (elements doc)) as IN.
  { intros e. split; apply Permutation_in; [exact PO|symmetry; exact PO]. }
  destruct (loop_spec st (elements doc) (replaceable p)
              (fun e He => proj1 (W e He))
              (fun e a He Ha => match Nat.eq_dec (aname a) 0 with
                 | left Z => ltac:(left; destruct (proj2 (W e He) a Ha Z) as (x & EX); rewrite EX;
                      intros p1 p2 t1 t2 [<-|[]] [<-|[]] N1 N2; simpl in N1, N2; congruence)
                 | right Z => UM e a He Ha Z end)
              (prevent g) rs [] st1 (Renaming [] [] g)) as (st2 & s2 & EL & [OK PV DN US ST]).
  { apply Forall_forall. intros r Hr. apply filter_In in Hr. destruct Hr as [Hr Hm].
    apply all_refs_from in Hr. destruct Hr as [He (a & p1 & H)]. split; [exact He|]. split; [exact Hm|]. exists a, p1. exact H. }
  { constructor; cbn [ids minified used].
    - split; [exact OG|]. cbn. split; intros; discriminate.
    - reflexivity.
    - intros r [].
    - intros u [].
    - intros e. rewrite Q1. induction (st e) as [|a l IH]; auto. cbn [map]. f_equal; auto.
      unfold ren. destruct a as [n l0]. cbn [aname apieces]. f_equal.
      rewrite <- (map_id l0) at 1. apply map_ext. intros x. unfold ren_piece. cbn. now destruct (tracked x). }
  cbn [app] in *.
  assert (exists root rest, doc = root :: rest) as (root & rest & ED).
  { destruct doc as [|root rest]; [congruence|eauto]. }
  assert (hd_error doc = Some root) as HD by (rewrite ED; reflexivity). rewrite HD, Mn, EL.
  assert (forall e, In e (elements doc) -> st2 e = map (fin (minified s2) (replaceable p)) (st e)) as ST2.
  { intros e He. rewrite ST. apply map_ext_in. intros a Ha. unfold ren, fin. f_equal.
    apply map_ext_in. intros x Hx. unfold ren_piece. destruct (tracked x) as [t|] eqn:T; auto.
    assert (done_has rs e (aname a) t = mem_text t (replaceable p)) as ->; auto.
    destruct (mem_text t (replaceable p)) eqn:M.
    - apply done_has_spec. apply filter_In. split; [|exact M]. eapply all_refs_in; eauto.
    - destruct (done_has rs e (aname a) t) eqn:D; auto. apply done_has_spec in D. apply filter_In in D.
      destruct D as [_ D]. cbn [r_id] in D. congruence. }
  assert (forall st' below, (forall e, In e below -> In e (elements doc)) ->
     (forall e, In e (elements doc) -> st' e =
       if existsb (Nat.eqb e) below then filter (keep_id (used s2) (prevent g)) (st2 e) else st2 e) ->
     outcome st' (replaceable p) (prevent g) (used s2) (minified s2) below) as OC.
  { intros st' below HB HS. constructor; auto.
    - intros t Ht. destruct (PF t Ht) as [?|(e & _ & _ & ?)]; auto.
    - intros e t He HI. apply IN in He. specialize (PT e t He HI). destruct (is_preserved o t); auto.
      apply I1. rewrite P0. exact PT.
    - intros e a x t He Ha Hx T. pose proof (all_refs_in _ e a x t He Ha Hx T) as HR.
      destruct (mem_text t (replaceable p)) eqn:M.
      + assert (In (Rename e (aname a) t) rs) as Hrs by (apply filter_In; auto).
        destruct (DN _ Hrs) as (v & L & U). cbn [r_id r_name] in *.
        destruct OK as (_ & VS & _). destruct (VS _ _ L) as (L1 & L2 & _). rewrite PV in L2.
        exists v. repeat split; auto; apply L1.
      + apply (I2 _ HR M).
    - apply OK.
    - intros u Hu. destruct (US u Hu) as (r & Hr & Hn & L). exists (r_id r). split; auto.
      apply filter_In in Hr. destruct Hr as [Hr _]. apply all_refs_from in Hr.
      destruct Hr as [He (a & x & Ha & Han & Hx & T)]. exists (r_elem r), a, x. repeat split; auto.
      + congruence.
      + now apply names_tracked.
    - intros e He. rewrite HS by exact He. rewrite ST2 by exact He. reflexivity. }
  destruct (o_remove o).
  - destruct (breadth_first_spec (t_kids root)) as (below & EB & PB). rewrite EB.
    eexists _, (replaceable p), (prevent g), (used s2), (minified s2), below.
    split; [reflexivity|]. rewrite PV. split.
    + apply OC.
      * intros e He. rewrite ED. apply forest_kids_incl. eapply Permutation_in; eauto.
      * intros e He. apply remove_spec.
    + intros _ r rr EQ. rewrite ED in EQ. injection EQ as <- <-. intros e.
      split; apply Permutation_in; [exact PB|symmetry; exact PB].
  - eexists _, (replaceable p), (prevent g), (used s2), (minified s2), [].
    split; [reflexivity|]. split; [|discriminate]. apply OC; [intros e []|reflexivity].
Qed.

(** * Consequences *)
Section Consequences.
Variables (st' : store) (repl P us : list text) (m : list (text * text)) (below : list nat).
Hypothesis OC : outcome st' repl P us m below.

(** The new id of an element that had the id [t]. *)
Definition new_id (t : text) : text :=
  if mem_text t repl then match lookup t m with Some v => v | None => t end else t.

Lemma id_repl e t : In e (elements doc) -> has_id st e t -> mem_text t repl = negb (is_preserved o t).
Proof.
  intros He HI. pose proof (oc_to _ _ _ _ _ _ OC e t He HI) as H.
  destruct (is_preserved o t) eqn:Pt; cbn [negb].
  - apply mem_text_false. intros Hr. destruct (oc_from _ _ _ _ _ _ OC t Hr) as [H1|H1]; [|congruence].
    destruct (IDS e t He HI). congruence.
  - now apply mem_text_spec.
Qed.
Lemma id_case e t : In e (elements doc) -> has_id st e t ->
  (mem_text t repl = true /\ exists v, lookup t m = Some v /\ letters v /\ ~ In v P) \/
  (mem_text t repl = false /\ In t P).
Proof.
  intros He HI. pose proof (id_repl e t He HI) as R.
  destruct HI as (a & Ha & Hn & Hp).
  pose proof (oc_refs _ _ _ _ _ _ OC e a (IdRef t) t He Ha) as H. rewrite Hp in H.
  specialize (H (or_introl eq_refl) eq_refl).
  destruct (mem_text t repl); [left|right]; split; auto. destruct H as (v & A & B & C & _). eauto.
Qed.

Lemma fin_id a t : aname a = 0 -> apieces a = [IdRef t] -> fin m repl a = Attr 0 [IdRef (new_id t)].
Proof.
  intros Hn Hp. unfold fin. rewrite Hn, Hp. cbn [map]. unfold ren_piece. cbn [tracked]. unfold new_id.
  destruct (mem_text t repl); auto. destruct (lookup t m); reflexivity.
Qed.

(** An element's ids before and after. *)
Lemma has_id_after e x : In e (elements doc) -> has_id st' e x <->
  exists t, has_id st e t /\ x = new_id t /\ (In e below -> In x us \/ In x P).
Proof.
  intros He.
  assert (forall a t, In a (st e) -> aname a = 0 -> fin m repl a = Attr 0 [IdRef t] ->
            exists t0, apieces a = [IdRef t0] /\ t = new_id t0) as Back.
  { intros a t Ha Hn E. destruct WF as [_ W]. destruct (proj2 (W e He) a Ha Hn) as (t0 & Ht).
    exists t0. split; auto. rewrite (fin_id a t0 Hn Ht) in E. congruence. }
  assert (forall x0, In x0 us \/ In x0 P <-> keep_id us P (Attr 0 [IdRef x0]) = true) as K.
  { intros x0. unfold keep_id, as_id. cbn [aname apieces Nat.eqb]. rewrite orb_true_iff, !mem_text_spec. tauto. }
  split.
  - intros (a' & Ha' & Hn' & Hp'). rewrite (oc_store _ _ _ _ _ _ OC e He) in Ha'.
    assert (exists a, In a (st e) /\ fin m repl a = a' /\ (In e below -> In x us \/ In x P)) as (a & Ha & Ea & Hk).
    { destruct (existsb (Nat.eqb e) below) eqn:B.
      - apply filter_In in Ha'. destruct Ha' as [Ha' Kp]. apply in_map_iff in Ha'. destruct Ha' as (a & E & Ha).
        exists a. split; [exact Ha|]. split; [exact E|]. intros _. apply K.
        destruct a' as [n' l']. cbn in Hn', Hp'. now subst.
      - apply in_map_iff in Ha'. destruct Ha' as (a & E & Ha). exists a. split; [exact Ha|]. split; [exact E|].
        intros HB. exfalso. assert (existsb (Nat.eqb e) below = true) as B2 by (apply existsb_exists; exists e; split; auto; apply Nat.eqb_refl).
        congruence. }
    assert (aname a = 0) as Hn by (subst a'; exact Hn').
    assert (fin m repl a = Attr 0 [IdRef x]) as EF by (rewrite Ea; destruct a'; cbn in *; now subst).
    destruct (Back a x Ha Hn EF) as (t & Ht & ->). exists t. split; [|split; auto]. exists a. auto.
  - intros (t & (a & Ha & Hn & Hp) & -> & Hk). exists (fin m repl a).
    pose proof (fin_id a t Hn Hp) as EF. rewrite EF. split; [|auto]. rewrite (oc_store _ _ _ _ _ _ OC e He).
    assert (In (Attr 0 [IdRef (new_id t)]) (map (fin m repl) (st e))) as IM by (rewrite <- EF; now apply in_map).
    destruct (existsb (Nat.eqb e) below) eqn:B; auto. apply filter_In. split; auto.
    apply existsb_exists in B. destruct B as (y & Hy & Ey). apply Nat.eqb_eq in Ey. subst y.
    exact (proj1 (K _) (Hk Hy)).
Qed.

Lemma new_id_inj e1 e2 t1 t2 : In e1 (elements doc) -> In e2 (elements doc) ->
  has_id st e1 t1 -> has_id st e2 t2 -> new_id t1 = new_id t2 -> t1 = t2.
Proof.
  intros H1 H2 I1 I2. unfold new_id.
  destruct (id_case e1 t1 H1 I1) as [(-> & v1 & L1 & _ & N1)|(-> & N1)];
  destruct (id_case e2 t2 H2 I2) as [(-> & v2 & L2 & _ & N2)|(-> & N2)]; rewrite ?L1, ?L2; intros E; auto.
  - subst v2. apply (oc_inj _ _ _ _ _ _ OC _ _ v1); auto.
  - subst. contradiction.
  - subst. contradiction.
Qed.

Lemma unique_after : unique_ids doc st'.
Proof.
  intros e1 e2 x H1 H2 I1 I2. apply has_id_after in I1, I2; auto.
  destruct I1 as (t1 & I1 & E1 & _), I2 as (t2 & I2 & E2 & _).
  assert (t1 = t2) as -> by (eapply (new_id_inj e1 e2); eauto; congruence).
  eapply UQ; eauto.
Qed.

Lemma points_same e0 a p : In e0 (elements doc) -> In a (st e0) -> aname a <> 0 -> In p (apieces a) ->
  forall e, In e (elements doc) ->
    (points st p e <-> points st' (ren_piece (fun t => mem_text t repl) m p) e).
Proof.
  intros He0 Ha Hn Hp e He. unfold points, ren_piece.
  destruct (tracked p) as [t|] eqn:T.
  2:{ split; intros (x & N & _); apply names_tracked in N; congruence. }
  pose proof (oc_refs _ _ _ _ _ _ OC e0 a p t He0 Ha Hp T) as R.
  destruct (mem_text t repl) eqn:M.
  - destruct R as (v & L & Lv & Nv & U). rewrite L. split.
    + intros (x & N & HI). apply names_tracked in N. assert (x = t) as -> by congruence.
      exists v. split; [apply names_tracked; now apply (set_name_tracked v p t)|].
      apply has_id_after; auto. exists t. split; auto. split; [unfold new_id; now rewrite M, L|auto].
    + intros (x & N & HI). apply names_tracked in N. rewrite (set_name_tracked v p t Lv T) in N. inversion N; subst x.
      apply has_id_after in HI; auto. destruct HI as (t' & HI & E & _).
      exists t. split; [now apply names_tracked|]. unfold new_id in E.
      destruct (id_case e t' He HI) as [(M' & v' & L' & _)|(M' & N')]; rewrite M' in E.
      * rewrite L' in E. subst v'. assert (t' = t) as -> by (apply (oc_inj _ _ _ _ _ _ OC _ _ v); auto). exact HI.
      * subst. contradiction.
  - split.
    + intros (x & N & HI). apply names_tracked in N. assert (x = t) as -> by congruence.
      exists t. split; [now apply names_tracked|]. apply has_id_after; auto. exists t. split; auto.
      split; [unfold new_id; now rewrite M|auto].
    + intros (x & N & HI). apply names_tracked in N. assert (x = t) as -> by congruence.
      exists t. split; [now apply names_tracked|]. apply has_id_after in HI; auto. destruct HI as (t' & HI & E & _).
      unfold new_id in E. destruct (id_case e t' He HI) as [(M' & v' & L' & _ & N')|(M' & N')]; rewrite M' in E.
      * rewrite L' in E. subst. contradiction.
      * now subst.
Qed.

Lemma ren_kind D p : same_kind p (ren_piece D m p).
Proof.
  unfold ren_piece, same_kind. destruct (tracked p) as [t|] eqn:T; auto. destruct (D t); auto.
  destruct (lookup t m); auto. right. destruct p as [u|x|x|x]; try discriminate T; simpl.
  - left. destruct (hash_case u) as [(f & ->)|Q]; [eauto|]. simpl in T. rewrite Q in T. discriminate.
  - right. eauto.
Qed.

Lemma references_after e : In e (elements doc) ->
  Forall2 (same_references doc st st') (filter not_id (st e)) (filter not_id (st' e)).
Proof.
  intros He. rewrite (oc_store _ _ _ _ _ _ OC e He).
  assert (forall l, filter not_id (filter (keep_id us P) (map (fin m repl) l)) = filter not_id (map (fin m repl) l)) as EF.
  { induction l as [|a l IH]; auto. cbn [map filter]. destruct (keep_id us P (fin m repl a)) eqn:K.
    - cbn [filter]. rewrite IH. reflexivity.
    - rewrite IH. unfold not_id at 2. unfold keep_id, as_id in K. destruct (Nat.eqb (aname (fin m repl a)) 0); [reflexivity|discriminate]. }
  assert (Forall2 (same_references doc st st') (filter not_id (st e)) (filter not_id (map (fin m repl) (st e)))) as G.
  { assert (forall l, incl l (st e) -> Forall2 (same_references doc st st') (filter not_id l) (filter not_id (map (fin m repl) l))) as G.
    { induction l as [|a l IH]; intros Il; [constructor|]. cbn [map filter].
      change (not_id (fin m repl a)) with (not_id a). 
      destruct (not_id a) eqn:NI; unfold not_id in NI; destruct (Nat.eqb_spec (aname a) 0) as [Z|Z]; try discriminate NI; clear NI; swap 1 2.
      - apply IH. intros x Hx. apply Il. right; auto.
      - constructor; [|apply IH; intros x Hx; apply Il; right; auto].
        split; [reflexivity|]. cbn [fin apieces].
        assert (In a (st e)) as Ha by (apply Il; left; auto).
        assert (forall q, incl q (apieces a) -> Forall2 (fun p p' => same_kind p p' /\
             forall e, In e (elements doc) -> (points st p e <-> points st' p' e)) q
             (map (ren_piece (fun t => mem_text t repl) m) q)) as GG.
        { induction q as [|y q IHq]; intros Iq; constructor.
          - split; [apply ren_kind|]. apply (points_same e a); auto. apply Iq. left; auto.
          - apply IHq. intros z Hz. apply Iq. right; auto. }
        apply GG. intros z; auto. }
    apply G. intros x; auto. }
  destruct (existsb (Nat.eqb e) below); [rewrite EF|]; exact G.
Qed.

Lemma preserved_after e t : In e (elements doc) -> has_id st e t -> is_preserved o t = true -> has_id st' e t.
Proof.
  intros He HI Pt. apply has_id_after; auto. exists t. split; auto.
  pose proof (id_repl e t He HI) as R. rewrite Pt in R. cbn in R. unfold new_id. rewrite R. split; auto.
  intros _. right. destruct (id_case e t He HI) as [(M & _)|(_ & H)]; [congruence|auto].
Qed.

Lemma referenced_after e t : In e (elements doc) -> has_id st e t -> referenced doc st t -> exists x, has_id st' e x.
Proof.
  intros He HI (e0 & a & p & H1 & H2 & H3 & H4 & H5). apply names_tracked in H5.
  exists (new_id t). apply has_id_after; auto. exists t. split; auto. split; auto.
  pose proof (oc_refs _ _ _ _ _ _ OC e0 a p t H1 H2 H4 H5) as R. unfold new_id.
  destruct (mem_text t repl); auto. destruct R as (v & L & _ & _ & U). rewrite L. auto.
Qed.

(** Nothing else survives below the root. *)
Lemma kept_after e x : In e (elements doc) -> In e below -> has_id st' e x ->
  exists t, has_id st e t /\ (is_preserved o t = true \/ referenced doc st t).
Proof.
  intros He HB HI. apply has_id_after in HI; auto. destruct HI as (t & HI & -> & K). exists t. split; auto.
  destruct (is_preserved o t) eqn:Pt; auto. right. unfold new_id in K.
  pose proof (id_repl e t He HI) as R. rewrite Pt in R. cbn in R.
  destruct (id_case e t He HI) as [(M & v & L & _ & NP)|(M & _)]; [|congruence].
  rewrite M, L in K. destruct (K HB) as [K'|K']; [|contradiction].
  destruct (oc_used _ _ _ _ _ _ OC v K') as (t' & L' & Rf).
  assert (t = t') as -> by (apply (oc_inj _ _ _ _ _ _ OC _ _ v); auto). exact Rf.
Qed.
End Consequences.

(** * The theorems *)
Hypothesis UM : forall e a, In e (elements doc) -> In a (st e) -> aname a <> 0 -> unmixed a.

Lemma same_references_refl e : Forall2 (same_references doc st st) (filter not_id (st e)) (filter not_id (st e)).
Proof.
  induction (filter not_id (st e)) as [|a l IH]; constructor; auto. split; auto.
  induction (apieces a); constructor; auto. split; [left; auto|tauto].
Qed.

Lemma minify_keeps_references ignored : o_minify o = true ->
  exists st', cleanup_ids numeric o ignored doc st = Some st' /\ unique_ids doc st' /\
    forall e, In e (elements doc) ->
      Forall2 (same_references doc st st') (filter not_id (st e)) (filter not_id (st' e)) /\
      (forall t, has_id st e t -> is_preserved o t = true -> has_id st' e t) /\
      (forall t, has_id st e t -> referenced doc st t -> exists x, has_id st' e x).
Proof.
  intros Mn. destruct doc as [|root rest] eqn:ED.
  - unfold cleanup_ids. destruct (ignored && negb (o_force o)).
    + eexists. split; [reflexivity|]. split; [intros ? ? ? []|intros e []].
    + cbn. eexists. split; [reflexivity|]. split; [intros ? ? ? []|intros e []].
  - destruct (ignored && negb (o_force o)) eqn:Ig.
    + exists st. unfold cleanup_ids. rewrite Ig. split; auto. split; auto. intros e He.
      split; [rewrite <- ED; apply same_references_refl|]. split; eauto.
    + rewrite <- ED in *. destruct (cleanup_outcome ignored Mn) as (st' & repl & P & us & m & below & E & OC & _).
      * destruct ignored; auto. cbn in Ig. destruct (o_force o); auto.
      * congruence.
      * exact UM.
      * exists st'. split; auto. split; [eapply unique_after; eauto|].
        intros e He. split; [|split].
        -- eapply references_after; eauto.
        -- intros t. eapply preserved_after; eauto.
        -- intros t. eapply referenced_after; eauto.
Qed.

Lemma removes_unused ignored root rest : o_minify o = true -> o_remove o = true ->
  (ignored = false \/ o_force o = true) -> doc = root :: rest ->
  exists st', cleanup_ids numeric o ignored doc st = Some st' /\
    forall e x, In e (preorder_forest (t_kids root)) -> has_id st' e x ->
      exists t, has_id st e t /\ (is_preserved o t = true \/ referenced doc st t).
Proof.
  intros Mn Rm Ig ED.
  destruct (cleanup_outcome ignored Mn Ig) as (st' & repl & P & us & m & below & E & OC & HB).
  - congruence.
  - exact UM.
  - exists st'. split; auto. intros e x He HI. assert (In e below) as B by (apply (HB Rm _ _ ED); auto).
    eapply kept_after; eauto. eapply oc_below; eauto.
Qed.
End Main.

Lemma switched_off numeric o ignored doc st : o_minify o = false -> o_remove o = false ->
  well_formed doc st -> unique_ids doc st ->
  (forall e t, In e (elements doc) -> has_id st e t -> numeric t = false /\ has_percent t = false) ->
  exists st', cleanup_ids numeric o ignored doc st = Some st' /\ forall e, st' e = st e.
Proof.
  intros Mn Rm WF UQ IDS. unfold cleanup_ids. destruct (ignored && negb (o_force o)); [eauto|].
  destruct (breadth_first_spec doc) as (order & EO & PO). rewrite EO.
  destruct (prepare_doc numeric o doc st WF UQ IDS order PO) as (st1 & p & EP & Q1 & _). rewrite EP.
  destruct (set_prevent_spec gen_default (preserved p)) as (g0 & E0 & O0 & P0); [apply default_ok|]. rewrite E0.
  rewrite (track_flat (replaceable p) st st1 (preorder_forest doc) ([], g0) Q1).
  destruct (track_spec (replaceable p) (all_refs st (preorder_forest doc)) [] g0 O0) as (g & ET & OG & _).
  rewrite ET. cbn [app]. destruct (hd_error doc); [|eauto]. rewrite Mn, Rm.
  destruct (loop_false (replaceable p) st (filter (fun r => mem_text (r_id r) (replaceable p)) (all_refs st (preorder_forest doc))) st1 (Renaming [] [] g)) as (st2 & s2 & E & H).
  - split; [exact OG|]. split; intros; discriminate.
  - exact Q1.
  - rewrite E. eauto.
Qed.
