(** Lemmas about child iteration, indexed insertion, and histories of edits. *)
From Coq Require Import List Arith Bool Lia Relations.
From Verif Require Import DomModel DomSpec DomProofs DomProofs2.
Import ListNotations.

(** The cursors of an iterator over [k self] of which the run [r] remains. *)
Definition iter_at (k : kidmap) (self : nat) (a r b : list nat) (it : iter) : Prop :=
  k self = a ++ r ++ b /\
  ((r = [] /\ front it = None /\ iend it = None) \/
   exists c r' z r'', r = c :: r' /\ r = r'' ++ [z] /\
     front it = Some c /\ front_next it = headof (r' ++ b) None /\
     iend it = Some z /\ end_prev it = lastof None (a ++ r'')).

Lemma oeqb_true o x : oeqb o x = true <-> o = Some x.
Proof. unfold oeqb; destruct o; [rewrite Nat.eqb_eq|]; split; congruence. Qed.

Lemma iter_start h k self : Repr h k -> iter_at k self [] (k self) [] (child_nodes_iter h self).
Proof.
  intros R. split; [simpl; rewrite app_nil_r; reflexivity|].
  unfold child_nodes_iter; simpl. rewrite (r_first h k R), (r_last h k R).
  destruct (snoc_case (k self)) as [E|(r''&z&E)]; rewrite E; [left; auto|right].
  rewrite lastof_snoc. destruct (r'' ++ [z]) as [|c r'] eqn:E'.
  { destruct r''; discriminate. }
  exists c, r', z, r''. simpl. repeat split; auto.
  - rewrite app_nil_r. destruct (repr_links h k self c [] r' R) as (_&_&N); [exact E|]. exact N.
  - destruct (repr_links h k self z r'' [] R) as (_&P&_); auto.
    rewrite E, <- E'; reflexivity.
Qed.

Lemma iter_next_sim h k self a r b it :
  Repr h k -> iter_at k self a r b it ->
  match r with
  | [] => iter_next h it = (it, None)
  | c :: r' => snd (iter_next h it) = Some c /\
               iter_at k self (a ++ [c]) r' b (fst (iter_next h it))
  end.
Proof.
  intros R (E & [(-> & F & I)|(c&r'&z&r''&E1&E2&F&FN&I&EP)]).
  - unfold iter_next. rewrite F. reflexivity.
  - subst r. unfold iter_next. rewrite F. simpl. split; auto.
    pose proof (r_nodup h k R self) as ND. rewrite E in ND.
    split; [rewrite <- app_assoc; exact E|].
    rewrite I. simpl. destruct (Nat.eqb_spec z c) as [->|Hzc]; simpl.
    + left. destruct r' as [|d r']; [auto|exfalso].
      destruct r'' as [|x r'']; [discriminate|].
      injection E2 as <- E2. apply nodup_app_r in ND. simpl in ND.
      inversion ND; subst. apply H1. change (In c ((d :: r') ++ b)). rewrite E2.
      apply in_or_app; left. apply in_or_app; simpl; auto.
    + right. destruct r' as [|d r'].
      { destruct r'' as [|x [|y r'']]; simpl in E2; try discriminate.
        injection E2 as ->. congruence. }
      destruct r'' as [|x r'']; [discriminate|].
      injection E2 as <- E2. exists d, r', z, r''. simpl.
      rewrite FN. simpl. repeat split; auto.
      * destruct (repr_links h k self d (a ++ [c]) (r' ++ b) R) as (_&_&N).
        { rewrite E, <- app_assoc. reflexivity. }
        exact N.
      * rewrite EP, <- app_assoc. reflexivity.
Qed.

Lemma iter_next_back_sim h k self a r b it :
  Repr h k -> iter_at k self a r b it ->
  match rev r with
  | [] => iter_next_back h it = (it, None)
  | z :: r' => snd (iter_next_back h it) = Some z /\
               iter_at k self a (rev r') (z :: b) (fst (iter_next_back h it))
  end.
Proof.
  intros R (E & [(-> & F & I)|(c&r'&z&r''&E1&E2&F&FN&I&EP)]).
  - unfold iter_next_back. rewrite I. reflexivity.
  - subst r. rewrite E2, rev_app_distr. simpl rev. simpl app.
    unfold iter_next_back. rewrite I. simpl. split; auto.
    pose proof (r_nodup h k R self) as ND. rewrite E in ND.
    rewrite rev_involutive.
    assert (E' : k self = a ++ r'' ++ z :: b).
    { rewrite E, E2, <- app_assoc. reflexivity. }
    split; [exact E'|].
    rewrite F. simpl. destruct (Nat.eqb_spec c z) as [->|Hzc]; simpl.
    + left. destruct r'' as [|x r'']; [auto|exfalso].
      injection E2 as <- E2. apply nodup_app_r in ND. simpl in ND.
      inversion ND; subst. apply H1.
      apply in_or_app; left. apply in_or_app; simpl; auto.
    + right. destruct (snoc_case r'') as [->|(s&y&->)].
      { simpl in E2. congruence. }
      assert (Hs : exists t, s ++ [y] = c :: t /\ r' = t ++ [z]).
      { destruct s as [|x s]; simpl in *; injection E2 as <- E2; eauto. }
      destruct Hs as (t & Et & ->).
      exists c, t, y, s. repeat split; auto; simpl.
      * rewrite FN, <- app_assoc. reflexivity.
      * rewrite EP, app_assoc, lastof_snoc. reflexivity.
      * rewrite EP, app_assoc, lastof_snoc.
        destruct (repr_links h k self y (a ++ s) (z :: b) R) as (_&P&_).
        { rewrite E', <- !app_assoc. reflexivity. }
        exact P.
Qed.

Lemma drive_deque h k self sched : Repr h k -> forall a r b it,
  iter_at k self a r b it -> snd (drive h it sched) = deque r sched.
Proof.
  intros R. induction sched as [|d s IH]; intros a r b it H; [reflexivity|].
  destruct d; simpl.
  - pose proof (iter_next_sim h k self a r b it R H) as S. destruct r as [|c r'].
    + rewrite S. specialize (IH _ _ _ _ H).
      destruct (drive h it s) eqn:D. simpl in *. rewrite <- IH. reflexivity.
    + destruct S as [S1 S2]. destruct (iter_next h it) as [it' o]. simpl in *. subst o.
      specialize (IH _ _ _ _ S2). destruct (drive h it' s) eqn:D. simpl in *.
      rewrite <- IH. reflexivity.
  - pose proof (iter_next_back_sim h k self a r b it R H) as S. destruct (rev r) as [|c r'] eqn:E.
    + assert (r = []) by (rewrite <- (rev_involutive r), E; reflexivity). subst r.
      rewrite S. specialize (IH _ _ _ _ H).
      destruct (drive h it s) eqn:D. simpl in *. rewrite <- IH. reflexivity.
    + destruct S as [S1 S2]. destruct (iter_next_back h it) as [it' o]. simpl in *. subst o.
      specialize (IH _ _ _ _ S2). destruct (drive h it' s) eqn:D. simpl in *.
      rewrite <- IH. reflexivity.
Qed.

Lemma collect_spec h k self : Repr h k -> forall fuel a r b it,
  iter_at k self a r b it -> length r < fuel -> collect fuel h it = Some r.
Proof.
  intros R. induction fuel as [|fuel IH]; intros a r b it H Hf; [lia|].
  simpl. pose proof (iter_next_sim h k self a r b it R H) as S. destruct r as [|c r'].
  - rewrite S. reflexivity.
  - destruct S as [S1 S2]. destruct (iter_next h it) as [it' o]. simpl in *. subst o.
    rewrite (IH _ _ _ _ S2); [reflexivity|lia].
Qed.

Lemma collect_back_spec h k self : Repr h k -> forall fuel a r b it,
  iter_at k self a r b it -> length r < fuel -> collect_back fuel h it = Some (rev r).
Proof.
  intros R. induction fuel as [|fuel IH]; intros a r b it H Hf; [lia|].
  simpl. pose proof (iter_next_back_sim h k self a r b it R H) as S.
  rewrite <- rev_length in Hf. destruct (rev r) as [|c r'].
  - rewrite S. reflexivity.
  - destruct S as [S1 S2]. destruct (iter_next_back h it) as [it' o]. simpl in *. subst o.
    rewrite (IH _ _ _ _ S2); [rewrite rev_involutive; reflexivity|].
    rewrite rev_length. lia.
Qed.

Lemma iter_nth_spec h k self : Repr h k -> forall i a r b it,
  iter_at k self a r b it -> iter_nth h it i = nth_error r i.
Proof.
  intros R. induction i as [|i IH]; intros a r b it H; simpl;
    pose proof (iter_next_sim h k self a r b it R H) as S; destruct r as [|c r'];
    try (rewrite S; reflexivity);
    destruct S as [S1 S2]; destruct (iter_next h it) as [it' o]; simpl in *; subst o; auto.
  eapply IH; eauto.
Qed.

Lemma item_spec h k self i : Repr h k -> item h self i = nth_error (k self) i.
Proof. intros R. eapply iter_nth_spec; eauto using iter_start. Qed.

Lemma child_index_spec h k self c : Repr h k -> forall fuel a r b it i,
  iter_at k self a r b it -> length r < fuel ->
  child_index_loop fuel h it c i = Some (option_map (fun j => i + j) (index_of c r)).
Proof.
  intros R. induction fuel as [|fuel IH]; intros a r b it i H Hf; [lia|].
  simpl. pose proof (iter_next_sim h k self a r b it R H) as S. destruct r as [|x r'].
  - rewrite S. reflexivity.
  - destruct S as [S1 S2]. destruct (iter_next h it) as [it' o]. simpl in *. subst o.
    destruct (x =? c); simpl; [rewrite Nat.add_0_r; reflexivity|].
    rewrite (IH _ _ _ _ (S i) S2) by lia.
    destruct (index_of c r'); simpl; [|reflexivity]. do 2 f_equal. lia.
Qed.

Lemma nth_error_split' (l : list nat) i x : nth_error l i = Some x ->
  l = firstn i l ++ x :: skipn (S i) l.
Proof.
  revert i; induction l as [|a l IH]; intros [|i]; simpl; intros H; try discriminate.
  - congruence.
  - f_equal. apply IH; auto.
Qed.

Lemma without_all k n : detached k n -> forall p, without n (k p) = k p.
Proof. intros D p. apply without_notin, D. Qed.

Lemma insert_repr h k self i n :
  Repr h k -> is_element_or_document (ndata (h self)) = true ->
  detached k n -> ~ within k n self ->
  Repr (insert h self i n) (upd k self (firstn i (k self) ++ n :: skipn i (k self))).
Proof.
  intros R K D W. destruct i as [|i]; [simpl|unfold insert].
  - rewrite (r_first h k R). destruct (k self) as [|f r] eqn:E; simpl.
    + pose proof (append_child_repr h k self n R K D W) as Q. rewrite E in Q. exact Q.
    + assert (Hn : n <> f). { intros ->. apply (D self). rewrite E; left; auto. }
      assert (Hi : In f (k self)) by (rewrite E; left; auto).
      pose proof (insert_before_repr h k self n f R Hi Hn W) as Q.
      refine (Repr_ext _ _ _ _ _ _ Q); [intros m; tauto|].
      intros p. unfold upd. rewrite without_all by auto.
      destruct (Nat.eqb_spec p self) as [->|]; auto.
      rewrite E. simpl. rewrite Nat.eqb_refl. reflexivity.
  - rewrite (item_spec h k self i R). destruct (nth_error (k self) i) as [p|] eqn:E.
    + pose proof (nth_error_split' _ _ _ E) as Es.
      assert (Hi : In p (k self)) by (eapply nth_error_In; eauto).
      assert (Hn : n <> p) by (intros ->; apply (D self); auto).
      pose proof (insert_after_repr h k self n p R Hi Hn W) as Q.
      refine (Repr_ext _ _ _ _ _ _ Q); [intros m; tauto|].
      intros q. unfold upd. rewrite without_all by auto.
      destruct (Nat.eqb_spec q self) as [->|]; auto.
      pose proof (r_nodup h k R self) as ND. rewrite Es in ND.
      destruct (nodup_mid _ _ _ ND) as (N1&_&_).
      assert (G : put_after p n (k self) =
                  firstn i (k self) ++ p :: n :: skipn (S i) (k self)).
      { rewrite Es at 1. apply put_after_split; exact N1. }
      rewrite G.
      assert (L : length (firstn i (k self)) = i).
      { apply firstn_length_le. apply Nat.lt_le_incl, nth_error_Some. congruence. }
      replace (firstn (S i) (k self)) with (firstn i (k self) ++ [p]).
      * rewrite <- app_assoc. reflexivity.
      * symmetry. rewrite Es at 1. rewrite firstn_app, L.
        rewrite (firstn_all2 (n := S i) (firstn i (k self))) by (rewrite L; lia).
        replace (S i - i) with 1 by lia. reflexivity.
    + apply nth_error_None in E.
      rewrite firstn_all2, skipn_all2 by lia.
      apply append_child_repr; auto.
Qed.

(** Node data survives every edit. *)
Lemma insert_before_ndata h a b c m : ndata (insert_before h a b c m) = ndata (h m).
Proof.
  unfold insert_before; cbv zeta; look. destruct (prev _); look; apply remove_ndata.
Qed.
Lemma insert_after_ndata h a b c m : ndata (insert_after h a b c m) = ndata (h m).
Proof.
  unfold insert_after; cbv zeta; look. destruct (next _); look; apply remove_ndata.
Qed.
Lemma append_child_ndata h a b m : ndata (append_child h a b m) = ndata (h m).
Proof. unfold append_child; cbv zeta; look. destruct (last _); look; auto. Qed.
Lemma append_ndata h a b m : ndata (append h a b m) = ndata (h m).
Proof.
  unfold append; cbv zeta; look. destruct (last _); look; apply remove_ndata.
Qed.
Lemma prepend_ndata h a b m : ndata (prepend h a b m) = ndata (h m).
Proof. unfold prepend; cbv zeta; look. destruct (first _); look; auto. Qed.
Lemma after_ndata h a b m : ndata (after h a b m) = ndata (h m).
Proof. unfold after. destruct (parent_node h a); auto. apply insert_after_ndata. Qed.
Lemma replace_with_ndata h a b m : ndata (replace_with h a b m) = ndata (h m).
Proof. unfold replace_with. rewrite remove_ndata. apply after_ndata. Qed.
Lemma replace_child_ndata h a b c m : ndata (replace_child h a b c m) = ndata (h m).
Proof.
  unfold replace_child; cbv zeta; look. destruct (prev (h c)), (next (h c)); look; auto.
Qed.
Lemma insert_ndata h a i b m : ndata (insert h a i b m) = ndata (h m).
Proof.
  unfold insert. destruct i.
  - destruct (first (h a)); [apply insert_before_ndata|apply append_child_ndata].
  - destruct (item h a i); [apply insert_after_ndata|apply append_child_ndata].
Qed.

Lemma replace_with_detached h k e n :
  Repr h k -> detached k e -> Repr (replace_with h e n) k.
Proof.
  intros R D. unfold replace_with. rewrite (after_detached h k e n R D).
  pose proof (remove_repr h k e R) as Q.
  refine (Repr_ext _ _ _ _ _ _ Q); [intros m; tauto|].
  intros p. symmetry. apply without_all; exact D.
Qed.

Lemma run_edit_repr k e k' : edit_spec k e k' -> exists fuel0, forall h fuel,
  Repr h k -> edit_ok (fun n => is_element_or_document (ndata (h n))) k e -> fuel0 <= fuel ->
  exists h', run_edit fuel h e = Some h' /\
    Repr h' k' /\ forall m, ndata (h' m) = ndata (h m).
Proof.
  intros S. destruct S.
  10:{ exists (S (length (k e))). intros h fuel R OK Hf. simpl.
       destruct (flatten_repr h k e p fuel R H Hf) as (h' & E & D & R').
       exists h'. auto. }
  all: exists 0; intros h fuel R OK _; simpl in *; eexists; (split; [reflexivity|]).
  - split; [apply remove_repr; auto|apply remove_ndata].
  - split; [apply insert_before_repr; tauto|apply insert_before_ndata].
  - split; [apply insert_after_repr; tauto|apply insert_after_ndata].
  - split; [apply append_repr; tauto|apply append_ndata].
  - split; [|apply after_ndata]. destruct OK as [O1 O2]. apply after_repr; auto.
  - rewrite (after_detached h k e n R H). split; auto.
  - split; [|apply replace_with_ndata]. destruct OK as [O1 O2]. apply replace_with_repr; auto.
  - split; [|apply replace_with_ndata]. apply replace_with_detached; auto.
  - split; [apply replace_child_repr; tauto|apply replace_child_ndata].
  - split; [apply append_child_repr; tauto|apply append_child_ndata].
  - split; [apply prepend_repr; tauto|apply prepend_ndata].
  - split; [apply insert_repr; tauto|apply insert_ndata].
Qed.

Lemma edit_ok_ext el el' k e : (forall n, el n = el' n) -> edit_ok el k e -> edit_ok el' k e.
Proof. intros E. destruct e; simpl; rewrite <- ?E; auto. Qed.

Lemma run_edits_repr el es k k' : edits_spec el k es k' -> exists fuel0, forall h fuel,
  Repr h k -> (forall n, el n = is_element_or_document (ndata (h n))) -> fuel0 <= fuel ->
  exists h', run_edits fuel h es = Some h' /\
    Repr h' k' /\ forall m, ndata (h' m) = ndata (h m).
Proof.
  intros S. induction S as [k|k e k1 es k2 OK SP S (f2 & IH)].
  - exists 0. intros h fuel R HE _. exists h. simpl. auto.
  - destruct (run_edit_repr k e k1 SP) as (f1 & H1).
    exists (max f1 f2). intros h fuel R HE Hf. simpl.
    destruct (H1 h fuel R) as (h1 & E1 & R1 & D1); [|lia|].
    { eapply edit_ok_ext; eauto. }
    rewrite E1. destruct (IH h1 fuel R1) as (h2 & E2 & R2 & D2); [|lia|].
    { intros n. rewrite D1. apply HE. }
    exists h2. split; [exact E2|]. split; [exact R2|].
    intros m. rewrite D2. apply D1.
Qed.

(** Every edit whose arguments play their documented roles has an abstract result. *)
Lemma edit_spec_total h k e : Repr h k ->
  edit_ok (fun n => is_element_or_document (ndata (h n))) k e -> exists k', edit_spec k e k'.
Proof.
  intros R OK. destruct e; simpl in OK; try (eexists; constructor; fail).
  - destruct (repr_case h k e R) as [D|[p Hp]]; eexists.
    + apply SAfterDetached; exact D.
    + eapply SAfter; exact Hp.
  - destruct (repr_case h k e R) as [D|[p Hp]]; eexists.
    + apply SReplaceWithDetached; exact D.
    + eapply SReplaceWith; exact Hp.
  - destruct OK as [p Hp]. eexists. eapply SFlatten; exact Hp.
Qed.

Lemma alloc_repr h k n d :
  Repr h k -> detached k n -> k n = [] -> Repr (alloc h n d) k.
Proof.
  intros R D E. unfold alloc. constructor.
  - intros p. destruct (Nat.eqb_spec p n) as [->|]; simpl; [rewrite E; reflexivity|apply R].
  - intros p. destruct (Nat.eqb_spec p n) as [->|]; simpl; [rewrite E; reflexivity|apply R].
  - intros p. apply seg_ext with (h := h); [|apply R].
    intros x Hx. destruct (Nat.eqb_spec x n) as [->|]; auto. exfalso; eapply D; eauto.
  - apply R.
  - intros c Hc. destruct (Nat.eqb_spec c n) as [->|]; simpl; auto. apply (r_orphan h k R c Hc).
  - intros p c Hp. destruct (Nat.eqb_spec p n) as [->|]; simpl; [rewrite E in Hp; inversion Hp|].
    apply (r_kind h k R p c Hp).
  - apply R.
Qed.
