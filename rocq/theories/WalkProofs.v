From Coq Require Import List Arith Bool Lia.
From Verif Require Import DomModel DomSpec DomProofs WalkModel WalkSpec.
Import ListNotations.

Section Proofs.
  Context {D X : Type}.
  Implicit Types (s : wstate D X) (t : wtree D) (A B : list (wtree D)).

  Lemma wtree_ind' (P : wtree D -> Prop) :
    (forall id d kids, Forall P kids -> P (W id d kids)) -> forall t, P t.
  Proof.
    intros H. fix IH 1. intros [id d kids]. apply H.
    induction kids as [|k kids IHk]; constructor; [apply IH|exact IHk].
  Qed.

  Lemma all_ids_app (l l' : list (wtree D)) : all_ids (l ++ l') = all_ids l ++ all_ids l'.
  Proof. unfold all_ids. apply flat_map_app. Qed.
  Lemma all_ids_cons t (l : list (wtree D)) : all_ids (t :: l) = ids t ++ all_ids l.
  Proof. reflexivity. Qed.
  Lemma ids_eq t : ids t = wid t :: all_ids (wkids t).
  Proof. destruct t; reflexivity. Qed.
  Lemma wid_ids t : In (wid t) (ids t).
  Proof. rewrite ids_eq. left. reflexivity. Qed.
  Lemma map_wid_all (l : list (wtree D)) m : In m (map wid l) -> In m (all_ids l).
  Proof.
    unfold all_ids. rewrite in_map_iff, in_flat_map. intros (t & <- & Ht). exists t. split; [exact Ht|apply wid_ids].
  Qed.
  Lemma wtree_eta t : t = W (wid t) (wdata t) (wkids t).
  Proof. destruct t; reflexivity. Qed.

  (** ** Frames *)
  Definition same_at (s s' : wstate D X) (m : nat) : Prop := w_heap s' m = w_heap s m /\ w_info s' m = w_info s m.

  Lemma holds_frame s s' t : holds s t ->
    (forall m, In m (ids t) -> w_info s' m = w_info s m /\ first (w_heap s' m) = first (w_heap s m) /\ last (w_heap s' m) = last (w_heap s m)) ->
    (forall m, In m (all_ids (wkids t)) -> parent (w_heap s' m) = parent (w_heap s m) /\ prev (w_heap s' m) = prev (w_heap s m) /\ next (w_heap s' m) = next (w_heap s m)) ->
    holds s' t.
  Proof.
    revert t. apply (wtree_ind' (fun t => holds s t -> _ -> _ -> holds s' t)).
    intros id d kids IH H E1 E2. inversion H as [i dd kk Hd (Hf & Hl & Hs) Hk]; subst i dd kk.
    cbn [wkids] in E2.
    destruct (E1 id) as (a1 & a2 & a3); [left; reflexivity|].
    constructor.
    - congruence.
    - split; [congruence|]. split; [congruence|].
      eapply seg_ext; [|exact Hs]. intros m Hm. apply E2, map_wid_all, Hm.
    - rewrite Forall_forall in *. intros k Hin. apply IH; auto.
      + intros m Hm. apply E1. right. apply in_flat_map. exists k. auto.
      + intros m Hm. apply E2. apply in_flat_map. exists k. split; [exact Hin|]. rewrite ids_eq. right. exact Hm.
  Qed.

  Lemma holds_same s s' t : holds s t -> (forall m, In m (ids t) -> same_at s s' m) -> holds s' t.
  Proof.
    intros H E. eapply holds_frame; [exact H| |].
    - intros m Hm. destruct (E m Hm) as [-> ->]. auto.
    - intros m Hm. destruct (E m) as [-> _]; auto. rewrite ids_eq. right. exact Hm.
  Qed.

  Lemma below_same s s' p l : below s p l ->
    (forall m, In m (all_ids l) -> same_at s s' m) ->
    first (w_heap s' p) = first (w_heap s p) -> last (w_heap s' p) = last (w_heap s p) -> below s' p l.
  Proof.
    intros ((Hf & Hl & Hs) & Hk) E E1 E2. split.
    - split; [congruence|]. split; [congruence|]. eapply seg_ext; [|exact Hs].
      intros m Hm. destruct (E m) as [-> _]; auto. apply map_wid_all, Hm.
    - rewrite Forall_forall in *. intros t Ht. eapply holds_same; [apply Hk, Ht|].
      intros m Hm. apply E. apply in_flat_map. exists t. auto.
  Qed.

  Lemma below_app s p A B : below s p (A ++ B) -> Forall (holds s) A /\ Forall (holds s) B.
  Proof. intros (_ & H). apply Forall_app in H. exact H. Qed.

  Lemma only_refl p l s : only p l s s.
  Proof. repeat split; auto. Qed.
  Lemma only_trans p l s s1 s2 : only p l s s1 -> only p l s1 s2 -> only p l s s2.
  Proof.
    intros (a & (b1 & b2 & b3) & c) (a' & (b1' & b2' & b3') & c'). repeat split; try congruence.
    - intros m H1 H2. rewrite a', a; auto.
    - intros m H. rewrite c', c; auto.
  Qed.
  Lemma only_mono p l l' s s' : incl l l' -> only p l s s' -> only p l' s s'.
  Proof. intros I (a & b & c). split; [|split]; auto. Qed.
  Lemma only_deeper p q l k s s' : In q l -> incl k l -> p <> q -> ~ In p k -> only q k s s' -> only p l s s'.
  Proof.
    intros Hq I N Hp (a & b & c). split; [|split].
    - intros m H1 H2. apply a; auto. intros ->. contradiction.
    - rewrite (a p); auto.
    - intros m H. apply c. auto.
  Qed.
  Lemma only_same p l s s' m : only p l s s' -> m <> p -> ~ In m l -> same_at s s' m.
  Proof. intros (a & _ & c) H1 H2. split; auto. Qed.

  Lemma above_same s s' anc :
    (forall m, In m (map fst anc) -> w_info s' m = w_info s m /\ parent (w_heap s' m) = parent (w_heap s m)) ->
    above s anc -> above s' anc.
  Proof.
    induction anc as [|[p d] rest IH]; intros E; [intros; exact Logic.I|].
    intros (H1 & H2 & H3). destruct (E p) as [E1 E2]; [left; reflexivity|].
    cbn [above]. rewrite E1, E2. split; [exact H1|]. split; [exact H2|].
    apply IH; [|exact H3]. intros m Hm. apply E. right. exact Hm.
  Qed.
  Lemma above_only s s' anc l : only (owner anc) l s s' -> NoDup (map fst anc ++ l) -> above s anc -> above s' anc.
  Proof.
    intros O N. apply above_same. intros m Hm.
    assert (Hn : ~ In m l).
    { intros H. clear O. induction (map fst anc) as [|a r IH]; [destruct Hm|].
      inversion N as [|? ? H1 H2]; subst. destruct Hm as [->|Hm]; [apply H1, in_or_app; auto|auto]. }
    destruct O as (a & b & c). split; [apply c, Hn|].
    destruct (Nat.eq_dec m (owner anc)) as [->|Ne]; [apply b|]. rewrite a; auto.
  Qed.

  (** ** No duplicates *)
  Lemma nodup_app_iff {T} (a b : list T) : NoDup (a ++ b) <-> NoDup a /\ NoDup b /\ (forall x, In x a -> ~ In x b).
  Proof.
    induction a as [|x a IH]; cbn [app].
    - split; [intros; repeat split; auto; constructor|tauto].
    - rewrite !NoDup_cons_iff, IH, in_app_iff. split.
      + intros (H1 & H2 & H3 & H4). repeat split; auto. intros y [<-|Hy]; auto.
      + intros ((H1 & H2) & H3 & H4). repeat split; auto.
        * intros [H|H]; [contradiction|]. apply (H4 x); auto. left. reflexivity.
        * intros y Hy. apply H4. right. exact Hy.
  Qed.
  Lemma nodup_replace (a x y b : list nat) : NoDup (a ++ x ++ b) -> NoDup y -> incl y x -> NoDup (a ++ y ++ b).
  Proof.
    rewrite !nodup_app_iff. intros (H1 & (H2 & H3 & H4) & H5) Hy I. repeat split; auto.
    intros m Hm Hi. apply (H5 m Hm). rewrite in_app_iff in *. destruct Hi; auto.
  Qed.
  Lemma nodup_place (anc : list (nat * D)) A t B out : NoDup (map fst anc ++ all_ids (A ++ t :: B)) -> made_of t out ->
    NoDup (map fst anc ++ all_ids (A ++ out ++ B)).
  Proof.
    rewrite !all_ids_app, all_ids_cons. intros H (I & N). rewrite app_assoc in *. apply nodup_replace with (x := ids t); auto.
  Qed.
  Lemma incl_place A t B out : made_of t out -> incl (all_ids (A ++ out ++ B)) (all_ids (A ++ t :: B)).
  Proof.
    rewrite !all_ids_app, all_ids_cons. intros (I & _) m. rewrite !in_app_iff. intros [H|[H|H]]; auto.
  Qed.

  (** ** Iterators *)
  Definition fwd (it : iter) (l : list nat) : Prop :=
    front it = headof l None /\ front_next it = headof (tl l) None /\ (l <> [] -> iend it = lastof None l).
  Lemma fwd_start s p l : linked s p l -> fwd (child_nodes_iter (w_heap s) p) l.
  Proof.
    intros (Hf & Hl & Hs). unfold child_nodes_iter, fwd. cbn [front front_next iend]. rewrite Hf, Hl.
    split; [reflexivity|]. split; [|reflexivity].
    destruct l as [|c r]; [reflexivity|]. cbn [headof tl]. cbn [seg] in Hs. apply Hs.
  Qed.
  Lemma fwd_nil s it : fwd it [] -> snd (iter_next (w_heap s) it) = None.
  Proof. intros (H & _). unfold iter_next. rewrite H. reflexivity. Qed.
  Lemma fwd_cons s p a c r it : fwd it (c :: r) -> seg (w_heap s) p a (c :: r) None -> NoDup (c :: r) ->
    exists it', iter_next (w_heap s) it = (it', Some c) /\ fwd it' r.
  Proof.
    intros (H1 & H2 & H3) S N. unfold iter_next. rewrite H1. cbn [headof tl] in *.
    eexists. split; [reflexivity|].
    rewrite (H3 ltac:(discriminate)).
    destruct r as [|e r].
    - cbn [lastof oeqb]. rewrite Nat.eqb_refl. repeat split; auto.
    - assert (Ne : oeqb (lastof None (c :: e :: r)) c = false).
      { destruct (snoc_case (e :: r)) as [F|(r' & y & F)]; [discriminate|].
        change (c :: e :: r) with ([c] ++ e :: r). rewrite F, app_assoc, lastof_snoc. cbn [oeqb].
        apply Nat.eqb_neq. intros ->. inversion N as [|? ? M _]; subst. apply M. rewrite F. apply in_or_app. right. left. reflexivity. }
      rewrite Ne. unfold fwd. cbn [front front_next iend]. rewrite H2. cbn [headof].
      split; [reflexivity|]. split.
      + cbn [tl]. cbn [seg] in S. destruct S as (_ & _ & _ & _ & _ & S & _). destruct r; exact S.
      + intros _. reflexivity.
  Qed.

  (** ** The walk *)
  Variable is_elem : D -> bool.
  Variable enter_r : X -> @around D -> wtree D -> X -> @enter_act D -> Prop.
  Variable exit_r leaf_r : X -> @around D -> wtree D -> X -> list (wtree D) -> Prop.
  Variable gone_r : X -> wtree D -> X -> Prop.
  Variable enter : nat -> wstate D X -> nat -> option (wstate D X * bool).
  Variable exit leaf : nat -> wstate D X -> nat -> option (wstate D X).
  Hypothesis Henter : enter_ok enter_r enter.
  Hypothesis Hexit : put_ok exit exit_r.
  Hypothesis Hleaf : put_ok leaf leaf_r.
  Hypothesis Hgone : gone_ok gone_r exit.

  Notation runs := (runs is_elem enter_r exit_r leaf_r gone_r).
  Notation runs_list := (runs_list is_elem enter_r exit_r leaf_r gone_r).
  Notation visit := (visit D X is_elem enter exit leaf).
  Notation walk := (walk D X is_elem enter exit leaf).

  Lemma visit_S f s n : visit (S f) s n =
    if is_elem (w_info s n) then
      match enter f s n with
      | None => None
      | Some (s, true) => exit f s n
      | Some (s, false) => match walk f s (child_nodes_iter (w_heap s) n) with None => None | Some s => exit f s n end
      end
    else leaf f s n.
  Proof. cbn. destruct (is_elem (w_info s n)); [|reflexivity]. destruct (enter f s n) as [[s1 []]|]; reflexivity. Qed.
  Lemma walk_S f s it : walk (S f) s it =
    match iter_next (w_heap s) it with
    | (_, None) => Some s
    | (it, Some c) => match visit f s c with None => None | Some s => walk f s it end
    end.
  Proof. reflexivity. Qed.

  Definition visit_spec (c : @around D) x t x' out : Prop :=
    let '(anc, A, B) := c in
    exists f0, forall f s, f0 <= f -> w_aux s = x -> place s anc (A ++ t :: B) ->
    made_of t out /\
    exists s', visit f s (wid t) = Some s' /\ w_aux s' = x' /\
      below s' (owner anc) (A ++ out ++ B) /\ only (owner anc) (all_ids (A ++ t :: B)) s s'.
  Definition walk_spec anc A x l x' out : Prop :=
    exists f0, forall f s it, f0 <= f -> w_aux s = x -> place s anc (A ++ l) -> fwd it (map wid l) ->
    (incl (all_ids out) (all_ids l) /\ NoDup (all_ids out)) /\
    exists s', walk f s it = Some s' /\ w_aux s' = x' /\
      below s' (owner anc) (A ++ out) /\ only (owner anc) (all_ids (A ++ l)) s s'.

  Scheme runs_mut := Induction for WalkSpec.runs Sort Prop
    with runs_list_mut := Induction for WalkSpec.runs_list Sort Prop.
  Combined Scheme runs_both from runs_mut, runs_list_mut.

  Lemma place_in s anc l : place s anc l -> exists d rest, anc = (owner anc, d) :: rest.
  Proof. destruct anc as [|[p d] rest]; [intros []|]. intros _. exists d, rest. reflexivity. Qed.
  Lemma place_owner s anc l : place s anc l -> ~ In (owner anc) (all_ids l).
  Proof.
    destruct anc as [|[p d] rest]; [intros []|]. intros (_ & _ & N). cbn [owner]. cbn in N.
    inversion N as [|? ? H _]; subst. intros F. apply H, in_or_app. right. exact F.
  Qed.
  Lemma place_step s s' anc A t B out : place s anc (A ++ t :: B) -> made_of t out ->
    below s' (owner anc) (A ++ out ++ B) -> only (owner anc) (all_ids (A ++ t :: B)) s s' ->
    place s' anc (A ++ out ++ B).
  Proof.
    intros P M Bl O. destruct (place_in _ _ _ P) as (d & rest & E).
    destruct anc as [|[p d'] rest']; [discriminate|]. destruct P as (a & b & N). cbn [place].
    split; [|split].
    - eapply above_only; [exact O|exact N|exact a].
    - exact Bl.
    - eapply nodup_place; eauto.
  Qed.

  (** Going down to the children of a child, and back up. *)
  Lemma place_down s anc A id d kids B : place s anc (A ++ W id d kids :: B) -> place s ((id, d) :: anc) kids.
  Proof.
    intros P. pose proof (place_in _ _ _ P) as (d' & rest & E).
    destruct anc as [|[p d''] anc]; [discriminate|]. destruct P as (a & ((_ & _ & S) & F) & N).
    apply Forall_app in F. destruct F as [_ F]. inversion F as [|? ? H _]; subst. inversion H; subst.
    cbn [place]. split; [|split].
    - cbn [above]. split; [reflexivity|]. split; [|exact a].
      rewrite map_app in S. cbn [map] in S. apply seg_app in S. apply S.
    - split; assumption.
    - rewrite all_ids_app, all_ids_cons, ids_eq in N. cbn [wid wkids app map fst] in *.
      apply NoDup_cons_iff in N. destruct N as [Np N].
      rewrite !in_app_iff in Np. cbn [In] in Np. rewrite !in_app_iff in Np.
      rewrite !nodup_app_iff in N. destruct N as (N1 & (N2 & N3 & N4) & N5).
      cbn [app] in N3. apply NoDup_cons_iff in N3. destruct N3 as [N6 N7]. apply nodup_app_iff in N7. destruct N7 as (N7 & _ & _).
      rewrite in_app_iff in N6.
      constructor; [|constructor].
      + cbn [In]. rewrite in_app_iff. intros [->|[Hi|Hi]]; [tauto| |tauto].
        apply (N5 id Hi). rewrite in_app_iff. right. left. reflexivity.
      + rewrite in_app_iff. intros [Hi|Hi]; [tauto|]. apply Np. right. right. right. left. exact Hi.
      + apply nodup_app_iff. split; [exact N1|]. split; [exact N7|].
        intros m Hm Hi. apply (N5 m Hm). rewrite !in_app_iff. right. right. apply in_or_app. left. exact Hi.
  Qed.
  Lemma place_up s s' anc A id d kids kids' B : place s anc (A ++ W id d kids :: B) ->
    below s' id kids' -> only id (all_ids kids) s s' -> incl (all_ids kids') (all_ids kids) -> NoDup (all_ids kids') ->
    below s' (owner anc) (A ++ W id d kids' :: B) /\ only (owner anc) (all_ids (A ++ W id d kids :: B)) s s' /\
    made_of (W id d kids) [W id d kids'].
  Proof.
    intros P Bk O I Nk.
    pose proof (place_owner _ _ _ P) as Hp. pose proof (place_down _ _ _ _ _ _ _ P) as P'.
    pose proof (place_in _ _ _ P) as (d' & rest & E).
    destruct anc as [|[p d''] anc]; [discriminate|]. cbn [owner] in *. clear E d' rest.
    destruct P as (a & ((Hf & Hl & S) & F) & N).
    rewrite all_ids_app, all_ids_cons in Hp. rewrite ids_eq in Hp. cbn [wid wkids] in Hp.
    assert (Hpid : p <> id) by (intros ->; apply Hp, in_or_app; right; left; reflexivity).
    assert (Hpk : ~ In p (all_ids kids)).
    { intros H. apply Hp, in_or_app. right. right. apply in_or_app. left. exact H. }
    assert (Nid : ~ In id (all_ids kids)).
    { destruct P' as (_ & _ & N'). cbn [map fst app] in N'. apply NoDup_cons_iff in N'. destruct N' as [N' _]. intros H. apply N'. right. apply in_or_app. right. exact H. }
    assert (Dj : forall m, In m (all_ids A) \/ In m (all_ids B) -> same_at s s' m).
    { assert (N' := nodup_app_r _ _ N). rewrite all_ids_app, all_ids_cons, ids_eq in N'. cbn [wid wkids] in N'.
      rewrite !nodup_app_iff in N'. destruct N' as (N1 & (N2 & N3 & N4) & N5).
      intros m Hm. eapply only_same; [exact O| |].
      - intros ->. destruct Hm as [Hm|Hm]; [apply (N5 id Hm); apply in_or_app; left; left; reflexivity|].
        apply (N4 id); [left; reflexivity|exact Hm].
      - intros Hk. destruct Hm as [Hm|Hm]; [apply (N5 m Hm), in_or_app; left; right; exact Hk|].
        apply (N4 m); [right; exact Hk|exact Hm]. }
    destruct O as (o1 & (o2 & o3 & o4) & o5).
    split; [|split].
    - split.
      + unfold linked. rewrite (o1 p Hpid Hpk). rewrite map_app in *. cbn [map wid] in *.
        split; [exact Hf|]. split; [exact Hl|].
        eapply seg_ext; [|exact S]. intros m Hm. apply in_app_iff in Hm. cbn [In] in Hm.
        destruct Hm as [Hm|[<-|Hm]]; [|auto|].
        * destruct (Dj m) as [-> _]; auto. left. apply map_wid_all, Hm.
        * destruct (Dj m) as [-> _]; auto. right. apply map_wid_all, Hm.
      + apply Forall_app in F. destruct F as [FA FB]. inversion FB as [|? ? Ht FB']; subst.
        apply Forall_app. split; [|constructor].
        * rewrite Forall_forall in *. intros t Ht'. eapply holds_same; [apply FA, Ht'|].
          intros m Hm. apply Dj. left. apply in_flat_map. exists t. auto.
        * destruct Bk as [Bk1 Bk2]. constructor; [|exact Bk1|exact Bk2]. rewrite (o5 id Nid). inversion Ht; subst; assumption || reflexivity.
        * rewrite Forall_forall in *. intros t Ht'. eapply holds_same; [apply FB', Ht'|].
          intros m Hm. apply Dj. right. apply in_flat_map. exists t. auto.
    - eapply only_deeper with (q := id) (k := all_ids kids); auto; [| |repeat split; auto].
      + rewrite all_ids_app, all_ids_cons, in_app_iff. right. left. reflexivity.
      + intros m Hm. rewrite all_ids_app, all_ids_cons, in_app_iff. right. right. apply in_or_app. left. exact Hm.
    - split.
      + intros m. unfold all_ids at 1. cbn [flat_map]. rewrite app_nil_r. cbn [ids]. intros [->|Hm]; [left; reflexivity|].
        right. apply I, Hm.
      + unfold all_ids. cbn [flat_map]. rewrite app_nil_r. cbn [ids]. constructor; [|exact Nk]. intros H. apply Nid, I, H.
  Qed.

  Theorem walk_correct :
    (forall c x t x' out, runs c x t x' out -> visit_spec c x t x' out) /\
    (forall anc A x l x' out, runs_list anc A x l x' out -> walk_spec anc A x l x' out).
  Proof.
    apply (runs_both D X is_elem enter_r exit_r leaf_r gone_r
             (fun c x t x' out _ => visit_spec c x t x' out) (fun anc A x l x' out _ => walk_spec anc A x l x' out)).
    - (* leaf *)
      intros anc A B x t x' out E Hr. destruct (Hleaf _ _ _ _ _ _ _ Hr) as (f0 & H).
      exists (S f0). intros f s Hf Hx P. destruct f as [|f]; [lia|].
      destruct (H f s ltac:(lia) Hx P) as (M & s' & E1 & E2 & E3 & E4). split; [exact M|].
      exists s'. rewrite visit_S.
      assert (Hd : w_info s (wid t) = wdata t).
      { destruct anc as [|[p d] r]; [destruct P|]. destruct P as (_ & (_ & F) & _).
        apply Forall_app in F. destruct F as [_ F]. inversion F as [|? ? Ht _]; subst. inversion Ht; subst. reflexivity. }
      rewrite Hd, E. auto.
    - (* kept *)
      intros anc A B x t x1 d kids x2 kids' x3 out E Hr Hl IH Hx3.
      destruct (Henter _ _ _ _ _ _ _ Hr) as (fe & He). destruct IH as (fw & Hw).
      destruct (Hexit _ _ _ _ _ _ _ Hx3) as (fx & Hx).
      exists (S (fe + fw + fx)). intros f s Hf Hxx P. destruct f as [|f]; [lia|].
      destruct (He f s ltac:(lia) Hxx P) as (M1 & s1 & a1 & a2 & a3 & a4).
      assert (P1 : place s1 anc (A ++ W (wid t) d kids :: B)).
      { apply (place_step s s1 anc A t B [W (wid t) d kids]); auto. }
      pose proof (place_down _ _ _ _ _ _ _ P1) as P1'.
      destruct (Hw f s1 (child_nodes_iter (w_heap s1) (wid t)) ltac:(lia) a2 P1') as ((I & Nk) & s2 & b1 & b2 & b3 & b4).
      { apply fwd_start. destruct P1' as (_ & (Li & _) & _). exact Li. }
      cbn [app owner] in b3, b4.
      destruct (place_up _ _ _ _ _ _ _ _ _ P1 b3 b4 I Nk) as (c1 & c2 & c3).
      assert (P2 : place s2 anc (A ++ W (wid t) d kids' :: B)).
      { apply (place_step s1 s2 anc A (W (wid t) d kids) B [W (wid t) d kids']); auto. }
      destruct (Hx f s2 ltac:(lia) b2 P2) as (M3 & s3 & d1 & d2 & d3 & d4).
      cbn [wid] in d1.
      assert (Mt : made_of t out).
      { destruct M1 as [m1 _], M3 as [m3 m4], c3 as [m5 _].
        split; [|exact m4]. intros m Hm. apply m3 in Hm. apply m1. unfold all_ids in m5 at 1. cbn [flat_map] in m5.
        rewrite app_nil_r in m5. apply m5 in Hm. unfold all_ids. cbn [flat_map]. rewrite app_nil_r. exact Hm. }
      split; [exact Mt|]. exists s3. rewrite visit_S.
      assert (Hd : w_info s (wid t) = wdata t).
      { destruct anc as [|[p d'] r]; [destruct P|]. destruct P as (_ & (_ & F) & _).
        apply Forall_app in F. destruct F as [_ F]. inversion F as [|? ? Ht _]; subst. inversion Ht; subst. reflexivity. }
      rewrite Hd, E, a1, b1. split; [exact d1|]. split; [exact d2|]. split; [exact d3|].
      eapply only_trans; [exact a4|].
      assert (I1 : incl (all_ids (A ++ W (wid t) d kids :: B)) (all_ids (A ++ t :: B))).
      { apply (incl_place A t B [W (wid t) d kids]); exact M1. }
      eapply only_trans.
      + eapply only_mono; [exact I1|exact c2].
      + eapply only_mono; [|exact d4]. intros m Hm. apply I1.
        apply (incl_place A (W (wid t) d kids) B [W (wid t) d kids']); [exact c3|]. exact Hm.
    - (* skipped *)
      intros anc A B x t x1 d kids x3 out E Hr Hx3.
      destruct (Henter _ _ _ _ _ _ _ Hr) as (fe & He).
      destruct (Hexit _ _ _ _ _ _ _ Hx3) as (fx & Hx).
      exists (S (fe + fx)). intros f s Hf Hxx P. destruct f as [|f]; [lia|].
      destruct (He f s ltac:(lia) Hxx P) as (M1 & s1 & a1 & a2 & a3 & a4).
      assert (P1 : place s1 anc (A ++ W (wid t) d kids :: B)).
      { apply (place_step s s1 anc A t B [W (wid t) d kids]); auto. }
      destruct (Hx f s1 ltac:(lia) a2 P1) as (M3 & s3 & d1 & d2 & d3 & d4).
      cbn [wid] in d1.
      split.
      { destruct M1 as [m1 _], M3 as [m3 m4]. split; [|exact m4]. intros m Hm. apply m3 in Hm. apply m1.
        unfold all_ids. cbn [flat_map]. rewrite app_nil_r. exact Hm. }
      exists s3. rewrite visit_S.
      assert (Hd : w_info s (wid t) = wdata t).
      { destruct anc as [|[p d'] r]; [destruct P|]. destruct P as (_ & (_ & F) & _).
        apply Forall_app in F. destruct F as [_ F]. inversion F as [|? ? Ht _]; subst. inversion Ht; subst. reflexivity. }
      rewrite Hd, E, a1. split; [exact d1|]. split; [exact d2|]. split; [exact d3|].
      eapply only_trans; [exact a4|]. eapply only_mono; [|exact d4].
      apply (incl_place A t B [W (wid t) d kids]); exact M1.
    - (* removed *)
      intros anc A B x t x1 x2 kids' x3 E Hr Hl IH Hg.
      destruct (Henter _ _ _ _ _ _ _ Hr) as (fe & He). destruct IH as (fw & Hw).
      destruct (Hgone _ _ _ Hg) as (fx & Hx).
      exists (S (fe + fw + fx)). intros f s Hf Hxx P. destruct f as [|f]; [lia|].
      destruct (He f s ltac:(lia) Hxx P) as (s1 & a1 & a2 & a3 & a4 & a5 & a6 & a7 & a8).
      pose proof (place_owner _ _ _ P) as Hp.
      assert (Nt : NoDup (all_ids A ++ ids t ++ all_ids B)).
      { destruct anc as [|[p d'] r]; [destruct P|]. destruct P as (_ & _ & N). apply nodup_app_r in N.
        rewrite all_ids_app, all_ids_cons in N. exact N. }
      assert (Ntt : NoDup (ids t)) by (apply nodup_app_r in Nt; apply nodup_app_l in Nt; exact Nt).
      assert (P1 : place s1 [(wid t, wdata t)] (wkids t)).
      { destruct t as [id d kids]. cbn [wid wdata wkids] in *. inversion a4; subst. cbn [place above].
        split; [auto|]. split; [split; assumption|]. cbn [map fst app]. rewrite ids_eq in Ntt. exact Ntt. }
      destruct (Hw f s1 (child_nodes_iter (w_heap s1) (wid t)) ltac:(lia) a2 P1) as ((I & Nk) & s2 & b1 & b2 & b3 & b4).
      { apply fwd_start. destruct P1 as (_ & (Li & _) & _). exact Li. }
      cbn [app owner] in b3, b4. destruct b4 as (o1 & (o2 & o3 & o4) & o5).
      assert (Nid : ~ In (wid t) (all_ids (wkids t))).
      { rewrite ids_eq in Ntt. inversion Ntt; assumption. }
      destruct (Hx f s2) as (s3 & d1 & d2 & d3); auto; cbn [wid]; try (rewrite ?o2, ?o3, ?o4; assumption); [lia| | |].
      { destruct b3. constructor; auto. rewrite o5; auto. inversion a4; subst; assumption || reflexivity. }
      { rewrite ids_eq. cbn [wid wkids]. constructor; auto. }
      assert (It : incl (ids (W (wid t) (wdata t) kids')) (ids t)).
      { rewrite (ids_eq t). cbn [ids]. intros m [->|Hm]; [left; reflexivity|]. right. apply I, Hm. }
      assert (Out : forall m, ~ In m (ids t) -> same_at s1 s3 m).
      { intros m Hm. destruct (d3 m) as [e1 e2]; [intros F; apply Hm, It, F|].
        assert (m <> wid t) by (intros ->; apply Hm, wid_ids).
        assert (~ In m (all_ids (wkids t))) by (intros F; apply Hm; rewrite ids_eq; right; exact F).
        split; [rewrite e1, o1|rewrite e2, o5]; auto. }
      split.
      { split; [intros m []|constructor]. }
      exists s3. rewrite visit_S.
      assert (Hd : w_info s (wid t) = wdata t).
      { destruct anc as [|[p d'] r]; [destruct P|]. destruct P as (_ & (_ & F) & _).
        apply Forall_app in F. destruct F as [_ F]. inversion F as [|? ? Ht _]; subst. inversion Ht; subst. reflexivity. }
      rewrite Hd, E, a1, b1. cbn [wid] in d1. split; [exact d1|]. split; [exact d2|]. cbn [app].
      rewrite all_ids_app, all_ids_cons in Hp |- *. rewrite !in_app_iff in Hp.
      split.
      + destruct (Out (owner anc)) as [e _]; [tauto|].
        eapply below_same; [exact a3| |rewrite e; reflexivity|rewrite e; reflexivity].
        intros m Hm. apply Out. rewrite all_ids_app, in_app_iff in Hm. rewrite !nodup_app_iff in Nt.
        destruct Nt as (_ & (_ & _ & n1) & n2).
        destruct Hm as [Hm|Hm]; [intros F; apply (n2 m Hm), in_or_app; auto|intros F; apply (n1 m F Hm)].
      + eapply only_trans; [rewrite all_ids_app, all_ids_cons in a5; exact a5|].
        destruct (Out (owner anc)) as [e _]; [tauto|].
        split; [|split].
        * intros m _ Hm. apply Out. rewrite !in_app_iff in Hm. tauto.
        * rewrite e. auto.
        * intros m Hm. apply Out. rewrite !in_app_iff in Hm. tauto.
    - (* no children *)
      intros anc A x. exists 1. intros f s it Hf Hx P Hi. destruct f as [|f]; [lia|].
      split; [split; [intros m Hm; exact Hm|constructor]|].
      exists s. rewrite walk_S. pose proof (fwd_nil s it Hi) as E. destruct (iter_next (w_heap s) it) as [it' c]. cbn [snd] in E. subst c.
      split; [reflexivity|]. split; [exact Hx|]. split; [|apply only_refl].
      destruct anc as [|[p d] r]; [destruct P|]. apply P.
    - (* a child and its siblings *)
      intros anc A x t l x1 out1 x2 out2 Hr IH1 Hl IH2.
      destruct IH1 as (f1 & H1). destruct IH2 as (f2 & H2).
      exists (S (f1 + f2)). intros f s it Hf Hx P Hi. destruct f as [|f]; [lia|].
      destruct (H1 f s ltac:(lia) Hx P) as (M1 & s1 & a1 & a2 & a3 & a4).
      assert (Hseg : exists p, seg (w_heap s) p (lastof None (map wid A)) (map wid (t :: l)) None /\ NoDup (map wid (t :: l))).
      { destruct anc as [|[p d] r]; [destruct P|]. exists p. destruct P as (_ & ((_ & _ & S) & _) & N).
        rewrite map_app in S. apply seg_app in S. split; [apply S|].
        apply nodup_app_r in N. rewrite all_ids_app in N. apply nodup_app_r in N.
        clear -N. induction (t :: l) as [|u r IH]; [constructor|]. cbn [map]. rewrite all_ids_cons in N.
        rewrite nodup_app_iff in N. destruct N as (_ & N2 & N3). constructor; [|auto].
        intros H. apply (N3 (wid u)); [apply wid_ids|]. apply map_wid_all, H. }
      destruct Hseg as (p & Sg & Nd). cbn [map] in Sg, Nd, Hi.
      destruct (fwd_cons s p _ _ _ _ Hi Sg Nd) as (it' & e1 & e2).
      assert (P1 : place s1 anc ((A ++ out1) ++ l)).
      { rewrite <- app_assoc. eapply place_step; eauto. }
      destruct (H2 f s1 it' ltac:(lia) a2 P1 e2) as ((I2 & N2) & s2 & b1 & b2 & b3 & b4).
      split.
      { rewrite all_ids_app, all_ids_cons. destruct M1 as [i1 n1]. split.
        - intros m. rewrite !in_app_iff. intros [Hm|Hm]; auto.
        - apply nodup_app_iff. split; [exact n1|]. split; [exact N2|].
          intros m Hm Hm2. apply i1 in Hm. apply I2 in Hm2.
          destruct anc as [|[q d] r]; [destruct P|]. destruct P as (_ & _ & N). apply nodup_app_r in N.
          rewrite all_ids_app, all_ids_cons in N. apply nodup_app_r in N. apply nodup_app_iff in N.
          destruct N as (_ & _ & N). apply (N m Hm Hm2). }
      exists s2. rewrite walk_S. rewrite e1, a1. split; [exact b1|]. split; [exact b2|].
      split; [rewrite app_assoc; exact b3|].
      eapply only_trans; [exact a4|]. eapply only_mono; [|exact b4].
      rewrite <- app_assoc. apply incl_place. exact M1.
  Qed.
End Proofs.
