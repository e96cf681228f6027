From Coq Require Import List Arith Bool Lia.
From Verif Require Import DomModel DomSpec DomProofs WalkModel WalkSpec WalkProofs WalkOps.
Import ListNotations.

Section Ops.
  Context {D X : Type}.
  Implicit Types (s : wstate D X) (t : wtree D) (A B : list (wtree D)).

  Lemma deep_not_top (l : list (wtree D)) t m : NoDup (all_ids l) -> In t l -> In m (all_ids (wkids t)) -> ~ In m (map wid l).
  Proof.
    induction l as [|u r IH]; [intros _ []|]. rewrite all_ids_cons. intros N Hin Hm. apply nodup_app_iff in N.
    destruct N as (N1 & N2 & N3). cbn [map In]. intros [E|Hr].
    - destruct Hin as [<-|Hin].
      + rewrite ids_eq in N1. inversion N1; subst. contradiction.
      + apply (N3 m); [rewrite <- E; apply wid_ids|]. apply in_flat_map. exists t. split; [exact Hin|]. rewrite ids_eq. right. exact Hm.
    - destruct Hin as [<-|Hin]; [|apply (IH N2 Hin Hm Hr)].
      apply (N3 m); [rewrite ids_eq; right; exact Hm|]. apply map_wid_all, Hr.
  Qed.
  Lemma headof_top (l : list (wtree D)) m : headof (map wid l) None = Some m -> In m (map wid l).
  Proof. destruct l; [discriminate|]. intros [= <-]. left. reflexivity. Qed.
  Lemma lastof_top (l : list nat) m : lastof None l = Some m -> In m l.
  Proof. destruct l; [discriminate|]. intros H. destruct (lastof_in None (n :: l)) as (x & E & Hx); [discriminate|]. congruence. Qed.
  Lemma nodup_tops (l : list (wtree D)) : NoDup (all_ids l) -> NoDup (map wid l).
  Proof.
    induction l as [|u r IH]; [constructor|]. cbn [map]. rewrite all_ids_cons, nodup_app_iff. intros (_ & N2 & N3). constructor; [|auto].
    intros H. apply (N3 (wid u)); [apply wid_ids|]. apply map_wid_all, H.
  Qed.

  Lemma splice s s' p A old B mid : below s p (A ++ old ++ B) -> NoDup (all_ids (A ++ old ++ B)) ->
    (forall m, In m (all_ids A) \/ In m (all_ids B) -> w_info s' m = w_info s m /\ parent (w_heap s' m) = parent (w_heap s m) /\
        first (w_heap s' m) = first (w_heap s m) /\ last (w_heap s' m) = last (w_heap s m)) ->
    (forall m, In m (all_ids A) -> prev (w_heap s' m) = prev (w_heap s m) /\
        next (w_heap s' m) = if oeqb (lastof None (map wid A)) m then headof (map wid (mid ++ B)) None else next (w_heap s m)) ->
    (forall m, In m (all_ids B) -> next (w_heap s' m) = next (w_heap s m) /\
        prev (w_heap s' m) = if oeqb (headof (map wid B) None) m then lastof None (map wid (A ++ mid)) else prev (w_heap s m)) ->
    Forall (holds s') mid -> seg (w_heap s') p (lastof None (map wid A)) (map wid mid) (headof (map wid B) None) ->
    first (w_heap s' p) = headof (map wid (A ++ mid ++ B)) None -> last (w_heap s' p) = lastof None (map wid (A ++ mid ++ B)) ->
    below s' p (A ++ mid ++ B).
  Proof.
    intros ((_ & _ & S) & F) N E EA EB Fm Sm Hf Hl.
    rewrite !all_ids_app in N. apply nodup_app_iff in N. destruct N as (NA & N & D1). apply nodup_app_iff in N. destruct N as (No & NB & D2).
    apply Forall_app in F. destruct F as [FA F]. apply Forall_app in F. destruct F as [_ FB].
    rewrite !map_app in S. apply seg_app in S. destruct S as [SA S]. apply seg_app in S. destruct S as [_ SB].
    split.
    - split; [exact Hf|]. split; [exact Hl|]. rewrite !map_app. apply seg_app. split; [|apply seg_app; split].
      + apply seg_of.
        * intros x Hx. destruct (E x) as (_ & -> & _); [left; apply map_wid_all, Hx|]. eapply seg_in_parent; [exact SA|exact Hx].
        * eapply prevs_ext; [|eapply seg_prevs; exact SA]. intros x Hx. apply EA, map_wid_all, Hx.
        * eapply nexts_retarget; [apply nodup_tops, NA| |eapply seg_nexts; exact SA].
          intros x Hx. destruct (EA x) as [_ ->]; [apply map_wid_all, Hx|]. rewrite map_app. reflexivity.
      + exact Sm.
      + apply seg_of.
        * intros x Hx. destruct (E x) as (_ & -> & _); [right; apply map_wid_all, Hx|]. eapply seg_in_parent; [exact SB|exact Hx].
        * eapply prevs_rehead; [apply nodup_tops, NB| |eapply seg_prevs; exact SB].
          intros x Hx. destruct (EB x) as [_ ->]; [apply map_wid_all, Hx|]. rewrite map_app, lastof_app. reflexivity.
        * eapply nexts_ext; [|eapply seg_nexts; exact SB]. intros x Hx. apply EB, map_wid_all, Hx.
    - rewrite !Forall_app. split; [|split; [exact Fm|]].
      + rewrite Forall_forall in *. intros t Ht. eapply holds_frame; [apply FA, Ht| |].
        * intros m Hm. destruct (E m) as (a & _ & b & c); auto. left. apply in_flat_map. exists t. auto.
        * intros m Hm. assert (Hm' : In m (all_ids A)) by (apply in_flat_map; exists t; rewrite ids_eq; split; [exact Ht|right; exact Hm]).
          destruct (E m) as (_ & a & _); auto. destruct (EA m Hm') as [b c].
          split; [exact a|]. split; [exact b|]. rewrite c.
          assert (oeqb (lastof None (map wid A)) m = false) as ->; [|reflexivity].
          apply oeqb_false. intros H. apply lastof_top in H. revert H. eapply deep_not_top; eauto.
      + rewrite Forall_forall in *. intros t Ht. eapply holds_frame; [apply FB, Ht| |].
        * intros m Hm. destruct (E m) as (a & _ & b & c); auto. right. apply in_flat_map. exists t. auto.
        * intros m Hm. assert (Hm' : In m (all_ids B)) by (apply in_flat_map; exists t; rewrite ids_eq; split; [exact Ht|right; exact Hm]).
          destruct (E m) as (_ & a & _); auto. destruct (EB m Hm') as [b c].
          split; [exact a|]. split; [|exact b]. rewrite c.
          assert (oeqb (headof (map wid B) None) m = false) as ->; [|reflexivity].
          apply oeqb_false. intros H. apply headof_top in H. revert H. eapply deep_not_top; eauto.
  Qed.

  (** The situation of a node in a place, in terms of links. *)
  Lemma place_node s anc A t B : place s anc (A ++ t :: B) ->
    exists p d rest, anc = (p, d) :: rest /\
    parent (w_heap s (wid t)) = Some p /\ prev (w_heap s (wid t)) = lastof None (map wid A) /\
    next (w_heap s (wid t)) = headof (map wid B) None /\
    first (w_heap s p) = headof (map wid (A ++ t :: B)) None /\ last (w_heap s p) = lastof None (map wid (A ++ t :: B)) /\
    holds s t /\ ~ In p (all_ids A) /\ ~ In p (ids t) /\ ~ In p (all_ids B) /\
    NoDup (all_ids A) /\ NoDup (ids t) /\ NoDup (all_ids B) /\
    (forall m, In m (all_ids A) -> ~ In m (ids t) /\ ~ In m (all_ids B)) /\ (forall m, In m (ids t) -> ~ In m (all_ids B)).
  Proof.
    intros P. pose proof (place_owner _ _ _ P) as Hp. destruct anc as [|[p d] rest]; [destruct P|]. exists p, d, rest.
    split; [reflexivity|]. destruct P as (_ & ((Hf & Hl & S) & F) & N). cbn [owner] in Hp.
    rewrite all_ids_app, all_ids_cons, !in_app_iff in Hp.
    apply nodup_app_r in N. rewrite all_ids_app, all_ids_cons in N. apply nodup_app_iff in N. destruct N as (NA & N & D1).
    apply nodup_app_iff in N. destruct N as (Nt & NB & D2).
    pose proof S as S'. rewrite map_app in S'. cbn [map] in S'. apply seg_app in S'. destruct S' as [_ (a & b & c & _)].
    apply Forall_app in F. destruct F as [_ F]. inversion F; subst.
    assert (D1' : forall m, In m (all_ids A) -> ~ In m (ids t) /\ ~ In m (all_ids B)).
    { intros m Hm. split; intros Hm'; apply (D1 m Hm), in_or_app; auto. }
    repeat (split; [first [assumption | tauto]|]). assumption.
  Qed.

  Lemma tops_facts (A B : list (wtree D)) t : NoDup (all_ids A) -> NoDup (all_ids B) ->
    (forall m, In m (all_ids A) -> ~ In m (ids t) /\ ~ In m (all_ids B)) -> (forall m, In m (ids t) -> ~ In m (all_ids B)) ->
    (forall x, In x (ids t) -> lastof None (map wid A) <> Some x /\ headof (map wid B) None <> Some x) /\
    (forall x, lastof None (map wid A) = Some x -> In x (all_ids A) /\ headof (map wid B) None <> Some x) /\
    (forall x, headof (map wid B) None = Some x -> In x (all_ids B)).
  Proof.
    intros NA NB D1 D2. split; [|split].
    - intros x Hx. split; intros H.
      + apply lastof_top, map_wid_all in H. destruct (D1 x H). contradiction.
      + apply headof_top, map_wid_all in H. apply (D2 x Hx H).
    - intros x H. apply lastof_top, map_wid_all in H. split; [exact H|]. intros H'. apply headof_top, map_wid_all in H'. destruct (D1 x H). contradiction.
    - intros x H. apply headof_top, map_wid_all in H. exact H.
  Qed.

  (** Removing the node. *)
  Theorem op_remove s anc A t B : place s anc (A ++ t :: B) ->
    let s' := put_heap s (remove (w_heap s) (wid t)) in
    below s' (owner anc) (A ++ B) /\ holds s' t /\ only (owner anc) (all_ids (A ++ t :: B)) s s' /\
    parent (w_heap s' (wid t)) = None /\ prev (w_heap s' (wid t)) = None /\ next (w_heap s' (wid t)) = None.
  Proof.
    intros P s'. destruct (place_node _ _ _ _ _ P) as (p & d & rest & -> & e1 & e2 & e3 & e4 & e5 & Ht & n1 & n2 & n3 & NA & Nt & NB & D1 & D2).
    destruct (tops_facts A B t NA NB D1 D2) as (T1 & T2 & T3).
    assert (R := remove_fields (w_heap s) (wid t) p _ _ e1 e2 e3 (proj1 (T1 _ (wid_ids t))) (proj2 (T1 _ (wid_ids t)))).
    assert (R' : forall m, w_heap s' m = _) by (intros m; apply R). clear R. cbn [owner].
    assert (Hpt : p <> wid t) by (intros ->; apply n2, wid_ids).
    assert (Ne : forall m, In m (all_ids A) \/ In m (all_ids B) -> m <> wid t /\ m <> p).
    { intros m Hm. split; intros ->; [|tauto]. destruct Hm as [Hm|Hm]; [destruct (D1 _ Hm) as [H _]; apply H, wid_ids|apply (D2 _ (wid_ids t) Hm)]. }
    split; [|split; [|split]].
    - apply (splice s s' p A [t] B []).
      + destruct P as (_ & Bl & _). exact Bl.
      + destruct P as (_ & _ & N). apply nodup_app_r in N. exact N.
      + intros m Hm. destruct (Ne m Hm) as [a b]. rewrite R'. cbn [parent first last]. apply Nat.eqb_neq in a, b. rewrite a, b. auto.
      + intros m Hm. destruct (Ne m (or_introl Hm)) as [a b]. rewrite R'. cbn [prev next]. apply Nat.eqb_neq in a. rewrite a.
        split; [|reflexivity]. assert (oeqb (headof (map wid B) None) m = false) as ->; [|reflexivity].
        apply oeqb_false. intros H. apply T3 in H. destruct (D1 m Hm). contradiction.
      + intros m Hm. destruct (Ne m (or_intror Hm)) as [a b]. rewrite R'. cbn [prev next]. apply Nat.eqb_neq in a. rewrite a.
        rewrite app_nil_r. split; [|reflexivity]. assert (oeqb (lastof None (map wid A)) m = false) as ->; [|reflexivity].
        apply oeqb_false. intros H. apply T2 in H. destruct H as [H _]. destruct (D1 m H). contradiction.
      + constructor.
      + exact Logic.I.
      + rewrite R'. cbn [first]. rewrite Nat.eqb_refl, e4, !map_app. cbn [map app].
        destruct (map wid A) as [|a0 r0] eqn:EA; [reflexivity|].
        destruct (lastof_in None (a0 :: r0)) as (z & -> & _); [discriminate|]. reflexivity.
      + rewrite R'. cbn [last]. rewrite Nat.eqb_refl, e5, !map_app. cbn [map app]. rewrite !lastof_app. cbn [lastof].
        destruct (map wid B) as [|b0 r0] eqn:EB; reflexivity.
    - eapply holds_frame; [exact Ht| |].
      + intros m Hm. rewrite R'. cbn [first last]. destruct (Nat.eqb_spec m p) as [->|]; [contradiction|]. auto.
      + intros m Hm. assert (Hm' : In m (ids t)) by (rewrite ids_eq; right; exact Hm). rewrite R'. cbn [parent prev next].
        destruct (Nat.eqb_spec m (wid t)) as [->|]; [rewrite ids_eq in Nt; inversion Nt; contradiction|].
        destruct (T1 m Hm') as [a b]. apply oeqb_false in a, b. rewrite a, b. auto.
    - split; [|split].
      + intros m a b. rewrite R'. rewrite all_ids_app, all_ids_cons, !in_app_iff in b.
        destruct (Nat.eqb_spec m (wid t)) as [->|_]; [exfalso; apply b; right; left; apply wid_ids|].
        destruct (Nat.eqb_spec m p) as [->|_]; [contradiction|]. cbn [andb].
        assert (oeqb (lastof None (map wid A)) m = false) as -> by (apply oeqb_false; intros H; apply T2 in H; tauto).
        assert (oeqb (headof (map wid B) None) m = false) as -> by (apply oeqb_false; intros H; apply T3 in H; tauto).
        destruct (w_heap s m); reflexivity.
      + rewrite R'. cbn [parent prev next]. apply Nat.eqb_neq in Hpt. rewrite Hpt.
        assert (oeqb (lastof None (map wid A)) p = false) as -> by (apply oeqb_false; intros H; apply T2 in H; tauto).
        assert (oeqb (headof (map wid B) None) p = false) as -> by (apply oeqb_false; intros H; apply T3 in H; tauto).
        auto.
      + intros m _. reflexivity.
    - rewrite R'. cbn [parent prev next]. rewrite Nat.eqb_refl. auto.
  Qed.

  (** Putting the trees [mid], made of the children, in place of the node. *)
  Lemma op_flatten_gen s s1 anc A n d kids mid g B fuel : place s anc (A ++ W n d kids :: B) ->
    (forall m, m <> n -> ~ In m (all_ids kids) -> w_heap s1 m = w_heap s m) ->
    (forall m, w_info s1 m = w_info s m) ->
    parent (w_heap s1 n) = parent (w_heap s n) -> prev (w_heap s1 n) = prev (w_heap s n) -> next (w_heap s1 n) = next (w_heap s n) ->
    first (w_heap s1 n) = headof (map wid mid) None -> last (w_heap s1 n) = lastof None (map wid mid) ->
    prevs (w_heap s1) None (map wid mid) -> nexts (w_heap s1) (map wid mid ++ g) None ->
    NoDup (map wid mid ++ g) -> incl g (all_ids kids) -> (forall x, In x g -> ~ In x (all_ids mid)) ->
    Forall (holds s1) mid -> incl (all_ids mid) (all_ids kids) -> NoDup (all_ids mid) ->
    (mid = [] -> g = []) -> (B = [] -> g = []) -> length (map wid mid ++ g) <= fuel ->
    made_of (W n d kids) mid /\
    exists h', flatten fuel (w_heap s1) n = Some h' /\
      below (put_heap s1 h') (owner anc) (A ++ mid ++ B) /\ only (owner anc) (all_ids (A ++ W n d kids :: B)) s (put_heap s1 h').
  Proof.
    intros P Hs Hi p1 p2 p3 Hf Hl Hpv Hnx Nmg Ig Dg Fm Im Nm G1 G2 Fu.
    destruct (place_node _ _ _ _ _ P) as (p & d' & rest & -> & e1 & e2 & e3 & e4 & e5 & Ht & n1 & n2 & n3 & NA & Nt & NB & D1 & D2).
    destruct (tops_facts A B _ NA NB D1 D2) as (T1 & T2 & T3). cbn [owner wid] in *.
    split.
    { split; [|exact Nm]. intros m Hm. right. apply Im, Hm. }
    assert (Nn : ~ In n (all_ids kids)) by (cbn [ids] in Nt; inversion Nt; assumption).
    assert (Hpn : p <> n) by (intros ->; apply n2; left; reflexivity).
    assert (Hpk : ~ In p (all_ids kids)) by (intros H; apply n2; right; exact H).
    assert (Imt : forall x, In x (map wid mid ++ g) -> In x (all_ids kids)).
    { intros x Hx. apply in_app_iff in Hx. destruct Hx as [Hx|Hx]; [apply Im, map_wid_all, Hx|apply Ig, Hx]. }
    assert (Hhead : forall x, headof (map wid mid) None = Some x -> In x (map wid mid)) by (intros x Hx; apply headof_top, Hx).
    assert (Hlast : forall x, lastof None (map wid mid) = Some x -> In x (map wid mid)) by (intros x Hx; apply lastof_top, Hx).
    destruct (flatten_fields (w_heap s1) n p (lastof None (map wid A)) (headof (map wid B) None) (map wid mid) g fuel) as (h' & E & R'); auto;
      try congruence.
    { intros H. apply G1. destruct mid; [reflexivity|discriminate]. }
    { intros H. apply G2. destruct B; [reflexivity|discriminate]. }
    { apply (T1 n). left. reflexivity. }
    { apply (T1 n). left. reflexivity. }
    { intros x Hx. apply T1. right. apply Imt, Hx. }
    { intros x Hx. apply T2, Hx. }
    { intros x Hx. destruct mid as [|u r]; [discriminate|]. injection Hx as <-. apply Hpv. }
    exists h'. split; [exact E|]. set (s' := put_heap s1 h'). assert (R : forall m, w_heap s' m = _) by (intros m; apply R'). clear R'.
    assert (NeA : forall m, In m (all_ids A) \/ In m (all_ids B) -> m <> n /\ m <> p /\ ~ In m (all_ids kids) /\ mem m (map wid mid ++ g) = false /\
              oeqb (headof (map wid mid) None) m = false /\ oeqb (lastof None (map wid mid)) m = false).
    { intros m Hm. assert (Hk : ~ In m (all_ids kids)).
      { intros H. destruct Hm as [Hm|Hm]; [destruct (D1 _ Hm) as [F _]; apply F; right; exact H|apply (D2 m); [right; exact H|exact Hm]]. }
      split; [|split; [|split; [exact Hk|split; [|split]]]].
      - intros ->. destruct Hm as [Hm|Hm]; [destruct (D1 _ Hm) as [F _]; apply F; left; reflexivity|apply (D2 n); [left; reflexivity|exact Hm]].
      - intros ->. tauto.
      - apply mem_out. intros H. apply Hk, Imt, H.
      - apply oeqb_false. intros H. apply Hk, Imt, in_or_app. left. apply Hhead, H.
      - apply oeqb_false. intros H. apply Hk, Imt, in_or_app. left. apply Hlast, H. }
    split.
    - apply (splice s s' p A [W n d kids] B mid).
      + destruct P as (_ & Bl & _). exact Bl.
      + destruct P as (_ & _ & N). apply nodup_app_r in N. exact N.
      + intros m Hm. destruct (NeA m Hm) as (a & b & c & e & f & g0). rewrite R. cbn [parent first last].
        apply Nat.eqb_neq in b. rewrite b, e, (Hs m a c). apply Nat.eqb_neq in a. rewrite a. cbn [andb].
        split; [apply Hi|]. auto.
      + intros m Hm. destruct (NeA m (or_introl Hm)) as (a & b & c & e & f & g0). rewrite R. cbn [prev next].
        rewrite f, g0, (Hs m a c). apply Nat.eqb_neq in a. rewrite a.
        assert (oeqb (headof (map wid B) None) m = false) as ->.
        { apply oeqb_false. intros H. apply T3 in H. destruct (D1 m Hm). contradiction. }
        rewrite map_app, headof_app. auto.
      + intros m Hm. destruct (NeA m (or_intror Hm)) as (a & b & c & e & f & g0). rewrite R. cbn [prev next].
        rewrite f, g0, (Hs m a c). apply Nat.eqb_neq in a. rewrite a.
        assert (oeqb (lastof None (map wid A)) m = false) as ->.
        { apply oeqb_false. intros H. apply T2 in H. destruct H as [H _]. destruct (D1 m H). contradiction. }
        rewrite map_app, lastof_app. auto.
      + rewrite Forall_forall in *. intros u Hu. eapply holds_frame; [apply Fm, Hu| |].
        * intros m Hm. assert (Hk : In m (all_ids kids)) by (apply Im, in_flat_map; exists u; auto).
          rewrite R. cbn [first last]. destruct (Nat.eqb_spec m n) as [->|]; [contradiction|].
          destruct (Nat.eqb_spec m p) as [->|]; [contradiction|]. auto.
        * intros m Hm. assert (Hmm : In m (all_ids mid)) by (apply in_flat_map; exists u; split; [exact Hu|]; rewrite ids_eq; right; exact Hm).
          assert (Hk : In m (all_ids kids)) by (apply Im, Hmm).
          assert (Hnt : ~ In m (map wid mid)) by (eapply deep_not_top; eauto).
          rewrite R. cbn [parent prev next]. destruct (Nat.eqb_spec m n) as [->|]; [contradiction|].
          assert (mem m (map wid mid ++ g) = false) as ->.
          { apply mem_out. rewrite in_app_iff. intros [H|H]; [contradiction|]. apply (Dg m H Hmm). }
          destruct (T1 m) as [a b]; [right; exact Hk|]. apply oeqb_false in a, b. rewrite a, b.
          assert (oeqb (headof (map wid mid) None) m = false) as -> by (apply oeqb_false; intros H; apply Hnt, Hhead, H).
          assert (oeqb (lastof None (map wid mid)) m = false) as -> by (apply oeqb_false; intros H; apply Hnt, Hlast, H).
          auto.
      + assert (Hx : forall x, In x (map wid mid) -> x <> n /\ mem x (map wid mid ++ g) = true /\
                  oeqb (lastof None (map wid A)) x = false /\ oeqb (headof (map wid B) None) x = false).
        { intros x Hx. assert (Hk : In x (all_ids kids)) by (apply Im, map_wid_all, Hx). destruct (T1 x) as [a b]; [right; exact Hk|].
          split; [intros ->; contradiction|]. split; [apply mem_in, in_or_app; left; exact Hx|]. apply oeqb_false in a, b. auto. }
        apply seg_of.
        * intros x H. destruct (Hx x H) as (a & b & _). rewrite R. cbn [parent]. apply Nat.eqb_neq in a. rewrite a, b. reflexivity.
        * eapply prevs_rehead; [apply nodup_tops, Nm| |exact Hpv]. intros x H. destruct (Hx x H) as (a & b & c & e). rewrite R. cbn [prev].
          apply Nat.eqb_neq in a. rewrite a, e. reflexivity.
        * apply nexts_app in Hnx. destruct Hnx as [Hnx _].
          eapply nexts_retarget; [apply nodup_tops, Nm| |exact Hnx]. intros x H. destruct (Hx x H) as (a & b & c & e). rewrite R. cbn [next].
          apply Nat.eqb_neq in a. rewrite a, c. reflexivity.
      + rewrite R. cbn [first]. rewrite (Hs p Hpn Hpk). apply Nat.eqb_neq in Hpn. rewrite Hpn, Nat.eqb_refl, e4, !map_app. cbn [map app andb].
        destruct (map wid A) as [|a0 r0] eqn:EA; [cbn [lastof is_none app]; rewrite headof_app; reflexivity|].
        destruct (lastof_in None (a0 :: r0)) as (z & -> & _); [discriminate|]. reflexivity.
      + rewrite R. cbn [last]. rewrite (Hs p Hpn Hpk). apply Nat.eqb_neq in Hpn. rewrite Hpn, Nat.eqb_refl, e5, !map_app. cbn [map app andb].
        rewrite !lastof_app. cbn [lastof]. destruct (map wid B) as [|b0 r0] eqn:EB; reflexivity.
    - split; [|split].
      + intros m a b. rewrite R. rewrite all_ids_app, all_ids_cons, !in_app_iff in b. cbn [ids] in b.
        assert (m <> n) by (intros ->; apply b; right; left; left; reflexivity).
        assert (Hk : ~ In m (all_ids kids)) by (intros H'; apply b; right; left; right; exact H').
        rewrite (Hs m H Hk).
        destruct (Nat.eqb_spec m n) as [->|_]; [contradiction|].
        destruct (Nat.eqb_spec m p) as [->|_]; [contradiction|]. cbn [andb].
        assert (oeqb (lastof None (map wid A)) m = false) as -> by (apply oeqb_false; intros H'; apply T2 in H'; tauto).
        assert (oeqb (headof (map wid B) None) m = false) as -> by (apply oeqb_false; intros H'; apply T3 in H'; tauto).
        assert (mem m (map wid mid ++ g) = false) as -> by (apply mem_out; intros H'; apply Hk, Imt, H').
        assert (oeqb (headof (map wid mid) None) m = false) as -> by (apply oeqb_false; intros H'; apply Hk, Imt, in_or_app; left; apply Hhead, H').
        assert (oeqb (lastof None (map wid mid)) m = false) as -> by (apply oeqb_false; intros H'; apply Hk, Imt, in_or_app; left; apply Hlast, H').
        destruct (w_heap s m); reflexivity.
      + rewrite R. cbn [parent prev next]. rewrite (Hs p Hpn Hpk). apply Nat.eqb_neq in Hpn. rewrite Hpn.
        assert (oeqb (lastof None (map wid A)) p = false) as -> by (apply oeqb_false; intros H; apply T2 in H; tauto).
        assert (oeqb (headof (map wid B) None) p = false) as -> by (apply oeqb_false; intros H; apply T3 in H; tauto).
        assert (mem p (map wid mid ++ g) = false) as -> by (apply mem_out; intros H'; apply Hpk, Imt, H').
        assert (oeqb (headof (map wid mid) None) p = false) as -> by (apply oeqb_false; intros H'; apply Hpk, Imt, in_or_app; left; apply Hhead, H').
        assert (oeqb (lastof None (map wid mid)) p = false) as -> by (apply oeqb_false; intros H'; apply Hpk, Imt, in_or_app; left; apply Hlast, H').
        auto.
      + intros m _. apply Hi.
  Qed.

  (** Replacing the node by all its children. *)
  Theorem op_flatten s anc A n d kids B fuel : place s anc (A ++ W n d kids :: B) -> length kids <= fuel ->
    made_of (W n d kids) kids /\
    exists h', flatten fuel (w_heap s) n = Some h' /\
      below (put_heap s h') (owner anc) (A ++ kids ++ B) /\ only (owner anc) (all_ids (A ++ W n d kids :: B)) s (put_heap s h').
  Proof.
    intros P Fu. destruct (place_node _ _ _ _ _ P) as (p & d' & rest & E & e1 & e2 & e3 & e4 & e5 & Ht & n1 & n2 & n3 & NA & Nt & NB & D1 & D2).
    inversion Ht as [? ? ? _ (a & b & c) Hk]; subst. cbn [ids] in Nt. apply NoDup_cons_iff in Nt. destruct Nt as [Nn Nk].
    apply (op_flatten_gen s s ((p, d') :: rest) A n _ kids kids [] B fuel); auto; rewrite ?app_nil_r; auto.
    - eapply seg_prevs; eauto.
    - eapply seg_nexts; eauto.
    - apply nodup_tops, Nk.
    - intros m [].
    - intros m Hm. exact Hm.
    - rewrite map_length. exact Fu.
  Qed.

  (** Dropping children at the front and at the back, then replacing the node by the others. *)
  Theorem op_strip s anc A n d k1 mid k2 B f fuel : place s anc (A ++ W n d (k1 ++ mid ++ k2) :: B) ->
    (forall x, In x (map wid k1) -> f x = false) -> (forall x, In x (map wid mid) -> f x = true) -> (forall x, In x (map wid k2) -> f x = false) ->
    (mid = [] \/ k2 = [] \/ B <> []) -> S (length (k1 ++ mid ++ k2)) <= fuel ->
    made_of (W n d (k1 ++ mid ++ k2)) mid /\
    exists h1 h', retain_children fuel (w_heap s) n f = Some h1 /\ flatten fuel h1 n = Some h' /\
      below (put_heap s h') (owner anc) (A ++ mid ++ B) /\ only (owner anc) (all_ids (A ++ W n d (k1 ++ mid ++ k2) :: B)) s (put_heap s h').
  Proof.
    intros P F1 F F2 Cond Fu.
    destruct (place_node _ _ _ _ _ P) as (p & d' & rest & -> & e1 & e2 & e3 & e4 & e5 & Ht & n1 & n2 & n3 & NA & Nt & NB & D1 & D2).
    inversion Ht as [? ? ? Hd (a & b & c) Hk Hid]; subst. cbn [ids] in Nt. fold (all_ids (k1 ++ mid ++ k2)) in Nt. apply NoDup_cons_iff in Nt. destruct Nt as [Nn Nk].
    cbn [wid] in *.
    assert (Nk' := Nk). rewrite !all_ids_app in Nk'. apply nodup_app_iff in Nk'. destruct Nk' as (Nk1 & Nk' & Dk1).
    apply nodup_app_iff in Nk'. destruct Nk' as (Nmid & Nk2 & Dk2).
    rewrite !map_app in a, c.
    destruct (retain_middle (w_heap s) n (Some p) f (map wid k1) (map wid mid) (map wid k2) fuel) as (h1 & E1 & R1); auto.
    { constructor; [|rewrite <- !map_app; apply nodup_tops, Nk]. rewrite <- !map_app. intros H. apply Nn, map_wid_all, H. }
    { rewrite <- !map_app, map_length. lia. }
    set (s1 := put_heap s h1). assert (R : forall m, w_heap s1 m = _) by (intros m; apply R1). clear R1.
    set (g := match mid with [] => [] | _ => match map wid k2 with [] => [] | y :: _ => [y] end end).
    assert (Hg : forall x, In x g -> In x (map wid k2)).
    { unfold g. destruct mid; [intros x []|]. destruct (map wid k2) as [|y r]; [intros x []|]. intros x [<-|[]]. left. reflexivity. }
    assert (Ng : ~ In n (map wid (k1 ++ mid ++ k2))) by (intros H; apply Nn, map_wid_all, H).
    rewrite !map_app, !in_app_iff in Ng.
    assert (Hmem : forall m, mem m (map wid k1 ++ map wid k2) = true -> In m (all_ids k1) \/ In m (all_ids k2)).
    { intros m H. apply mem_in, in_app_iff in H. destruct H as [H|H]; [left|right]; apply map_wid_all, H. }
    assert (Hmid : forall x, In x (all_ids mid) -> mem x (map wid k1 ++ map wid k2) = false).
    { intros x H. destruct (mem x _) eqn:E; [|reflexivity]. apply Hmem in E. destruct E as [E|E]; exfalso.
      - apply (Dk1 x E), in_or_app. left. exact H.
      - apply (Dk2 x H E). }
    assert (Hnmid : forall x, In x (all_ids mid) -> x <> n).
    { intros x H ->. apply Nn. rewrite !all_ids_app, !in_app_iff. auto. }
    assert (Hn : mem n (map wid k1 ++ map wid k2) = false) by (apply mem_out; rewrite in_app_iff; tauto).
    assert (Hhn : oeqb (headof (map wid mid) None) n = false).
    { apply oeqb_false. intros H. apply headof_top in H. tauto. }
    destruct (op_flatten_gen s s1 ((p, d') :: rest) A n (w_info s n) (k1 ++ mid ++ k2) mid g B fuel) as (M & h' & E' & Bl & O); auto;
      try (rewrite R, Hn; cbn [parent prev next first last]; rewrite ?Hhn, ?Nat.eqb_refl; reflexivity).
    - intros m Hm1 Hm2. rewrite R.
      rewrite !all_ids_app, !in_app_iff in Hm2.
      destruct (mem m _) eqn:E; [apply Hmem in E; tauto|].
      assert (oeqb (headof (map wid mid) None) m = false) as ->.
      { apply oeqb_false. intros H. apply headof_top, map_wid_all in H. tauto. }
      apply Nat.eqb_neq in Hm1. rewrite Hm1. destruct (w_heap s m); reflexivity.
    - rewrite <- (app_nil_l (map wid mid)) in c. apply seg_prevs in c.
      assert (Pm : prevs (w_heap s) (lastof None (map wid k1)) (map wid mid)).
      { clear -c. cbn [app] in c. revert c. generalize (@None nat). induction (map wid k1) as [|y r IH]; intros o H; cbn [app lastof] in *.
        - induction (map wid mid) as [|z l IHl] in o, H |- *; [exact Logic.I|]. destruct H. split; auto.
        - destruct H as [_ H]. apply (IH (Some y)) in H. exact H. }
      eapply prevs_rehead; [apply nodup_tops, Nmid| |exact Pm].
      intros x Hx. rewrite R, (Hmid x (map_wid_all _ _ Hx)). cbn [prev]. reflexivity.
    - apply seg_nexts in c. apply nexts_app in c. destruct c as [_ c]. apply nexts_app in c. destruct c as [c1 c2].
      apply nexts_app. split.
      + assert (G : headof g None = headof (map wid k2) None \/ mid = []).
        { unfold g. destruct mid; [right; reflexivity|left]. destruct (map wid k2); reflexivity. }
        destruct G as [G | ->]; [rewrite G|exact Logic.I].
        eapply nexts_ext; [|exact c1]. intros x Hx. rewrite R, (Hmid x (map_wid_all _ _ Hx)). reflexivity.
      + unfold g. destruct mid; [exact Logic.I|]. destruct (map wid k2) as [|y r] eqn:Ek; [exact Logic.I|]. split; [|exact Logic.I].
        rewrite R. assert (mem y (map wid k1 ++ y :: r) = true) as -> by (apply mem_in, in_or_app; right; left; reflexivity).
        reflexivity.
    - apply nodup_app_iff. split; [apply nodup_tops, Nmid|]. split.
      + unfold g. destruct mid; [constructor|]. destruct (map wid k2); repeat constructor. intros [].
      + intros x H1 H2. apply Hg, map_wid_all in H2. apply map_wid_all in H1. apply (Dk2 x H1 H2).
    - intros x Hx. rewrite !all_ids_app, !in_app_iff. right. right. apply map_wid_all, Hg, Hx.
    - intros x H1 H2. apply Hg, map_wid_all in H1. apply (Dk2 x H2 H1).
    - rewrite !Forall_app in Hk. destruct Hk as (_ & Hk & _). rewrite Forall_forall in *. intros u Hu.
      eapply holds_frame; [apply Hk, Hu| |].
      + intros m Hm. assert (Hm' : In m (all_ids mid)) by (apply in_flat_map; exists u; auto).
        rewrite R, (Hmid m Hm'). cbn [first last]. apply Hnmid in Hm'. apply Nat.eqb_neq in Hm'. rewrite Hm'. auto.
      + intros m Hm. assert (Hm' : In m (all_ids mid)) by (apply in_flat_map; exists u; split; [exact Hu|]; rewrite ids_eq; right; exact Hm).
        rewrite R, (Hmid m Hm'). cbn [parent prev next].
        assert (oeqb (headof (map wid mid) None) m = false) as ->; [|auto].
        apply oeqb_false. intros H. apply headof_top in H. revert H. eapply deep_not_top; eauto.
    - intros x Hx. rewrite !all_ids_app, !in_app_iff. auto.
    - intros ->. reflexivity.
    - intros HB. unfold g. destruct mid; [reflexivity|]. destruct Cond as [C|[C|C]]; [discriminate| |contradiction]. subst k2. reflexivity.
    - rewrite app_length, map_length. assert (length g <= 1) by (unfold g; destruct mid; [cbn; lia|]; destruct (map wid k2); cbn; lia).
      rewrite !app_length in Fu. lia.
    - split; [exact M|]. exists h1, h'. auto.
  Qed.
End Ops.
