From Coq Require Import List Arith Bool Lia.
From Verif Require Import DomModel DomSpec DomProofs WalkModel WalkSpec WalkProofs.
Import ListNotations.

(** ** Heaps, node by node *)
Definition is_none {T} (o : option T) : bool := match o with None => true | Some _ => false end.
Definition mem (m : nat) (l : list nat) : bool := existsb (Nat.eqb m) l.
Lemma mem_in m l : mem m l = true <-> In m l.
Proof.
  unfold mem. rewrite existsb_exists. split; [intros (x & H & E); apply Nat.eqb_eq in E; subst; exact H|].
  intros H. exists m. rewrite Nat.eqb_refl. auto.
Qed.
Lemma mem_out m l : mem m l = false <-> ~ In m l.
Proof. rewrite <- mem_in. destruct (mem m l); split; congruence. Qed.
Lemma oeqb_true o m : oeqb o m = true <-> o = Some m.
Proof.
  destruct o as [a|]; cbn [oeqb]; [rewrite Nat.eqb_eq|]; split; congruence.
Qed.
Lemma oeqb_false o m : oeqb o m = false <-> o <> Some m.
Proof. rewrite <- oeqb_true. destruct (oeqb o m); split; congruence. Qed.

Lemma node_ext (a b : node) : parent a = parent b -> next a = next b -> prev a = prev b ->
  first a = first b -> last a = last b -> ndata a = ndata b -> a = b.
Proof. destruct a, b; cbn; intros; subst; reflexivity. Qed.
Ltac fields :=
  apply node_ext; cbn [parent next prev first last ndata]; autorewrite with look;
  repeat match goal with |- context [?a =? ?b] => destruct (Nat.eqb_spec a b); subst end;
  cbn [andb]; try congruence; try reflexivity.

Lemma remove_fields h n p pr nx : parent (h n) = Some p -> prev (h n) = pr -> next (h n) = nx ->
  pr <> Some n -> nx <> Some n -> forall m,
  remove h n m = mkNode
    (if m =? n then None else parent (h m))
    (if m =? n then None else if oeqb pr m then nx else next (h m))
    (if m =? n then None else if oeqb nx m then pr else prev (h m))
    (if (m =? p) && is_none pr then nx else first (h m))
    (if (m =? p) && is_none nx then pr else last (h m))
    (ndata (h m)).
Proof.
  intros Hp Hr Hx N1 N2 m. unfold remove.
  rewrite prev_set_parent, next_set_prev, next_set_parent, Hp, Hr, Hx.
  destruct pr as [pr|], nx as [nx|]; cbn [oeqb is_none]; rewrite ?andb_true_r, ?andb_false_r; fields.
Qed.

(** Following [next] through [l] to [t]. *)
Fixpoint nexts (h : heap) (l : list nat) (t : option nat) : Prop :=
  match l with [] => True | c :: r => next (h c) = headof r t /\ nexts h r t end.
Fixpoint prevs (h : heap) (s : option nat) (l : list nat) : Prop :=
  match l with [] => True | c :: r => prev (h c) = s /\ prevs h (Some c) r end.
Lemma nexts_ext h h' l t : (forall x, In x l -> next (h' x) = next (h x)) -> nexts h l t -> nexts h' l t.
Proof.
  induction l as [|c r IH]; intros E; [auto|]. intros [H1 H2]. split; [rewrite E; [exact H1|left; reflexivity]|].
  apply IH; [|exact H2]. intros x Hx. apply E. right. exact Hx.
Qed.
Lemma nexts_app h a b t : nexts h (a ++ b) t <-> nexts h a (headof b t) /\ nexts h b t.
Proof.
  induction a as [|c r IH]; cbn [app nexts]; [tauto|]. rewrite IH, headof_app. tauto.
Qed.
Lemma seg_nexts h p s l t : seg h p s l t -> nexts h l t.
Proof. revert s. induction l as [|c r IH]; intros s; [auto|]. intros (_ & _ & H & H'). split; eauto. Qed.
Lemma seg_prevs h p s l t : seg h p s l t -> prevs h s l.
Proof. revert s. induction l as [|c r IH]; intros s; [auto|]. intros (_ & H & _ & H'). split; eauto. Qed.
Lemma seg_of h p s l t : (forall x, In x l -> parent (h x) = Some p) -> prevs h s l -> nexts h l t -> seg h p s l t.
Proof.
  revert s. induction l as [|c r IH]; intros s E; [auto|]. intros [H1 H2] [H3 H4].
  split; [apply E; left; reflexivity|]. split; [exact H1|]. split; [exact H3|]. apply IH; auto.
  intros x Hx. apply E. right. exact Hx.
Qed.
Lemma prevs_ext h h' s l : (forall x, In x l -> prev (h' x) = prev (h x)) -> prevs h s l -> prevs h' s l.
Proof.
  revert s. induction l as [|c r IH]; intros s E; [auto|]. intros [H1 H2]. split; [rewrite E; [exact H1|left; reflexivity]|].
  apply IH; [|exact H2]. intros x Hx. apply E. right. exact Hx.
Qed.
Lemma lastof_in d l : l <> [] -> exists x, lastof d l = Some x /\ In x l.
Proof.
  destruct (snoc_case l) as [->|(l' & y & ->)]; [congruence|]. intros _. exists y. rewrite lastof_snoc.
  split; [reflexivity|]. apply in_or_app. right. left. reflexivity.
Qed.
Lemma nexts_retarget h h' l t t' : NoDup l ->
  (forall x, In x l -> next (h' x) = if oeqb (lastof None l) x then t' else next (h x)) -> nexts h l t -> nexts h' l t'.
Proof.
  induction l as [|c r IH]; intros N E; [auto|]. intros [H1 H2]. inversion N as [|? ? Nc Nr]; subst.
  destruct r as [|e r].
  - split; [|exact Logic.I]. rewrite E by (left; reflexivity). cbn [lastof oeqb headof]. rewrite Nat.eqb_refl. reflexivity.
  - assert (L : lastof None (c :: e :: r) = lastof None (e :: r)) by reflexivity.
    destruct (lastof_in None (e :: r)) as (y & Hy & Hin); [discriminate|].
    split.
    + rewrite E by (left; reflexivity). rewrite L, Hy. cbn [oeqb].
      destruct (Nat.eqb_spec y c) as [->|_]; [contradiction|]. exact H1.
    + apply IH; auto. intros x Hx. rewrite E by (right; exact Hx). rewrite L. reflexivity.
Qed.
Lemma prevs_rehead h h' s s' l : NoDup l ->
  (forall x, In x l -> prev (h' x) = if oeqb (headof l None) x then s' else prev (h x)) -> prevs h s l -> prevs h' s' l.
Proof.
  destruct l as [|c r]; intros N E; [auto|]. intros [H1 H2]. inversion N as [|? ? Nc Nr]; subst. split.
  - rewrite E by (left; reflexivity). cbn [headof oeqb]. rewrite Nat.eqb_refl. reflexivity.
  - eapply prevs_ext; [|exact H2]. intros x Hx. rewrite E by (right; exact Hx). cbn [headof oeqb].
    destruct (Nat.eqb_spec c x) as [->|_]; [contradiction|reflexivity].
Qed.

Lemma nexts_last h l t z : nexts h l t -> lastof None l = Some z -> next (h z) = t.
Proof.
  destruct (snoc_case l) as [->|(l' & y & ->)]; [discriminate|]. rewrite lastof_snoc. intros H [= <-].
  apply nexts_app in H. apply H.
Qed.

(** The loop of [flatten]. *)
Lemma reparent_fields p : forall l fuel h, nexts h l None -> NoDup l -> length l <= fuel ->
  exists h', reparent_from fuel h (headof l None) p = Some h' /\ forall m,
    h' m = mkNode (if mem m l then p else parent (h m)) (next (h m)) (prev (h m)) (first (h m)) (last (h m)) (ndata (h m)).
Proof.
  induction l as [|c r IH]; intros fuel h H N F.
  - exists h. split; [destruct fuel; reflexivity|]. intros m. cbn. destruct (h m); reflexivity.
  - destruct fuel as [|fuel]; [cbn in F; lia|]. destruct H as [H1 H2]. inversion N as [|? ? Nc Nr]; subst.
    destruct (IH fuel (set_parent h c p)) as (h' & E & P); auto; [|cbn in F; lia|].
    { eapply nexts_ext; [|exact H2]. intros x _. apply next_set_parent. }
    exists h'. split.
    + cbn [headof reparent_from]. rewrite next_set_parent, H1. exact E.
    + intros m. rewrite P, parent_set_parent, next_set_parent, prev_set_parent, first_set_parent, last_set_parent, ndata_set_parent.
      cbn [mem existsb]. fold (mem m r). destruct (m =? c), (mem m r); reflexivity.
Qed.

Ltac flat F1 :=
  apply node_ext; cbn [parent next prev first last ndata]; autorewrite with look; rewrite ?F1; cbn [parent next prev first last ndata];
  repeat match goal with |- context [?a =? ?b] => destruct (Nat.eqb_spec a b); subst end;
  cbn [andb]; try congruence; try reflexivity.

(** [flatten] of a node whose first and last child are those of [l]; [g] are nodes that still hang
    behind the last one. *)
Lemma flatten_fields h n p pr nx l g fuel : parent (h n) = Some p -> prev (h n) = pr -> next (h n) = nx ->
  first (h n) = headof l None -> last (h n) = lastof None l -> (l = [] -> g = []) -> (nx = None -> g = []) ->
  nexts h (l ++ g) None -> NoDup (l ++ g) -> ~ In n (l ++ g) -> p <> n -> pr <> Some n -> nx <> Some n ->
  (forall x, In x (l ++ g) -> pr <> Some x /\ nx <> Some x) -> (forall x, pr = Some x -> nx <> Some x) ->
  prev (h n) = pr -> (forall x, headof l None = Some x -> prev (h x) = None) ->
  length (l ++ g) <= fuel ->
  exists h', flatten fuel h n = Some h' /\ forall m,
    h' m = mkNode
      (if m =? n then None else if mem m (l ++ g) then Some p else parent (h m))
      (if m =? n then None else if oeqb pr m then headof l nx else if oeqb (lastof None l) m then nx else next (h m))
      (if m =? n then None else if oeqb nx m then lastof pr l else if oeqb (headof l None) m then pr else prev (h m))
      (if m =? n then None else if (m =? p) && is_none pr then headof l nx else first (h m))
      (if m =? n then None else if (m =? p) && is_none nx then lastof pr l else last (h m))
      (ndata (h m)).
Proof.
  intros Hp Hr Hx Hf Hl Hg Hg' Hn N Nn Npn N1 N2 N3 N4 _ Hh Fu.
  unfold flatten. rewrite first_set_parent, Hp, Hf.
  assert (Hhd : headof l None = headof (l ++ g) None).
  { destruct l; [rewrite (Hg eq_refl)|]; reflexivity. }
  destruct (reparent_fields (Some p) (l ++ g) fuel (set_parent h n None)) as (h1 & E1 & P1); auto.
  { eapply nexts_ext; [|exact Hn]. intros x _. apply next_set_parent. }
  rewrite Hhd, E1, <- Hhd.
  assert (F1 : forall m, h1 m = mkNode (if m =? n then None else if mem m (l ++ g) then Some p else parent (h m))
             (next (h m)) (prev (h m)) (first (h m)) (last (h m)) (ndata (h m))).
  { intros m. rewrite P1, parent_set_parent, next_set_parent, prev_set_parent, first_set_parent, last_set_parent, ndata_set_parent.
    destruct (Nat.eqb_spec m n) as [->|]; [|reflexivity]. apply mem_out in Nn. rewrite Nn. reflexivity. }
  clear E1 P1.
  eexists. split; [reflexivity|]. intros m.
  look. rewrite !F1. cbn [parent next prev first last]. rewrite Hr, Hx, Hf, Hl.
  destruct l as [|c l].
  - cbn [headof lastof oeqb].
    destruct pr as [pr|], nx as [nx|]; cbn [oeqb is_none];
      rewrite ?andb_true_r, ?andb_false_r; flat F1.
  - destruct (lastof_in None (c :: l)) as (z & Hz & Hzin); [discriminate|].
    assert (Hz' : forall d, lastof d (c :: l) = Some z) by (intros d; exact Hz).
    rewrite !Hz'. cbn [headof].
    destruct (N3 c) as [n1 n2]; [left; reflexivity|].
    destruct (N3 z) as [n3 n4]; [apply in_or_app; left; exact Hzin|].
    assert (n5 : z <> n) by (intros ->; apply Nn, in_or_app; left; exact Hzin).
    assert (n6 : c <> n) by (intros ->; apply Nn; left; reflexivity).
    specialize (Hh c eq_refl).
    destruct pr as [pr|], nx as [nx|]; cbn [oeqb is_none];
      rewrite ?andb_true_r, ?andb_false_r; flat F1.
    all: rewrite (Hg' eq_refl), app_nil_r in Hn; apply (nexts_last _ _ _ _ Hn Hz).
Qed.

(** [retain_children] over a run of children that are dropped, and over a run that is kept. *)
Lemma retain_drop n f : forall l fuel h pv rest, (forall x, In x l -> f x = false) -> nexts h l (headof rest None) -> NoDup l ->
  exists h', (forall m, h' m = if mem m l then mkNode None None None (first (h m)) (last (h m)) (ndata (h m)) else h m) /\
    retain_loop (length l + fuel) h n (headof (l ++ rest) None) pv f = retain_loop fuel h' n (headof rest None) pv f.
Proof.
  induction l as [|c r IH]; intros fuel h pv rest F H N.
  - exists h. split; reflexivity.
  - destruct H as [H1 H2]. inversion N as [|? ? Nc Nr]; subst.
    set (h0 := set_next (set_prev (set_parent h c None) c None) c None).
    destruct (IH fuel h0 pv rest) as (h' & P & E); auto.
    { intros x Hx. apply F. right. exact Hx. }
    { eapply nexts_ext; [|exact H2]. intros x Hx. unfold h0. rewrite next_set_next, next_set_prev, next_set_parent.
      destruct (Nat.eqb_spec x c) as [->|]; [contradiction|reflexivity]. }
    exists h'. split.
    + intros m. rewrite P. cbn [mem existsb]. fold (mem m r). unfold h0.
      destruct (mem m r) eqn:Em; [|destruct (Nat.eqb_spec m c) as [->|Ne]].
      * apply mem_in in Em. destruct (Nat.eqb_spec m c) as [->|Ne]; [contradiction|]. cbn [orb]. fields.
      * cbn [orb]. fields.
      * cbn [orb]. fields.
    + cbn [length app headof plus retain_loop]. rewrite (F c) by (left; reflexivity). rewrite H1, <- E, headof_app. reflexivity.
Qed.

Fixpoint pred_of (pv : option nat) (l : list nat) (m : nat) : option nat :=
  match l with [] => None | c :: r => if m =? c then pv else pred_of (Some c) r m end.
Lemma retain_keep n f : forall l fuel h pv rest, (forall x, In x l -> f x = true) -> nexts h l (headof rest None) -> NoDup l -> ~ In n l ->
  exists h', (forall m, h' m = mkNode (parent (h m)) (next (h m)) (if mem m l then pred_of pv l m else prev (h m))
                (if (m =? n) && is_none pv then headof l (first (h m)) else first (h m))
                (if m =? n then lastof (last (h m)) l else last (h m)) (ndata (h m))) /\
    retain_loop (length l + fuel) h n (headof (l ++ rest) None) pv f = retain_loop fuel h' n (headof rest None) (lastof pv l) f.
Proof.
  induction l as [|c r IH]; intros fuel h pv rest F H N Nn.
  - exists h. split; [|reflexivity]. intros m. cbn [mem existsb headof lastof]. destruct (m =? n), (is_none pv); destruct (h m); reflexivity.
  - destruct H as [H1 H2]. inversion N as [|? ? Nc Nr]; subst.
    set (h1 := match pv with None => set_first (set_prev h c pv) n (Some c) | Some _ => set_prev h c pv end).
    set (h0 := set_last h1 n (Some c)).
    destruct (IH fuel h0 (Some c) rest) as (h' & P & E); auto.
    { intros x Hx. apply F. right. exact Hx. }
    { eapply nexts_ext; [|exact H2]. intros x Hx. unfold h0, h1. rewrite next_set_last. destruct pv; rewrite ?next_set_first, next_set_prev; reflexivity. }
    { intros Hn. apply Nn. right. exact Hn. }
    exists h'. split.
    + intros m. rewrite P. cbn [mem existsb pred_of headof lastof is_none]. fold (mem m r). unfold h0, h1.
      assert (Nnc : n <> c) by (intros ->; apply Nn; left; reflexivity).
      destruct (mem m r) eqn:Em.
      * apply mem_in in Em. assert (m <> n) by (intros ->; apply Nn; right; exact Em).
        rewrite orb_true_r. destruct pv; cbn [is_none]; rewrite ?andb_true_r, ?andb_false_r; fields.
      * rewrite orb_false_r. destruct pv; cbn [is_none]; rewrite ?andb_true_r, ?andb_false_r; fields.
    + cbn [length app headof plus retain_loop lastof]. rewrite (F c) by (left; reflexivity). rewrite H1, <- headof_app.
      exact E.
Qed.
Lemma pred_of_prevs h : forall l s, prevs h s l -> NoDup l -> forall m, In m l -> pred_of s l m = prev (h m).
Proof.
  induction l as [|c r IH]; intros s H N m Hm; [destruct Hm|]. destruct H as [H1 H2]. inversion N as [|? ? Nc Nr]; subst.
  cbn [pred_of]. destruct (Nat.eqb_spec m c) as [->|Ne]; [reflexivity|]. apply IH; auto. destruct Hm; [congruence|assumption].
Qed.
Lemma pred_of_head : forall l s s' m, In m l -> pred_of s l m = if oeqb (headof l None) m then s else pred_of s' l m.
Proof.
  intros [|c r] s s' m Hm; [destruct Hm|]. cbn [pred_of headof oeqb]. rewrite (Nat.eqb_sym c m). destruct (m =? c); reflexivity.
Qed.

(** Keeping a middle run. *)
Lemma retain_middle h n p f l1 l l2 fuel : first (h n) = headof (l1 ++ l ++ l2) None -> seg h n None (l1 ++ l ++ l2) None ->
  NoDup (n :: l1 ++ l ++ l2) -> (forall x, In x l1 -> f x = false) -> (forall x, In x l -> f x = true) -> (forall x, In x l2 -> f x = false) ->
  length (l1 ++ l ++ l2) <= fuel -> parent (h n) = p ->
  exists h', retain_children fuel h n f = Some h' /\ forall m,
    h' m = if mem m (l1 ++ l2) then mkNode None None None (first (h m)) (last (h m)) (ndata (h m))
           else mkNode (parent (h m)) (next (h m)) (if oeqb (headof l None) m then None else prev (h m))
                  (if m =? n then headof l None else first (h m)) (if m =? n then lastof None l else last (h m)) (ndata (h m)).
Proof.
  intros Hf Sg N F1 F F2 Fu _. unfold retain_children.
  apply NoDup_cons_iff in N. destruct N as [Nn N].
  rewrite first_set_last, Hf.
  set (h0 := set_first (set_last h n None) n None).
  assert (P0 : forall m, h0 m = mkNode (parent (h m)) (next (h m)) (prev (h m)) (if m =? n then None else first (h m)) (if m =? n then None else last (h m)) (ndata (h m))).
  { intros m. unfold h0. fields. }
  clearbody h0.
  assert (Nx := seg_nexts _ _ _ _ _ Sg). assert (Pv := seg_prevs _ _ _ _ _ Sg).
  apply nexts_app in Nx. destruct Nx as [Nx1 Nx]. apply nexts_app in Nx. destruct Nx as [Nx Nx2].
  apply nodup_app_iff in N. destruct N as (N1 & N & D1). apply nodup_app_iff in N. destruct N as (Nl & N2 & D2).
  rewrite !in_app_iff in Nn.
  destruct (retain_drop n f l1 (length l + (length l2 + (fuel - length (l1 ++ l ++ l2)))) h0 None (l ++ l2)) as (h1 & P1 & E1); auto.
  { eapply nexts_ext; [|exact Nx1]. intros x _. rewrite P0. reflexivity. }
  destruct (retain_keep n f l (length l2 + (fuel - length (l1 ++ l ++ l2))) h1 None l2) as (h2 & P2 & E2); auto.
  { eapply nexts_ext; [|exact Nx]. intros x Hx. rewrite P1. replace (mem x l1) with false; [rewrite P0; reflexivity|].
    symmetry. apply mem_out. intros Hi. apply (D1 x Hi), in_or_app. left. exact Hx. }
  destruct (retain_drop n f l2 (fuel - length (l1 ++ l ++ l2)) h2 (lastof None l) []) as (h3 & P3 & E3); auto.
  { eapply nexts_ext; [|exact Nx2]. intros x Hx. rewrite P2. cbn [next]. rewrite P1. replace (mem x l1) with false; [rewrite P0; reflexivity|].
    symmetry. apply mem_out. intros Hi. apply (D1 x Hi), in_or_app. right. exact Hx. }
  exists h3. split.
  - rewrite !app_length in *.
    replace fuel with (length l1 + (length l + (length l2 + (fuel - (length l1 + (length l + length l2)))))) by lia.
    rewrite app_nil_r in E3. rewrite E1, E2, E3. destruct (fuel - _); reflexivity.
  - intros m. rewrite P3. destruct (mem m l2) eqn:M2.
    + assert (mem m (l1 ++ l2) = true) as -> by (apply mem_in, in_or_app; right; apply mem_in; exact M2).
      apply mem_in in M2. rewrite P2. cbn [first last ndata]. rewrite P1.
      assert (m <> n) by (intros ->; tauto).
      assert (mem m l1 = false) as -> by (apply mem_out; intros Hi; apply (D1 m Hi), in_or_app; right; exact M2).
      rewrite P0. cbn [first last ndata]. destruct (Nat.eqb_spec m n); [contradiction|]. reflexivity.
    + rewrite P2. destruct (mem m l1) eqn:M1.
      * assert (mem m (l1 ++ l2) = true) as -> by (apply mem_in, in_or_app; left; apply mem_in; exact M1).
        apply mem_in in M1. assert (m <> n) by (intros ->; tauto).
        assert (mem m l = false) as -> by (apply mem_out; intros Hi; apply (D1 m M1), in_or_app; left; exact Hi).
        rewrite P1. rewrite (proj2 (mem_in m l1) M1). rewrite P0. cbn [parent next prev first last ndata].
        destruct (Nat.eqb_spec m n); [contradiction|]. reflexivity.
      * assert (mem m (l1 ++ l2) = false) as ->.
        { apply mem_out. rewrite in_app_iff. apply mem_out in M1. apply mem_out in M2. tauto. }
        rewrite P1, M1, P0. cbn [parent next prev first last ndata is_none]. rewrite andb_true_r.
        f_equal.
        -- destruct (mem m l) eqn:Ml.
           ++ apply mem_in in Ml. rewrite (pred_of_head l None (lastof None l1) m Ml).
              destruct (oeqb (headof l None) m); [reflexivity|].
              apply pred_of_prevs; auto. clear -Pv. revert Pv. generalize (@None nat). induction l1 as [|c r IH]; intros s H; cbn [app lastof] in *.
              { induction l as [|d l IHl] in s, H |- *; [exact Logic.I|]. destruct H; split; auto. }
              destruct H as [_ H]. apply (IH (Some c)) in H. exact H.
           ++ apply mem_out in Ml. assert (oeqb (headof l None) m = false) as ->; [|reflexivity].
              apply oeqb_false. destruct l; [discriminate|]. cbn [headof]. intros [= ->]. apply Ml. left. reflexivity.
        -- destruct (Nat.eqb_spec m n); reflexivity.
        -- destruct (Nat.eqb_spec m n); reflexivity.
Qed.
