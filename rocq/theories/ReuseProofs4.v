(** Proofs about reusePaths: the whole job. *)
From Coq Require Import String List NArith Bool Arith Lia Sorting.Permutation.
From Verif Require Import Chars ClockModel ClockProofs ReuseModel ReuseSpec ReuseProofs ReuseProofs2 ReuseProofs3.
Import ListNotations.

Lemma lists_ok : forall el df hr gs d n, ready d df gs n ->
  let r := fold_left (fun r ks => one_list el df hr ks r) gs (d, n) in ready (fst r) df [] (snd r) /\ forall o, picture d o -> picture (fst r) o.
Proof.
  intros el df hr gs. induction gs as [|ks gs IH]; intros d n R; [split; [exact R|intros o H; exact H]|]. cbn [fold_left].
  destruct (one_list_ok el df hr ks gs d n R) as [R' P1]. destruct (one_list el df hr ks (d, n)) as [d' n']. cbn [fst snd] in *.
  destruct (IH d' n' R') as [R'' P2]. split; [exact R''|]. intros o H. apply P2. apply P1. exact H.
Qed.
Lemma declare_ok : forall df d o, picture d o -> picture (declare df d) o.
Proof.
  intros df d o. unfold declare. destruct (childless (shape d) df); [intros H; exact H|]. apply (picture_ext _ _ 0 [] []).
  - rewrite graft_nil. reflexivity.
  - intros i _. cbn [set shape]. rewrite <- (graft_nil 0 (shape d)) at 1. apply lookup_graft; [|intros s []]. intros k _. unfold has_id, set. cbn [cells].
    destruct (Nat.eqb_spec k df) as [->|_]; reflexivity.
  - intros k _. right. unfold kept, set. cbn [cells]. destruct (Nat.eqb_spec k df) as [->|_]; cbn [fst snd with_xlink a_d a_href]; repeat split.
  - right. intros e. split; constructor.
Qed.

(** Collecting the paths. *)
Record gathered (d : doc) (L : list nat) (s : state) : Prop := {
  g_list : forall q ks k, In (q, ks) (paths s) -> In k ks ->
    In k L /\ fst (cells d k) = Path /\ exists g, a_d (snd (cells d k)) = Some g /\ q = (g, a_stroke (snd (cells d k)), a_fill (snd (cells d k)));
  g_nodup : NoDup (concat (map snd (paths s)));
  g_defs : forall df, defs s = Some df -> In df L /\ fst (cells d df) = Defs }.
Lemma opt_eqb_spec : forall a b, opt_eqb a b = true -> a = b.
Proof. intros [a|] [b|] E; try discriminate; [|reflexivity]. apply Nat.eqb_eq in E. congruence. Qed.
Lemma pkey_eqb_spec : forall a b, pkey_eqb a b = true -> a = b.
Proof.
  intros [[a b] c] [[a' b'] c'] E. unfold pkey_eqb in E. apply andb_true_iff in E. destruct E as [E E3]. apply andb_true_iff in E. destruct E as [E1 E2].
  apply Nat.eqb_eq in E1. apply opt_eqb_spec in E2, E3. congruence.
Qed.
Lemma add_perm : forall q k l, Permutation (concat (map snd (add q k l))) (k :: concat (map snd l)).
Proof.
  intros q k l. induction l as [|[q' ks] l IH]; [apply Permutation_refl|]. cbn [add]. destruct (pkey_eqb q' q).
  - cbn [map snd concat]. rewrite <- app_assoc. apply Permutation_sym. apply Permutation_middle.
  - cbn [map snd concat]. rewrite IH. apply Permutation_sym. apply Permutation_middle.
Qed.
Lemma add_In : forall q k l q' ks, In (q', ks) (add q k l) -> forall k', In k' ks -> (k' = k /\ q' = q) \/ exists ks', In (q', ks') l /\ In k' ks'.
Proof.
  intros q k l. induction l as [|[q1 ks1] l IH]; intros q' ks I0 k' K.
  - destruct I0 as [E|[]]. injection E as <- <-. destruct K as [->|[]]. left. split; reflexivity.
  - cbn [add] in I0. destruct (pkey_eqb q1 q) eqn:E.
    + apply pkey_eqb_spec in E. destruct I0 as [I0|I0].
      * injection I0 as <- <-. apply in_app_iff in K. destruct K as [K|[->|[]]]; [right; exists ks1; split; [left; reflexivity|exact K]|left; split; [reflexivity|exact E]].
      * right. exists ks. split; [right; exact I0|exact K].
    + destruct I0 as [I0|I0].
      * injection I0 as <- <-. right. exists ks1. split; [left; reflexivity|exact K].
      * destruct (IH q' ks I0 k' K) as [H|(ks' & H1 & H2)]; [left; exact H|]. right. exists ks'. split; [right; exact H1|exact H2].
Qed.
Lemma gather_more : forall d L s k, gathered d L s -> gathered d (L ++ [k]) s.
Proof.
  intros d L s k [G1 G2 G3]. constructor; [|exact G2|].
  - intros q ks j I0 K. destruct (G1 q ks j I0 K) as (H1 & H2). split; [apply in_app_iff; left; exact H1|exact H2].
  - intros df E. destruct (G3 df E) as (H1 & H2). split; [apply in_app_iff; left; exact H1|exact H2].
Qed.
Lemma enter_ok : forall d L s k, gathered d L s -> ~ In k L -> gathered d (L ++ [k]) (enter d k s).
Proof.
  intros d L s k G0 N0. pose proof (gather_more d L s k G0) as [G1 G2 G3]. unfold enter. destruct (fst (cells d k)) eqn:T.
  - unfold add_path. destruct (a_d (snd (cells d k))) as [g|] eqn:D; [|constructor; assumption]. constructor; [| |exact G3].
    + cbn [paths]. intros q ks j I0 K. destruct (add_In _ _ _ _ _ I0 j K) as [(-> & ->)|(ks' & H1 & H2)].
      * split; [apply in_app_iff; right; left; reflexivity|]. split; [exact T|]. exists g. split; [exact D|reflexivity].
      * exact (G1 q ks' j H1 H2).
    + cbn [paths]. eapply Permutation_NoDup; [apply Permutation_sym; apply add_perm|]. constructor; [|exact G2].
      intros I0. apply in_concat in I0. destruct I0 as (ks & I1 & I2). apply in_map_iff in I1. destruct I1 as ([q ks'] & E & I1). cbn in E. subst.
      destruct G0 as [G1' _ _]. exact (N0 (proj1 (G1' q ks k I1 I2))).
  - destruct (a_href (snd (cells d k))) as [[|c [|c' h]]|]; [constructor; assumption|constructor; assumption| |constructor; assumption].
    destruct (N.eqb c 35); constructor; assumption.
  - destruct (defs s) eqn:D; [constructor; [exact G1|exact G2|rewrite D in *; exact G3]|].
    destruct (option_map (fun q => fst (cells d q)) (parent (shape d) k)) as [[]|]; try (constructor; [exact G1|exact G2|intros df E; congruence]).
    constructor; [exact G1|exact G2|]. cbn [defs]. intros df E. injection E as <-. split; [apply in_app_iff; right; left; reflexivity|exact T].
  - constructor; assumption.
  - constructor; assumption.
  - constructor; assumption.
Qed.
Lemma enters_ok : forall d L M s, gathered d L s -> NoDup (L ++ M) -> gathered d (L ++ M) (fold_left (fun s k => enter d k s) M s).
Proof.
  intros d L M. revert L. induction M as [|k M IH]; intros L s G0 ND; [rewrite app_nil_r; exact G0|]. cbn [fold_left].
  replace (L ++ k :: M) with ((L ++ [k]) ++ M) in * by (rewrite <- app_assoc; reflexivity). apply IH; [|exact ND]. apply enter_ok; [exact G0|].
  rewrite <- app_assoc in ND. cbn [app] in ND. apply NoDup_remove_2 in ND. intros I0. apply ND. apply in_app_iff. left. exact I0.
Qed.

Lemma events_inner : forall d t s, (forall k, In k (keys t) -> k <> root (shape d) /\ fst (cells d k) <> Svg) ->
  fold_left visit (events t) (d, s) = (d, fold_left (fun s k => enter d k s) (keys t) s).
Proof.
  intros d t. induction t as [k l IH] using tree_ind'. intros s K. rewrite keys_node in *. cbn [events fold_left]. rewrite fold_left_app.
  assert (A : forall s, fold_left visit (flat_map events l) (d, s) = (d, fold_left (fun s k => enter d k s) (flat_map keys l) s)).
  { assert (K' : forall k, In k (flat_map keys l) -> k <> root (shape d) /\ fst (cells d k) <> Svg) by (intros j J; apply K; right; exact J). clear K.
    induction l as [|t l IHl]; intros s0; [reflexivity|]. cbn [flat_map]. rewrite !fold_left_app.
    rewrite (Forall_inv IH) by (intros j J; apply K'; cbn [flat_map]; apply in_app_iff; left; exact J).
    apply IHl; [exact (Forall_inv_tail IH)|intros j J; apply K'; cbn [flat_map]; apply in_app_iff; right; exact J]. }
  change (visit (d, s) (Enter k)) with (d, enter d k s). rewrite A. cbn [fold_left visit]. unfold leave.
  destruct (K k (or_introl eq_refl)) as [K1 K2]. destruct (Nat.eqb_spec k (root (shape d))) as [E|_]; [contradiction|].
  destruct (fst (cells d k)); try reflexivity. congruence.
Qed.
Lemma job_form : forall d, sound d -> one_svg d ->
  reuse_paths true d = fst (leave (root (shape d)) (d, fold_left (fun s k => enter d k s) (keys (shape d)) (mkState [] None []))).
Proof.
  intros d [S1 _] O1. unfold reuse_paths. destruct (shape d) as [r l] eqn:E. cbn [events fold_left]. rewrite fold_left_app. rewrite keys_node in *. cbn [fold_left root].
  assert (A : forall s, fold_left visit (flat_map events l) (d, s) = (d, fold_left (fun s k => enter d k s) (flat_map keys l) s)).
  { assert (K' : forall k, In k (flat_map keys l) -> k <> root (shape d) /\ fst (cells d k) <> Svg).
    { intros k K. apply NoDup_cons_iff in S1. destruct S1 as [S1 _]. split.
      - rewrite E. cbn [root]. intros ->. contradiction.
      - intros T. assert (k = root (shape d)). { apply (O1 k (snd (cells d k))); [rewrite E, keys_node; right; exact K|]. rewrite <- T. apply surjective_pairing. }
        rewrite E in H. cbn [root] in H. subst. contradiction. }
    clear S1 E. induction l as [|t l IHl]; intros s0; [reflexivity|]. cbn [flat_map]. rewrite !fold_left_app.
    rewrite events_inner by (intros j J; apply K'; cbn [flat_map]; apply in_app_iff; left; exact J).
    apply IHl; intros j J; apply K'; cbn [flat_map]; apply in_app_iff; right; exact J. }
  change (visit (d, mkState [] None []) (Enter r)) with (d, enter d r (mkState [] None [])). rewrite A. reflexivity.
Qed.

Lemma root_In : forall t, In (root t) (keys t).
Proof. intros [k l]. rewrite keys_node. left. reflexivity. Qed.

Theorem same_picture : forall d o, simple d -> picture d o -> picture (reuse_paths true d) o.
Proof.
  intros d o (S1 & U1 & O1 & F1 & P1) W. rewrite (job_form d S1 O1). set (s := fold_left _ _ _).
  assert (G0 : gathered d (keys (shape d)) s).
  { apply (enters_ok d [] (keys (shape d)) (mkState [] None [])); [|exact (proj1 S1)]. constructor; [intros q ks k []|constructor|discriminate]. }
  clearbody s. destruct G0 as [G1 G2 G3]. unfold leave. rewrite Nat.eqb_refl. cbn [negb andb]. destruct (paths s) as [|g0 gs0] eqn:Ep; [exact W|]. rewrite <- Ep in *. clear Ep g0 gs0.
  assert (Rep : forall ks k, In ks (map snd (paths s)) -> 2 <= List.length ks -> In k ks -> repeated d k).
  { intros ks k I0 Len K. apply in_map_iff in I0. destruct I0 as ([q ks'] & E & I0). cbn in E. subst ks'.
    assert (ND : NoDup ks).
    { clear - G2 I0. induction (paths s) as [|[q' ks'] l IH]; [destruct I0|]. cbn [map snd concat] in G2. destruct I0 as [E|I0]; [injection E as -> ->; exact (NoDup_app_remove_r _ _ G2)|].
      apply IH; [exact (NoDup_app_remove_l _ _ G2)|exact I0]. }
    assert (X : exists k', In k' ks /\ k' <> k).
    { destruct ks as [|x [|y ks]]; cbn [List.length] in Len; try lia. destruct (Nat.eq_dec x k) as [->|Nx]; [|exists x; split; [left; reflexivity|exact Nx]].
      exists y. split; [right; left; reflexivity|]. intros ->. apply NoDup_cons_iff in ND. apply (proj1 ND). left. reflexivity. }
    destruct X as (k' & K' & Nk). destruct (G1 q ks k I0 K) as (H1 & H2 & g & H3 & H4). destruct (G1 q ks k' I0 K') as (H1' & H2' & g' & H3' & H4').
    split; [exact H1|]. exists k'. split; [exact H1'|]. split; [exact Nk|]. exists (snd (cells d k)), (snd (cells d k')).
    assert (g = g') by congruence. subst g'.
    refine (conj _ (conj _ (conj _ (conj _ (conj _ _))))); [rewrite <- H2; apply surjective_pairing|rewrite <- H2'; apply surjective_pairing|congruence|congruence|congruence|congruence]. }
  assert (Eq : forall ks k k', In ks (map snd (paths s)) -> In k ks -> In k' ks -> equals d k k').
  { intros ks k k' I0 K K'. apply in_map_iff in I0. destruct I0 as ([q ks'] & E & I0). cbn in E. subst ks'.
    destruct (G1 q ks k I0 K) as (H1 & H2 & g & H3 & H4). destruct (G1 q ks k' I0 K') as (H1' & H2' & g' & H3' & H4'). unfold equals. assert (g = g') by congruence. subst g'.
    repeat split; congruence. }
  assert (Pm : forall ks k, In ks (map snd (paths s)) -> In k ks -> fst (cells d k) = Path /\ a_d (snd (cells d k)) <> None).
  { intros ks k I0 K. apply in_map_iff in I0. destruct I0 as ([q ks'] & E & I0). cbn in E. subst ks'. destruct (G1 q ks k I0 K) as (H1 & H2 & g & H3 & H4). split; congruence. }
  destruct (defs s) as [df|] eqn:Ed.
  - destruct (G3 df eq_refl) as [D1 D2].
    assert (R : ready d df (map snd (paths s)) 0).
    { constructor; [exact S1|exact U1|split; [exact D1|exact D2]|intros m _; exact (F1 m)| |intros ks k k' I0 _; apply Eq; exact I0|exact G2].
      intros ks k I0 Len K. assert (Rk := Rep ks k I0 Len K). destruct (P1 k Rk) as (Q1 & Q2 & Q3 & Q4 & Q5 & Q6). destruct (Pm ks k I0 K) as [M1 M2].
      refine (conj (proj1 Rk) (conj M1 (conj M2 (conj Q1 (conj _ (conj Q3 (conj Q4 (conj Q5 Q6)))))))).
      apply (Q2 df (snd (cells d df))). rewrite <- D2. apply surjective_pairing. }
    destruct (lists_ok (root (shape d)) df (hrefs s) (map snd (paths s)) d 0%N R) as [_ L]. 
    destruct (fold_left _ _ _) as [d' n']. cbn [fst snd] in *. apply declare_ok. apply L. exact W.
  - set (p := fresh d). set (el := root (shape d)). set (d1 := create d (Defs, bare) (fun p => graft el [p] [])).
    assert (Fr : ~ In p (keys (shape d))).
    { intros I1. destruct S1 as [_ S1]. rewrite Forall_forall in S1. specialize (S1 p I1). unfold p in S1. lia. }
    assert (Sh : shape d1 = graft el [Node p []] [] (shape d)) by reflexivity.
    assert (Cp : cells d1 p = (Defs, bare)) by (unfold d1, create; cbn [cells]; fold p; rewrite Nat.eqb_refl; reflexivity).
    assert (Co : forall k, k <> p -> cells d1 k = cells d k).
    { intros k Kp. unfold d1, create. cbn [cells]. fold p. destruct (Nat.eqb_spec k p); [contradiction|reflexivity]. }
    assert (Ks : forall k, In k (keys (shape d1)) <-> In k (keys (shape d)) \/ k = p).
    { intros k. rewrite Sh, graft_keys. cbn. split; [intros [H|(_ & [H|[]])]; [left; exact H|right; symmetry; exact H]|intros [H| ->]; [left; exact H|right; split; [apply root_In|left; reflexivity]]]. }
    assert (Sub : forall t, In t (flat_map subs ([Node p []] ++ [])) -> t = Node p []) by (intros t [<-|[]]; reflexivity).
    assert (Rf : forall x, referred d1 x -> referred d x).
    { intros x (k & K & Hx). apply Ks in K. destruct K as [K| ->]; [|rewrite Cp in Hx; discriminate]. exists k. rewrite Co in Hx by (intros ->; contradiction). split; assumption. }
    assert (Ids : forall k x, has_id d1 k x -> has_id d k x /\ k <> p).
    { intros k x Hx. unfold has_id in *. destruct (Nat.eq_dec k p) as [->|Kp]; [rewrite Cp in Hx; discriminate|]. rewrite (Co k Kp) in Hx. split; assumption. }
    assert (W1 : picture d1 o).
    { apply (picture_ext d d1 el [Node p []] []); [exact Sh| | | |exact W].
      - intros x _. rewrite Sh. apply lookup_graft.
        + intros k K. unfold has_id. rewrite Co by (intros ->; contradiction). reflexivity.
        + intros t T. rewrite (Sub t T). cbn [root]. intros Hx. exact (proj2 (Ids p x Hx) eq_refl).
      - intros k K. right. unfold kept. rewrite Co by (intros ->; contradiction). repeat split.
      - right. intros e. split; [|constructor]. change (@nil drawn) with (@nil drawn ++ []). constructor; [|constructor]. eapply draws_hidden. left. exact Cp. }
    assert (R : ready d1 p (map snd (paths s)) 0).
    { constructor.
      - split.
        + rewrite Sh. apply graft_NoDup; [exact (proj1 S1)|cbn; constructor; [intros []|constructor]|intros k [<-|[]]; exact Fr].
        + rewrite Forall_forall. intros k K. apply Ks in K. change (fresh d1) with (S p). destruct K as [K| ->]; [|lia]. destruct S1 as [_ S1]. rewrite Forall_forall in S1. specialize (S1 k K). unfold p. lia.
      - intros k k' x K K' Hk Hk'. destruct (Ids k x Hk) as [A1 A2]. destruct (Ids k' x Hk') as [B1 B2]. apply Ks in K. apply Ks in K'.
        destruct K as [K|K]; [|contradiction]. destruct K' as [K'|K']; [|contradiction]. exact (U1 k k' x K K' A1 B1).
      - split; [apply Ks; right; reflexivity|rewrite Cp; reflexivity].
      - intros m _. split; [intros Rr; exact (proj1 (F1 m) (Rf _ Rr))|]. intros k K Hk. destruct (Ids k _ Hk) as [A1 A2]. apply Ks in K. destruct K as [K|K]; [|contradiction]. exact (proj2 (F1 m) k K A1).
      - intros ks k I0 Len K. assert (Rk := Rep ks k I0 Len K). destruct (P1 k Rk) as (Q1 & Q2 & Q3 & Q4 & Q5 & Q6). destruct (Pm ks k I0 K) as [M1 M2].
        assert (Kp : k <> p) by (intros ->; exact (Fr (proj1 Rk))). unfold member. rewrite (Co k Kp).
        refine (conj (proj2 (Ks k) (or_introl (proj1 Rk))) (conj M1 (conj M2 (conj _ (conj _ (conj Q3 (conj Q4 (conj Q5 _)))))))).
        + destruct (Nat.eq_dec k el) as [->|Ne].
          * exfalso. destruct Rk as [_ (k' & K' & Nk & _)]. unfold el in *. clear - Q1 K' Nk. destruct (shape d) as [r l]. cbn [root] in *. rewrite (Q1 l (or_introl eq_refl)) in K'. cbn in K'. destruct K' as [K'|[]]. congruence.
          * rewrite Sh. apply lonely_graft; [exact Q1|exact Ne|]. intros t T. rewrite (Sub t T). intros E. exact (Kp (eq_sym E)).
        + intros (l & t & I1 & T1 & T2). rewrite Sh in I1. apply graft_subs in I1. destruct I1 as [([j m] & J1 & J2)|(_ & J)].
          * cbn [graft] in J2. injection J2 as -> _. apply Fr. apply keys_In. exists m. exact J1.
          * apply Sub in J. injection J as ->. destruct T1.
        + intros x Hx Rr. exact (Q6 x (proj1 (Ids k x Hx)) (Rf x Rr)).
      - intros ks k k' I0 Len K K'. assert (A : forall j, In j ks -> j <> p) by (intros j J ->; exact (Fr (proj1 (Rep ks p I0 Len J)))).
        unfold equals. rewrite (Co k (A k K)), (Co k' (A k' K')). exact (Eq ks k k' I0 K K').
      - exact G2. }
    destruct (lists_ok el p (hrefs s) (map snd (paths s)) d1 0%N R) as [_ L]. 
    cbn [hrefs paths].
    destruct (fold_left _ _ _) as [d' n']. cbn [fst snd] in *. apply declare_ok. apply L. exact W1.
Qed.
Theorem no_paths : forall d, (forall k, In k (keys (shape d)) -> fst (cells d k) = Path -> a_d (snd (cells d k)) = None) -> reuse_paths true d = d.
Proof.
  intros d H. unfold reuse_paths.
  assert (A : forall t s, incl (keys t) (keys (shape d)) -> paths s = [] -> exists s', fold_left visit (events t) (d, s) = (d, s') /\ paths s' = []).
  { intros t. induction t as [k l IH] using tree_ind'. intros s I0 E. rewrite keys_node in I0. cbn [events fold_left]. rewrite fold_left_app. change (visit (d, s) (Enter k)) with (d, enter d k s).
    assert (E1 : paths (enter d k s) = []).
    { unfold enter. destruct (fst (cells d k)) eqn:T; try exact E.
      - unfold add_path. rewrite (H k (I0 k (or_introl eq_refl)) T). exact E.
      - destruct (a_href (snd (cells d k))) as [[|c [|c' h]]|]; try exact E. destruct (N.eqb c 35); exact E.
      - destruct (defs s); [exact E|]. destruct (option_map _ _) as [[]|]; exact E. }
    assert (B : forall s, paths s = [] -> exists s', fold_left visit (flat_map events l) (d, s) = (d, s') /\ paths s' = []).
    { assert (I1 : incl (flat_map keys l) (keys (shape d))) by (intros j J; apply I0; right; exact J). clear I0 E1 E. induction l as [|t l IHl]; intros s0 E0; [exists s0; split; [reflexivity|exact E0]|].
      cbn [flat_map]. rewrite fold_left_app. destruct (Forall_inv IH s0) as (s1 & H1 & H2); [intros j J; apply I1; cbn [flat_map]; apply in_app_iff; left; exact J|exact E0|].
      rewrite H1. apply IHl; [exact (Forall_inv_tail IH)|intros j J; apply I1; cbn [flat_map]; apply in_app_iff; right; exact J|exact H2]. }
    destruct (B _ E1) as (s' & B1 & B2). rewrite B1. exists s'. split; [|exact B2]. cbn [fold_left visit]. unfold leave. rewrite B2. destruct (negb _ && negb _); reflexivity. }
  destruct (A (shape d) (mkState [] None []) (fun k K => K) eq_refl) as (s' & A1 & _). rewrite A1. reflexivity.
Qed.
