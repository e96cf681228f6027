(** Proofs about reusePaths: one list of equal paths. *)
From Coq Require Import String List NArith Bool Arith Lia Sorting.Permutation.
From Verif Require Import Chars ClockModel ClockProofs ReuseModel ReuseSpec ReuseProofs ReuseProofs2.
Import ListNotations.

Lemma NoDup_app_remove_l : forall (l m : list nat), NoDup (l ++ m) -> NoDup m.
Proof. intros l m. induction l as [|x l IH]; intros H; [exact H|]. cbn [app] in H. apply NoDup_cons_iff in H. exact (IH (proj2 H)). Qed.
Lemma NoDup_app_remove_r : forall (l m : list nat), NoDup (l ++ m) -> NoDup l.
Proof.
  intros l m. induction l as [|x l IH]; intros H; [constructor|]. cbn [app] in H. apply NoDup_cons_iff in H. destruct H as [H1 H2].
  constructor; [|exact (IH H2)]. intros I0. apply H1. apply in_app_iff. left. exact I0.
Qed.
Lemma reuse_inj : forall m n, reuse m = reuse n -> m = n.
Proof.
  intros m n E. unfold reuse in E. apply app_inv_head in E. pose proof (uint_value (N.to_uint m)) as M. rewrite E, uint_value in M.
  rewrite !DecimalN.Unsigned.of_to in M. lia.
Qed.
Lemma url_inj : forall i j, url i = url j -> i = j.
Proof. unfold url. congruence. Qed.

Definition lonely (t : tree) (k : nat) : Prop := forall l, In (Node k l) (subs t) -> l = [].
Lemma childless_spec : forall t k, childless t k = true <-> lonely t k.
Proof.
  intros t k. unfold childless, lonely. rewrite forallb_forall. split.
  - intros H l I0. specialize (H _ I0). cbn [root kids] in H. rewrite Nat.eqb_refl in H. destruct l; [reflexivity|discriminate].
  - intros H [j l] I0. cbn [root kids]. destruct (Nat.eqb_spec j k) as [->|Nk]; [|reflexivity]. rewrite (H l I0). reflexivity.
Qed.
Definition within_tree (t : tree) (j k : nat) : Prop := exists l s, In (Node j l) (subs t) /\ In s l /\ In k (keys s).
Lemma contains_spec : forall t j k, contains t j k = true <-> within_tree t j k.
Proof.
  intros t j k. unfold contains, within_tree. rewrite existsb_exists. split.
  - intros ([i l] & I0 & E). cbn [root kids] in E. apply andb_true_iff in E. destruct E as [E M]. apply Nat.eqb_eq in E. subst. apply mem_In in M. apply in_flat_map in M.
    destruct M as (s & S1 & S2). exists l, s. repeat split; assumption.
  - intros (l & s & I0 & S1 & S2). exists (Node j l). split; [exact I0|]. cbn [root kids]. rewrite Nat.eqb_refl. cbn [andb]. apply mem_In. apply in_flat_map. exists s. split; assumption.
Qed.
Lemma cut_lonely : forall t k, lonely t k -> cut k t = t.
Proof.
  intros t k. induction t as [j l IH] using tree_ind'. intros L. cbn [cut]. destruct (Nat.eqb_spec j k) as [->|Nk].
  - rewrite (L l (or_introl eq_refl)). reflexivity.
  - f_equal. assert (L' : forall s, In s l -> lonely s k) by (intros s S0 m M; apply L; right; apply in_flat_map; exists s; split; assumption).
    clear L. induction l as [|s l IHl]; [reflexivity|]. cbn [map]. rewrite (Forall_inv IH (L' s (or_introl eq_refl))). f_equal.
    apply IHl; [exact (Forall_inv_tail IH)|intros u U; apply L'; right; exact U].
Qed.

(** A path that becomes a use. *)
Lemma one_path_plain : forall el df new k d, lonely (shape d) k -> ~ within_tree (shape d) df k ->
  let d' := one_path el df new k d in
  shape d' = shape d /\ fresh d' = fresh d /\ sheet d' = sheet d
  /\ forall j, cells d' j = if Nat.eqb j k then (Use, with_href new (stripped (snd (cells d k)))) else cells d j.
Proof.
  intros el df new k d L W. unfold one_path. set (d1 := set d k (fst (cells d k), stripped (snd (cells d k)))).
  assert (D : drop el df new k d1 = d1).
  { unfold drop. replace (contains (shape d1) df k) with false; [rewrite andb_false_r; reflexivity|]. symmetry. apply not_true_iff_false. rewrite contains_spec. exact W. }
  rewrite D. unfold d1. cbn [set reshape shape fresh sheet cells]. rewrite (cut_lonely _ _ L). repeat split. intros j. rewrite Nat.eqb_refl.
  destruct (Nat.eqb j k); reflexivity.
Qed.
Lemma paths_plain : forall el df new ks d, NoDup ks -> (forall k, In k ks -> lonely (shape d) k /\ ~ within_tree (shape d) df k) ->
  let d' := fold_left (fun d k => one_path el df new k d) ks d in
  shape d' = shape d /\ fresh d' = fresh d /\ sheet d' = sheet d
  /\ forall j, cells d' j = if mem j ks then (Use, with_href new (stripped (snd (cells d j)))) else cells d j.
Proof.
  intros el df new ks. induction ks as [|k ks IH]; intros d ND P0; [repeat split|]. cbn [fold_left].
  destruct (one_path_plain el df new k d (proj1 (P0 k (or_introl eq_refl))) (proj2 (P0 k (or_introl eq_refl)))) as (S1 & S2 & S3 & S4).
  inversion ND as [|x l N1 N2]; subst.
  destruct (IH (one_path el df new k d) N2) as (T1 & T2 & T3 & T4).
  { intros j J. rewrite S1. apply P0. right. exact J. }
  cbv zeta. rewrite T1, T2, T3, S1, S2, S3. refine (conj eq_refl (conj eq_refl (conj eq_refl _))). intros j. rewrite T4, !S4.
  unfold mem. cbn [existsb]. destruct (Nat.eqb_spec j k) as [->|Nk]; [|reflexivity]. cbn [orb].
  destruct (existsb (Nat.eqb k) ks) eqn:E; [|reflexivity]. exfalso. apply N1. apply mem_In. exact E.
Qed.

(** What is true before each list. *)
Definition member (d : doc) (df k : nat) : Prop :=
  In k (keys (shape d)) /\ fst (cells d k) = Path /\ a_d (snd (cells d k)) <> None /\ lonely (shape d) k /\ ~ within_tree (shape d) df k
  /\ a_style (snd (cells d k)) = None /\ a_shift (snd (cells d k)) = None /\ a_href (snd (cells d k)) = None
  /\ forall i, has_id d k i -> ~ referred d i.
Definition equals (d : doc) (k k' : nat) : Prop :=
  a_d (snd (cells d k)) = a_d (snd (cells d k')) /\ a_fill (snd (cells d k)) = a_fill (snd (cells d k')) /\ a_stroke (snd (cells d k)) = a_stroke (snd (cells d k')).
Record ready (d : doc) (df : nat) (gs : list (list nat)) (n : N) : Prop := {
  r_sound : sound d;
  r_unique : unique_ids d;
  r_defs : In df (keys (shape d)) /\ fst (cells d df) = Defs;
  r_names : forall m, (n <= m)%N -> ~ referred d (reuse m) /\ forall k, In k (keys (shape d)) -> ~ has_id d k (reuse m);
  r_member : forall ks k, In ks gs -> 2 <= List.length ks -> In k ks -> member d df k;
  r_equal : forall ks k k', In ks gs -> 2 <= List.length ks -> In k ks -> In k' ks -> equals d k k';
  r_nodup : NoDup (concat gs) }.

Lemma lonely_graft : forall q f b t k, lonely t k -> k <> q -> (forall s, In s (flat_map subs (f ++ b)) -> root s <> k) -> lonely (graft q f b t) k.
Proof.
  intros q f b t k L Nq F l I0. apply graft_subs in I0. destruct I0 as [([j m] & S1 & S2)|(_ & S1)].
  - cbn [graft] in S2. injection S2 as <- ->. destruct (Nat.eqb_spec k q) as [->|_]; [congruence|]. rewrite (L m S1). reflexivity.
  - exfalso. exact (F _ S1 eq_refl).
Qed.
Lemma within_graft : forall q f b t j k, ~ within_tree t j k -> (forall s, In s (flat_map subs (f ++ b)) -> root s <> k /\ root s <> j) -> ~ within_tree (graft q f b t) j k.
Proof.
  intros q f b t j k W F (l & s & I0 & S1 & S2). apply graft_subs in I0. destruct I0 as [([i m] & T1 & T2)|(_ & T1)]; [|exact (proj2 (F _ T1) eq_refl)].
  cbn [graft] in T2. injection T2 as <- ->.
  assert (FB : forall u, In u (f ++ b) -> ~ In k (keys u)).
  { intros u U1 U2. apply keys_In in U2. destruct U2 as (v & V). apply (proj1 (F (Node k v) (proj2 (in_flat_map _ _ _) (ex_intro _ u (conj U1 V))))). reflexivity. }
  apply in_app_iff in S1. destruct S1 as [S1|S1]; [|apply in_app_iff in S1; destruct S1 as [S1|S1]].
  - destruct (Nat.eqb j q); [|destruct S1]. apply (FB s); [apply in_app_iff; left; exact S1|exact S2].
  - apply in_map_iff in S1. destruct S1 as (u & <- & U1). apply graft_keys in S2. destruct S2 as [S2|(_ & S2)].
    + apply W. exists m, u. repeat split; assumption.
    + apply in_flat_map in S2. destruct S2 as (v & V1 & V2). exact (FB v V1 V2).
  - destruct (Nat.eqb j q); [|destruct S1]. apply (FB s); [apply in_app_iff; right; exact S1|exact S2].
Qed.
Lemma graft_NoDup : forall q f b t, NoDup (keys t) -> NoDup (flat_map keys (f ++ b)) -> (forall k, In k (flat_map keys (f ++ b)) -> ~ In k (keys t)) -> NoDup (keys (graft q f b t)).
Proof.
  intros q f b t ND NF X.
  assert (P0 : forall t, NoDup (keys t) -> (In q (keys t) -> Permutation (keys (graft q f b t)) (flat_map keys (f ++ b) ++ keys t)) /\ (~ In q (keys t) -> graft q f b t = t)).
  { clear t ND X. intros t. induction t as [j l IH] using tree_ind'. intros ND. rewrite keys_node in ND.
    assert (A : ~ In q (flat_map keys l) -> map (graft q f b) l = l).
    { intros Nq. apply NoDup_cons_iff in ND. destruct ND as [_ ND]. induction l as [|s l IHl]; [reflexivity|]. cbn [map]. cbn [flat_map] in ND, Nq.
      assert (ND' := ND). apply NoDup_app_remove_l in ND. f_equal.
      - apply (Forall_inv IH); [|intros Q; apply Nq; apply in_app_iff; left; exact Q]. apply NoDup_app_remove_r in ND'. exact ND'.
      - apply IHl; [exact (Forall_inv_tail IH)|exact ND|intros Q; apply Nq; apply in_app_iff; right; exact Q]. }
    assert (B : In q (flat_map keys l) -> Permutation (flat_map keys (map (graft q f b) l)) (flat_map keys (f ++ b) ++ flat_map keys l)).
    { intros Q. clear A. apply NoDup_cons_iff in ND. destruct ND as [_ ND]. induction l as [|s l IHl]; [destruct Q|]. cbn [map flat_map]. cbn [flat_map] in ND, Q.
      assert (ND1 := NoDup_app_remove_r _ _ ND). assert (ND2 := NoDup_app_remove_l _ _ ND).
      destruct (in_dec Nat.eq_dec q (keys s)) as [I0|I0].
      - rewrite (proj1 (Forall_inv IH ND1) I0), <- app_assoc. apply Permutation_app_head. apply Permutation_app_head.
        assert (I1 : ~ In q (flat_map keys l)).
        { intros I1. clear - ND I0 I1. induction (keys s) as [|x m IHm]; [destruct I0|]. cbn [app] in ND. apply NoDup_cons_iff in ND. destruct ND as [N1 N2]. destruct I0 as [->|I0]; [apply N1; apply in_app_iff; right; exact I1|exact (IHm N2 I0)]. }
        replace (map (graft q f b) l) with l; [apply Permutation_refl|]. clear - IH ND2 I1. induction l as [|u l IHl]; [reflexivity|]. cbn [map]. cbn [flat_map] in ND2, I1. f_equal.
        + symmetry. apply (Forall_inv (Forall_inv_tail IH)); [exact (NoDup_app_remove_r _ _ ND2)|intros Q; apply I1; apply in_app_iff; left; exact Q].
        + apply IHl; [constructor; [exact (Forall_inv IH)|exact (Forall_inv_tail (Forall_inv_tail IH))]|exact (NoDup_app_remove_l _ _ ND2)|intros Q; apply I1; apply in_app_iff; right; exact Q].
      - rewrite (proj2 (Forall_inv IH ND1) I0). apply in_app_iff in Q. destruct Q as [Q|Q]; [contradiction|].
        rewrite (IHl (Forall_inv_tail IH) ND2 Q). rewrite !app_assoc. apply Permutation_app_tail. apply Permutation_app_comm. }
    split.
    - intros Q. cbn [graft]. rewrite !keys_node. destruct (Nat.eqb_spec j q) as [->|Nq].
      + assert (Q' : ~ In q (flat_map keys l)) by (apply NoDup_cons_iff in ND; exact (proj1 ND)). rewrite (A Q'). rewrite !flat_map_app.
        apply Permutation_cons_app. rewrite <- app_assoc. apply Permutation_app_head. apply Permutation_app_comm.
      + rewrite keys_node in Q. destruct Q as [Q|Q]; [contradiction|]. cbn [app]. rewrite app_nil_r. apply Permutation_cons_app. exact (B Q).
    - intros Q. rewrite keys_node in Q. cbn [graft]. destruct (Nat.eqb_spec j q) as [->|Nq]; [exfalso; apply Q; left; reflexivity|]. cbn [app]. rewrite app_nil_r.
      rewrite A; [reflexivity|]. intros I0. apply Q. right. exact I0. }
  destruct (in_dec Nat.eq_dec q (keys t)) as [I0|I0].
  - eapply Permutation_NoDup; [apply Permutation_sym; apply (proj1 (P0 t ND) I0)|]. clear P0 I0. induction (flat_map keys (f ++ b)) as [|x m IH]; [exact ND|].
    cbn [app]. apply NoDup_cons_iff in NF. destruct NF as [N1 N2]. apply NoDup_cons; [|apply IH; [exact N2|intros k K; apply X; right; exact K]].
    intros I0. apply in_app_iff in I0. destruct I0 as [I0|I0]; [exact (N1 I0)|exact (X x (or_introl eq_refl) I0)].
  - rewrite (proj2 (P0 t ND) I0). exact ND.
Qed.

Lemma one_list_ok : forall el df hr ks gs d n, ready d df (ks :: gs) n ->
  let r := one_list el df hr ks (d, n) in ready (fst r) df gs (snd r) /\ forall o, picture d o -> picture (fst r) o.
Proof.
  intros el df hr ks gs d n R.
  assert (Rest : ready d df gs n).
  { destruct R. constructor; try assumption.
    - intros ks' k' I0. apply (r_member0 ks' k' (or_intror I0)).
    - intros ks' k' k'' I0. apply (r_equal0 ks' k' k'' (or_intror I0)).
    - cbn [concat] in r_nodup0. exact (NoDup_app_remove_l _ _ r_nodup0). }
  destruct ks as [|k0 ks1]; [split; [exact Rest|intros o H; exact H]|]. destruct ks1 as [|k1 ks1]; [split; [exact Rest|intros o H; exact H]|].
  cbv zeta. unfold one_list. set (ks := k0 :: k1 :: ks1) in *. set (a := snd (cells d k0)).
  set (kept0 := match a_id a with Some i => negb (text_mem i hr) && negb (text_mem i (sheet d)) | None => false end).
  set (i := match a_id a with Some i => if kept0 then i else reuse n | None => reuse n end).
  set (p := fresh d). set (c := mkAttrs (Some i) (a_d a) (a_fill a) (a_stroke a) None None None None [] false).
  set (d1 := create d (Path, c) (fun p => graft df [] [p])).
  set (d2 := if kept0 then set d1 k0 (fst (cells d1 k0), without_id a) else d1).
  set (d3 := fold_left (fun d k => one_path el df (url i) k d) ks d2). cbn [fst snd].
  destruct R as [R1 R2 [R3 R3'] R4 R5 R6 R7].
  assert (Len : 2 <= List.length ks) by (unfold ks; cbn [List.length]; lia).
  assert (I0 : In k0 ks) by (left; reflexivity).
  assert (Mem : forall k, In k ks -> member d df k) by (intros k K; apply (R5 ks k (or_introl eq_refl) Len K)).
  assert (Fr : ~ In p (keys (shape d))).
  { intros I1. destruct R1 as [_ R1]. rewrite Forall_forall in R1. specialize (R1 p I1). unfold p in R1. lia. }
  assert (Fk : forall k, In k ks -> k <> p) by (intros k K ->; apply Fr; exact (proj1 (Mem p K))).
  assert (Ndf : forall k, In k ks -> k <> df) by (intros k K ->; destruct (Mem df K) as (_ & M & _); congruence).
  assert (Pdf : df <> p) by (intros ->; exact (Fr R3)).
  assert (NDks : NoDup ks) by (cbn [concat] in R7; exact (NoDup_app_remove_r _ _ R7)).
  assert (S2 : shape d2 = graft df [] [Node p []] (shape d)) by (unfold d2; destruct kept0; reflexivity).
  assert (F2 : fresh d2 = S p) by (unfold d2; destruct kept0; reflexivity).
  assert (C2 : forall j, cells d2 j = if Nat.eqb j p then (Path, c) else if Nat.eqb j k0 && kept0 then (Path, without_id a) else cells d j).
  { intros j. unfold d2. assert (C0 : fst (cells d1 k0) = Path).
    { unfold d1, create. cbn [cells]. fold p. destruct (Nat.eqb_spec k0 p) as [E|_]; [exfalso; exact (Fk k0 I0 E)|]. exact (proj1 (proj2 (Mem k0 I0))). }
    destruct kept0.
    - unfold set. cbn [cells]. rewrite C0. destruct (Nat.eqb_spec j k0) as [->|Nj].
      + destruct (Nat.eqb_spec k0 p) as [E|_]; [exfalso; exact (Fk k0 I0 E)|reflexivity].
      + unfold d1, create. cbn [cells andb]. reflexivity.
    - rewrite andb_false_r. reflexivity. }
  assert (Sub : forall s, In s (flat_map subs ([] ++ [Node p []])) -> s = Node p []).
  { intros s [<-|[]]. reflexivity. }
  destruct (paths_plain el df (url i) ks d2 NDks) as (S3 & F3 & _ & C3).
  { intros k K. rewrite S2. destruct (Mem k K) as (_ & _ & _ & M4 & M5 & _). split.
    - apply lonely_graft; [exact M4|exact (Ndf k K)|]. intros s S0. rewrite (Sub s S0). intros E. exact (Fk k K (eq_sym E)).
    - apply within_graft; [exact M5|]. intros s S0. rewrite (Sub s S0). split; [intros E; exact (Fk k K (eq_sym E))|intros E; exact (Pdf (eq_sym E))]. }
  fold d3 in S3, F3, C3. rewrite S2 in S3. rewrite F2 in F3.
  assert (Cp : cells d3 p = (Path, c)).
  { rewrite C3. replace (mem p ks) with false; [rewrite C2, Nat.eqb_refl; reflexivity|]. symmetry. apply not_true_iff_false. rewrite mem_In. intros K. exact (Fk p K eq_refl). }
  assert (Ck : forall k, In k ks -> cells d3 k = (Use, with_href (url i) (stripped (if Nat.eqb k k0 && kept0 then without_id a else snd (cells d k))))).
  { intros k K. rewrite C3. rewrite (proj2 (mem_In k ks) K). rewrite C2. destruct (Nat.eqb_spec k p) as [E|_]; [exfalso; exact (Fk k K E)|]. destruct (Nat.eqb k k0 && kept0); reflexivity. }
  assert (Co : forall k, ~ In k ks -> k <> p -> cells d3 k = cells d k).
  { intros k K Kp. rewrite C3. replace (mem k ks) with false by (symmetry; apply not_true_iff_false; rewrite mem_In; exact K). rewrite C2.
    destruct (Nat.eqb_spec k p) as [E|_]; [congruence|]. destruct (Nat.eqb_spec k k0) as [E|_]; [subst; contradiction|]. reflexivity. }
  assert (Ks : forall k, In k (keys (shape d3)) <-> In k (keys (shape d)) \/ k = p).
  { intros k. rewrite S3, graft_keys. cbn. split; [intros [H|(_ & [H|[]])]; [left; exact H|right; symmetry; exact H]|intros [H| ->]; [left; exact H|right; split; [exact R3|left; reflexivity]]]. }
  assert (Ids : forall k x, k <> p -> has_id d3 k x -> has_id d k x).
  { intros k x Kp Hx. unfold has_id in *. destruct (in_dec Nat.eq_dec k ks) as [K|K]; [|rewrite (Co k K Kp) in Hx; exact Hx].
    rewrite (Ck k K) in Hx. destruct (Nat.eqb_spec k k0) as [->|_]; [|exact Hx]. destruct kept0; [discriminate|exact Hx]. }
  assert (Kept : kept0 = true -> a_id a = Some i).
  { unfold i. intros E. rewrite E. unfold kept0 in E. destruct (a_id a); [reflexivity|discriminate]. }
  assert (NKept : kept0 = false -> i = reuse n).
  { unfold i. intros E. rewrite E. destruct (a_id a); reflexivity. }
  assert (Ip : has_id d3 p i) by (unfold has_id; rewrite Cp; reflexivity).
  assert (Np : forall k, In k (keys (shape d)) -> ~ has_id d3 k i).
  { intros k K Hk. assert (Kp : k <> p) by (intros ->; exact (Fr K)). assert (Hd := Ids k i Kp Hk). destruct kept0 eqn:E.
    - assert (k = k0) by (apply (R2 k k0 i K (proj1 (Mem k0 I0)) Hd); exact (Kept eq_refl)). subst k.
      unfold has_id in Hk. rewrite (Ck k0 I0), Nat.eqb_refl in Hk. discriminate.
    - rewrite (NKept eq_refl) in Hd. exact (proj2 (R4 n (N.le_refl n)) k K Hd). }
  assert (Ni : ~ referred d i).
  { destruct kept0 eqn:E; [|rewrite (NKept eq_refl); exact (proj1 (R4 n (N.le_refl n)))].
    destruct (Mem k0 I0) as (_ & _ & _ & _ & _ & _ & _ & _ & M). apply M. exact (Kept eq_refl). }
  assert (Rf : forall x, referred d3 x -> referred d x \/ x = i).
  { intros x (k & K & Hx). apply Ks in K. destruct K as [K| ->]; [|rewrite Cp in Hx; discriminate]. destruct (in_dec Nat.eq_dec k ks) as [K'|K'].
    - right. rewrite (Ck k K') in Hx. cbn [snd with_href a_href] in Hx. injection Hx as Hx. symmetry. apply url_inj. unfold url. congruence.
    - left. exists k. rewrite (Co k K') in Hx by (intros ->; exact (Fr K)). split; assumption. }
  split.
  - constructor.
    + split.
      * rewrite S3. apply graft_NoDup; [exact (proj1 R1)|cbn; constructor; [intros []|constructor]|intros k [<-|[]]; exact Fr].
      * rewrite Forall_forall. intros k K. rewrite F3. apply Ks in K. destruct K as [K| ->]; [|lia]. destruct R1 as [_ R1]. rewrite Forall_forall in R1. specialize (R1 k K). unfold p. lia.
    + intros k k' x K K' Hk Hk'. apply Ks in K. apply Ks in K'. destruct K as [K| ->], K' as [K'| ->].
      * apply (R2 k k' x K K'); apply Ids; try assumption; intros ->; contradiction.
      * exfalso. unfold has_id in Hk'. rewrite Cp in Hk'. cbn in Hk'. injection Hk' as <-. exact (Np k K Hk).
      * exfalso. unfold has_id in Hk. rewrite Cp in Hk. cbn in Hk. injection Hk as <-. exact (Np k' K' Hk').
      * reflexivity.
    + split; [apply Ks; left; exact R3|]. rewrite Co; [exact R3'|intros K; exact (Ndf df K eq_refl)|exact Pdf].
    + intros m Lm. assert (Ln : (n <= m)%N) by (destruct kept0; lia).
      assert (Im : i <> reuse m).
      { intros E. destruct kept0 eqn:Q.
        - apply (proj2 (R4 m Ln) k0 (proj1 (Mem k0 I0))). unfold has_id. fold a. rewrite (Kept eq_refl). f_equal. exact E.
        - rewrite (NKept eq_refl) in E. apply reuse_inj in E. lia. }
      split; [intros Rr; apply Rf in Rr; destruct Rr as [Rr|Rr]; [exact (proj1 (R4 m Ln) Rr)|congruence]|].
      intros k K Hk. apply Ks in K. destruct K as [K| ->].
      * apply (proj2 (R4 m Ln) k K). apply Ids; [intros ->; contradiction|exact Hk].
      * unfold has_id in Hk, Ip. congruence.
    + intros ks' k In' Len' K. assert (Nk : ~ In k ks).
      { cbn [concat] in R7. intros K'. assert (Kc : In k (concat gs)) by (apply in_concat; exists ks'; split; assumption).
        clear - R7 K' Kc. induction ks as [|x m IHm]; [destruct K'|]. cbn [app] in R7. apply NoDup_cons_iff in R7. destruct R7 as [N1 N2]. destruct K' as [->|K']; [apply N1; apply in_app_iff; right; exact Kc|exact (IHm N2 K')]. }
      destruct (R5 ks' k (or_intror In') Len' K) as (M1 & M2 & M3 & M4 & M5 & M6 & M7 & M8 & M9).
      assert (Kp : k <> p) by (intros ->; contradiction). assert (Kdf : k <> df) by (intros ->; congruence).
      unfold member. rewrite (Co k Nk Kp). refine (conj _ (conj M2 (conj M3 (conj _ (conj _ (conj M6 (conj M7 (conj M8 _)))))))).
      * apply Ks. left. exact M1.
      * rewrite S3. apply lonely_graft; [exact M4|exact Kdf|]. intros s S0. rewrite (Sub s S0). intros E. exact (Kp (eq_sym E)).
      * rewrite S3. apply within_graft; [exact M5|]. intros s S0. rewrite (Sub s S0). split; [intros E; exact (Kp (eq_sym E))|intros E; exact (Pdf (eq_sym E))].
      * intros x Hx Rr. assert (Hd := Ids k x Kp Hx). apply Rf in Rr. destruct Rr as [Rr| ->]; [exact (M9 x Hd Rr)|]. exact (Np k M1 Hx).
    + intros ks' k k' In' Len' K K'.
      assert (Nk : forall k, In k ks' -> ~ In k ks /\ k <> p).
      { clear k k' K K'. intros k K. split; [|intros ->; exact (Fr (proj1 (R5 ks' p (or_intror In') Len' K)))].
        cbn [concat] in R7. intros K'. assert (Kc : In k (concat gs)) by (apply in_concat; exists ks'; split; assumption).
        clear - R7 K' Kc. induction ks as [|x m IHm]; [destruct K'|]. cbn [app] in R7. apply NoDup_cons_iff in R7. destruct R7 as [N1 N2]. destruct K' as [->|K']; [apply N1; apply in_app_iff; right; exact Kc|exact (IHm N2 K')]. }
      unfold equals. rewrite (Co k (proj1 (Nk k K)) (proj2 (Nk k K))), (Co k' (proj1 (Nk k' K')) (proj2 (Nk k' K'))). exact (R6 ks' k k' (or_intror In') Len' K K').
    + cbn [concat] in R7. exact (NoDup_app_remove_l _ _ R7).
  - apply (picture_ext d d3 df [] [Node p []]).
    + exact S3.
    + intros x Rx. rewrite S3. apply lookup_graft.
      * intros k K. assert (Kp : k <> p) by (intros ->; contradiction). split; [apply Ids; exact Kp|]. intros Hk. unfold has_id. destruct (in_dec Nat.eq_dec k ks) as [K'|K'].
        -- exfalso. destruct (Mem k K') as (_ & _ & _ & _ & _ & _ & _ & _ & M). exact (M x Hk Rx).
        -- rewrite (Co k K' Kp). exact Hk.
      * intros s S0. rewrite (Sub s S0). cbn [root]. intros Hx. unfold has_id in Hx, Ip. assert (x = i) by congruence. subst x. exact (Ni Rx).
    + intros k K. assert (Kp : k <> p) by (intros ->; contradiction). destruct (in_dec Nat.eq_dec k ks) as [K'|K'].
      * left. destruct (Mem k K') as (M1 & M2 & M3 & M4 & M5 & M6 & M7 & M8 & M9). destruct (R6 ks k k0 (or_introl eq_refl) Len K' I0) as (E1 & E2 & E3).
        destruct (a_d (snd (cells d k))) as [s|] eqn:D; [|congruence].
        exists (snd (cells d k)), (with_href (url i) (stripped (if Nat.eqb k k0 && kept0 then without_id a else snd (cells d k)))), s, i, p, c.
        assert (T : forall T (g : attrs -> T), (forall b, g (without_id b) = g b) -> g (if Nat.eqb k k0 && kept0 then without_id a else snd (cells d k)) = g (snd (cells d k))).
        { intros T g Hg. destruct (Nat.eqb_spec k k0) as [->|_]; [|reflexivity]. destruct kept0; [apply Hg|reflexivity]. }
        refine (conj _ (conj D (conj M6 (conj (Ck k K') (conj _ (conj _ (conj eq_refl (conj eq_refl (conj _ (conj _ (conj eq_refl (conj _ (conj Cp (conj _ (conj _ (conj _ (conj eq_refl (conj eq_refl eq_refl)))))))))))))))))).
        -- rewrite <- M2. apply surjective_pairing.
        -- cbn [with_href stripped a_turn]. apply (T _ a_turn). reflexivity.
        -- cbn [with_href stripped a_rest]. apply (T _ a_rest). reflexivity.
        -- cbn [with_href stripped a_style]. rewrite <- M6. apply (T _ a_style). reflexivity.
        -- cbn [with_href stripped a_shift]. rewrite <- M7. apply (T _ a_shift). reflexivity.
        -- rewrite lookup_says. destruct (find (says d3 i) (subs (shape d3))) as [s'|] eqn:W.
           ++ apply find_some in W. destruct W as [W1 W2]. apply says_spec in W2. rewrite S3 in W1. apply graft_subs in W1. destruct W1 as [(u & U1 & ->)|(_ & W1)].
              ** exfalso. rewrite graft_root in W2. apply (Np (root u)); [apply in_map; exact U1|exact W2].
              ** rewrite (Sub s' W1). reflexivity.
           ++ exfalso. assert (Q : In (Node p []) (subs (shape d3))) by (rewrite S3; apply graft_subs; right; split; [exact R3|left; reflexivity]).
              pose proof (find_none _ _ W _ Q) as Z. apply not_true_iff_false in Z. apply Z. apply says_spec. exact Ip.
        -- cbn [c a_d]. fold a in E1. congruence.
        -- cbn [c a_fill]. fold a in E2. congruence.
        -- cbn [c a_stroke]. fold a in E3. congruence.
      * right. unfold kept. rewrite (Co k K' Kp). repeat split.
    + left. exact R3'.
Qed.
