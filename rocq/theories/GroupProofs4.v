(** Proofs about what a [use] draws, and about the coordinates of effects when attributes are moved to groups. *)
From Coq Require Import String List NArith ZArith Bool Arith Lia.
From Verif Require Import Chars GroupModel GroupSpec GroupProofs GroupProofs2 GroupProofs3.
Import ListNotations.

(** ** Ids *)
Lemma id_get attrs : each_once attrs ->
  id_of attrs = match get_attr (NOther KId) attrs with Some a => match a with AOther KId v => Some (v_text v) | _ => None end | None => None end.
Proof.
  intros H. unfold id_of. apply pick_get; [exact H|]. intros [| | | | | |[]] D; try reflexivity. destruct (D eq_refl).
Qed.
Lemma no_id attrs : each_once attrs -> has_attr (NOther KId) attrs = false -> id_of attrs = None.
Proof. intros H N. rewrite (id_get attrs H). unfold has_attr in N. destruct (get_attr (NOther KId) attrs); [discriminate|reflexivity]. Qed.
Lemma some_id attrs i : each_once attrs -> id_of attrs = Some i -> has_attr (NOther KId) attrs = true.
Proof. intros H E. destruct (has_attr (NOther KId) attrs) eqn:N; [reflexivity|]. rewrite (no_id attrs H N) in E. discriminate. Qed.

(** A projection of the walk. *)
Lemma used_proj {E F} (s1 : ename -> E -> list gattr -> E) (s2 : ename -> F -> list gattr -> F) (pr : E -> F) (P : ename -> list gattr -> Prop) :
  (forall name env attrs, P name attrs -> pr (s1 name env attrs) = s2 name (pr env) attrs) ->
  forall n env, every P n -> map (fun x => (fst x, map (fun y => (fst y, pr (snd y))) (snd x))) (used s1 env n) = used s2 (pr env) n.
Proof.
  intros H. induction n as [t|name attrs kids IH] using node_ind'; intros env HP; [reflexivity|]. pose proof HP as HP'. apply every_kids in HP'. destruct HP' as [_ H2].
  cbn [used]. rewrite map_app, map_flat_map'. f_equal.
  - destruct (id_of attrs); [|reflexivity]. cbn [map fst snd]. rewrite (seen_proj s1 s2 pr P H _ env HP). reflexivity.
  - apply flat_map_ext_Forall. rewrite Forall_forall in *. intros k Hk. apply IH; auto.
Qed.

(** ** Pushing transforms down *)
Lemma given_id o attrs : okt EG attrs -> id_of (given o attrs) = id_of attrs.
Proof.
  intros H. pose proof (okt_given EG o attrs H) as G. rewrite (id_get _ (proj1 G)), (id_get _ (proj1 H)). f_equal.
  destruct o as [l|]; [|reflexivity]. cbn [given]. unfold give_transform. destruct (get_attr NTransform attrs) as [[]|]; rewrite get_set; reflexivity.
Qed.
Lemma okt_any name name' attrs : okt name attrs -> okt name' attrs.
Proof. intros [H1 H2]. split; assumption. Qed.
Definition without_id (o : option (list tf)) (n : gnode) : Prop := o <> None -> match n with GE _ attrs _ => has_attr (NOther KId) attrs = false | GT _ => True end.
Lemma push_used n : forall o total, every okt n -> can_take o n -> without_id o n -> used step_t total (push_down o n) = used step_t total n.
Proof.
  induction n as [t|name attrs kids IH] using node_ind'; intros o total HO C W; [reflexivity|].
  pose proof HO as HO'. apply every_kids in HO'. destruct HO' as [H1 H2].
  pose proof (okt_given name o attrs H1) as G1.
  assert (S : forall i, id_of attrs = Some i -> seen step_t total (push_down o (GE name attrs kids)) = seen step_t total (GE name attrs kids)).
  { intros i Hi. destruct o as [l|].
    - pose proof (W ltac:(discriminate)) as N. cbn beta iota in N. rewrite (some_id attrs i (proj1 H1) Hi) in N. discriminate.
    - rewrite push_seen by assumption. cbn [opt]. rewrite app_nil_r. reflexivity. }
  assert (GI : id_of (given o attrs) = id_of attrs) by (apply given_id; exact (okt_any _ _ _ H1)).
  cbn [push_down] in S |- *. destruct (take_cases name (given o attrs) kids) as [T|(t & -> & Et & Er & Ht & T)]; rewrite T in S |- *.
  - cbn [used]. rewrite GI. f_equal.
    + destruct (id_of attrs) as [i|]; [|reflexivity]. rewrite (S i eq_refl). reflexivity.
    + rewrite flat_map_map'. apply flat_map_ext_Forall. rewrite Forall_forall in *. intros k Hk. apply IH; auto; intros D; destruct (D eq_refl).
  - pose proof (get_name _ _ _ Et) as [E1 N]. pose proof (proj2 G1 t E1) as PL. destruct t; try discriminate N; try contradiction.
    cbn [used]. assert (RI : id_of (remove_attr NTransform (given o attrs)) = id_of attrs).
    { rewrite id_get by (apply remove_once; apply G1). rewrite get_remove by apply G1. cbn [name_eqb]. rewrite name_eqb_neq by discriminate. rewrite <- id_get by apply G1. exact GI. }
    rewrite RI. f_equal.
    + destruct (id_of attrs) as [i|]; [|reflexivity]. rewrite (S i eq_refl). reflexivity.
    + rewrite flat_map_map'. apply flat_map_ext_Forall. pose proof (takes_can kids (Some l) Ht) as CT. rewrite Forall_forall in *.
      intros k Hk. apply IH; auto. intros _. rewrite forallb_forall in Ht. specialize (Ht k Hk). destruct k as [kn ka kk|]; [|exact Logic.I].
      unfold takes_transform in Ht. apply andb_prop in Ht. destruct Ht as [_ Ht]. apply negb_true_iff in Ht. exact Ht.
Qed.
Lemma used_totals_t env n : every okt n -> used_totals env n = used step_t (fst env) n.
Proof. intros H. unfold used_totals. apply (used_proj step_total step_t fst okt); [intros; apply step_total_plain; assumption|exact H]. Qed.
Theorem push_used_totals env n : every (fun _ => each_once) n -> every plain_transforms n -> used_totals env (push_down None n) = used_totals env n.
Proof.
  intros H1 H2. pose proof (okt_both n H1 H2) as H. rewrite !used_totals_t by auto using push_okt. apply push_used; [exact H| |]; intros D; destruct (D eq_refl).
Qed.

(** ** Moving to the group: effects keep their coordinates *)
Definition okp (k : nat) (name : ename) (attrs : list gattr) : Prop := okh name attrs /\ no_group_style k name attrs.
Lemma okp_remove k name n attrs : okp k name attrs -> okp k name (remove_attr n attrs).
Proof.
  intros [H1 H2]. split; [apply okh_remove; exact H1|]. intros E l v Hl. apply (H2 E l v). exact (in_remove_attr _ _ _ Hl).
Qed.
Lemma okp_put k cn c a attrs : okp k EG attrs -> okp k cn c -> In a c -> movable a = true -> okp k EG (put_on_group attrs a).
Proof.
  intros [H1 H2] [C1 C2] Ha M. split; [apply (okh_put cn c); assumption|]. intros E l v Hl. rewrite put_merged in Hl. apply in_set_attr in Hl.
  destruct Hl as [Hl|Hl]; [|apply (H2 E l v Hl)]. assert (N : name_of (merged attrs a) = NStyle) by (rewrite <- Hl; reflexivity).
  rewrite merged_name in N. unfold movable in M. rewrite N in M. discriminate.
Qed.
Lemma eff_get k attrs : each_once attrs ->
  eff k attrs = match match get_attr NStyle attrs with Some a => style_prop (Non k) a | None => None end with
                | Some v => [v]
                | None => match match get_attr (NProp (Non k)) attrs with Some a => attr_prop (Non k) None a | None => None end with Some (Some v) => [v] | _ => [] end
                end.
Proof.
  intros H. unfold eff. rewrite (pick_get (style_prop (Non k)) NStyle) by (auto; intros []; cbn; congruence).
  rewrite (pick_get (attr_prop (Non k) None) (NProp (Non k))); [reflexivity|exact H|].
  intros [] D; try reflexivity. cbn [attr_prop]. destruct (prop_dec p (Non k)); [subst; destruct (D eq_refl)|reflexivity].
Qed.
Lemma not_common kids common n : (forall a, In a common -> In a (common_attributes kids)) -> (n = NStyle \/ exists k, n = NProp (Non k)) -> ~ In n (map name_of common).
Proof.
  intros CI Hn H. apply in_map_iff in H. destruct H as (a & N & Ha). destruct (common_spec kids a (CI a Ha)) as (M & _).
  unfold movable in M. rewrite N in M. destruct Hn as [->|(k & ->)]; discriminate.
Qed.
Lemma no_style_eff k attrs : each_once attrs -> no_group_style k EG attrs -> get_attr (NProp (Non k)) attrs = None -> eff k attrs = [].
Proof.
  intros H S N. rewrite (eff_get k attrs H), N. destruct (get_attr NStyle attrs) as [a|] eqn:E; [|reflexivity].
  destruct (get_name _ _ _ E) as [Ha Na]. destruct a; try discriminate Na. cbn [style_prop].
  rewrite last_some_none; [reflexivity|]. intros [p v|l'] Hd; [|reflexivity]. destruct (prop_dec p (Non k)) as [->|]; [|reflexivity]. destruct (S eq_refl _ v Ha Hd).
Qed.
Lemma placed_step k kids common env attrs cn c ks : k <= 2 ->
  okp k EG attrs -> Forall (every (okp k)) kids -> In (GE cn c ks) kids ->
  each_once common -> (forall a, In a common -> In a (common_attributes kids)) ->
  (has_attr (NProp p_filter) attrs || has_attr (NProp p_clip_path) attrs || has_attr (NProp p_mask) attrs = true -> ~ In NTransform (map name_of common)) ->
  step_p k cn (step_p k EG env (fold_left put_on_group common attrs)) (strip common c) = step_p k cn (step_p k EG env attrs) c.
Proof.
  intros K HG HK Hk CO CI CT. pose proof HK as HK'. rewrite Forall_forall in HK'. pose proof (HK' _ Hk) as HC. apply every_kids in HC. destruct HC as [[[[C1 C2] C3] C4] _].
  destruct HG as [HG GS]. pose proof (proj1 (proj1 HG)) as G1.
  assert (T : step_t cn (step_t EG (fst env) (fold_left put_on_group common attrs)) (strip common c) = step_t cn (step_t EG (fst env) attrs) c).
  { apply (tr_step kids common (fst env) attrs cn c ks); try assumption. eapply Forall_impl; [|exact HK]. intros x Hx. eapply every_impl; [|exact Hx]. intros ? ? []; assumption. }
  assert (E1 : eff k (strip common c) = eff k c).
  { rewrite !eff_get by (try apply strip_once; assumption). rewrite !get_strip by assumption.
    destruct (in_dec aname_dec NStyle (map name_of common)) as [D|_]; [destruct (not_common kids common NStyle CI (or_introl eq_refl) D)|].
    destruct (in_dec aname_dec (NProp (Non k)) (map name_of common)) as [D|_]; [destruct (not_common kids common (NProp (Non k)) CI (or_intror (ex_intro _ k eq_refl)) D)|]. reflexivity. }
  assert (E2 : eff k (fold_left put_on_group common attrs) = eff k attrs).
  { rewrite !eff_get by (try apply fold_put_once; assumption).
    rewrite !get_put_other by (eapply not_common; eauto). reflexivity. }
  unfold step_p. cbn [fst snd]. rewrite T, E1, E2. f_equal. f_equal. f_equal.
  destruct (get_attr (NProp (Non k)) attrs) as [a|] eqn:Ga.
  - assert (N : ~ In NTransform (map name_of common)).
    { apply CT. assert (HA : has_attr (NProp (Non k)) attrs = true) by (unfold has_attr; rewrite Ga; reflexivity).
      destruct k as [|[|[|k]]]; [| | |lia]; unfold p_filter, p_clip_path, p_mask; rewrite HA, ?orb_true_r; reflexivity. }
    unfold step_t, tr. rewrite get_put_other by exact N. reflexivity.
  - rewrite (no_style_eff k attrs G1 GS Ga). reflexivity.
Qed.
Theorem hoist_placed k n : k <= 2 -> every (fun _ => each_once) n -> every plain_transforms n -> every no_resource_transform n -> every (no_group_style k) n ->
  placed_effects k (hoist_all n) = placed_effects k n.
Proof.
  intros K H1 H2 H3 H4. pose proof (every_and _ _ _ (every_and _ _ _ (okt_both n H1 H2) H3) H4) as H. change (every (okp k) n) in H.
  assert (KP : every (okp k) (hoist_all n)) by (apply keep_hoist_all; [exact (okp_remove k)|exact (okp_put k)|exact H]).
  rewrite !placed_p; [|eapply every_impl; [|exact H]; intros ? ? [[] ?]; assumption|eapply every_impl; [|exact KP]; intros ? ? [[] ?]; assumption].
  f_equal. apply hoist_all_seen with (P := okp k); [exact (okp_remove k)|exact (okp_put k)| | |exact H].
  - intros. eapply placed_step; eassumption.
  - intros name attrs [[[]]]; assumption.
Qed.

(** ** Collapsing groups *)
Section Names.
Variable local_name : aname -> text.

Lemma bare_get name attrs : bare_group name attrs -> name = EG -> get_attr (NOther KId) attrs = None /\ get_attr (NOther KClass) attrs = None.
Proof.
  intros B E. split; apply get_none; intros H; apply in_map_iff in H; destruct H as (a & N & Ha); destruct (B E a Ha); contradiction.
Qed.
Lemma bare_of attrs name : get_attr (NOther KId) attrs = None -> get_attr (NOther KClass) attrs = None -> bare_group name attrs.
Proof.
  intros H1 H2 _ a Ha. apply get_none in H1. apply get_none in H2. split; intros N; [apply H1|apply H2]; rewrite <- N; apply in_map; exact Ha.
Qed.
Lemma absorb_all_get n : forall g c, ~ In n (map name_of g) -> get_attr n (snd (absorb_all g c)) = get_attr n c /\ get_attr n (fst (absorb_all g c)) = None.
Proof.
  induction g as [|a g IH]; intros c H; cbn [absorb_all]; [split; reflexivity|]. cbn [map In] in H. destruct (absorb a c) as [c'|] eqn:E.
  - destruct (IH c') as [I1 I2]; [tauto|]. split; [|exact I2]. rewrite I1. apply (absorb_get a c c' n E). intros D. apply H. left. congruence.
  - split; [reflexivity|]. apply get_none. exact H.
Qed.

Lemma move_used g kids above g' kids' : fine above (GE EG g kids) -> bare_group EG g -> Forall (every bare_group) kids ->
  move_attributes local_name g kids = Some (g', kids') ->
  bare_group EG g' /\ Forall (every bare_group) kids' /\
  forall E (st : ename -> E -> list gattr -> E) env, flat_map (used st env) kids' = flat_map (used st env) kids.
Proof.
  intros F B BK. unfold move_attributes.
  destruct (filter is_elem kids) as [|[cn c ck|t] [|y r]] eqn:FE; try (intros [= <- <-]; auto; fail).
  assert (HC : In (GE cn c ck) kids) by (apply (proj1 (filter_In is_elem _ kids)); rewrite FE; left; reflexivity).
  destruct g as [|a0 g0] eqn:EG0; [intros [= <- <-]; auto|]. rewrite <- EG0 in *. clear EG0 a0 g0.
  destruct (is_group_identifiable g c || is_position_visually_unstable g cn c || is_node_with_filter g) eqn:GD; [intros [= <- <-]; auto|].
  apply orb_false_iff in GD. destruct GD as [GD _]. apply orb_false_iff in GD. destruct GD as [GD _].
  destruct (bare_get EG g B eq_refl) as [NI NC].
  destruct F as [F1 F2]. apply every_kids in F1. destruct F1 as [OG OK].
  pose proof OK as OK'. rewrite Forall_forall in OK'. pose proof (OK' _ HC) as OC. apply every_kids in OC. destruct OC as [OC OCK].
  assert (AP : apart g c).
  { intros k. specialize (F2 k). apply once_kids in F2. destruct F2 as [_ F2]. rewrite Forall_forall in F2. specialize (F2 _ HC). apply once_kids in F2. tauto. }
  rewrite (loop_absorb local_name cn ck) with (d := []).
  2:{ destruct OC as [_ (H & _)]. destruct cn; auto; congruence. }
  2:{ intros n. apply no_animates_list. exact OCK. }
  intros [= <- <-].
  destruct (absorb_all_keeps cn g c OG OC AP) as (K1 & K2 & _). cbv zeta in *.
  assert (CI : has_attr (NOther KId) c = false).
  { unfold is_group_identifiable in GD. unfold has_attr in GD at 2. rewrite NC in GD. cbn [negb orb] in GD. rewrite andb_true_r in GD. exact GD. }
  assert (GI : get_attr (NOther KId) c = None) by (unfold has_attr in CI; destruct (get_attr (NOther KId) c); [discriminate|reflexivity]).
  destruct (absorb_all_get (NOther KId) g c (proj1 (get_none _ _) NI)) as [I1 I2].
  destruct (absorb_all_get (NOther KClass) g c (proj1 (get_none _ _) NC)) as [J1 J2].
  set (c' := snd (absorb_all g c)) in *.
  assert (KE : forall x, In x kids -> set_child c' x = x \/ (x = GE cn c ck /\ set_child c' x = GE cn c' ck)).
  { intros [xn xa xk|t] Hx; [|left; reflexivity]. right. assert (In (GE xn xa xk) (filter is_elem kids)) as Hf by (apply filter_In; auto).
    rewrite FE in Hf. destruct Hf as [Hf|[]]. injection Hf as -> -> ->. auto. }
  split; [apply bare_of; assumption|]. split.
  - apply Forall_map. rewrite Forall_forall in *. intros x Hx. destruct (KE x Hx) as [->|[-> ->]]; [auto|]. specialize (BK _ Hx). apply every_kids in BK. destruct BK as [BC BCK].
    apply every_kids. split; [|exact BCK]. intros E. destruct (bare_get cn c BC E) as [_ Q]. apply (bare_of c' cn); [congruence|congruence|exact E].
  - intros E st env. rewrite flat_map_map'. apply flat_map_ext_Forall. apply Forall_forall. intros x Hx. destruct (KE x Hx) as [->|[-> ->]]; [reflexivity|].
    cbn [used]. rewrite (no_id c (proj1 (proj1 OC)) CI), (no_id c'); [reflexivity|exact (proj1 (proj1 K2))|]. unfold has_attr. rewrite I1, GI. reflexivity.
Qed.
Lemma exit_used free name attrs kids above l : fine above (GE name attrs kids) -> every bare_group (GE name attrs kids) ->
  exit_group local_name free name attrs kids = Some l ->
  Forall (every bare_group) l /\ forall E (st : ename -> E -> list gattr -> E) env, flat_map (used st env) l = used st env (GE name attrs kids).
Proof.
  intros F B. unfold exit_group. destruct (negb free || negb (is_g name) || negb (existsb is_elem kids)) eqn:G.
  - intros [= <-]. split; [constructor; [exact B|constructor]|]. intros E st env. cbn [flat_map]. apply app_nil_r.
  - apply orb_false_iff in G. destruct G as [G _]. apply orb_false_iff in G. destruct G as [_ G2]. destruct name; try discriminate G2.
    apply every_kids in B. destruct B as [B BK]. destruct (move_attributes local_name attrs kids) as [[g' kids']|] eqn:M; [|discriminate].
    destruct (move_used attrs kids above g' kids' F B BK M) as (B' & BK' & U). intros [= <-].
    assert (IG : forall g, bare_group EG g -> id_of g = None).
    { intros g Hg. unfold id_of. apply pick_none. intros a Ha. destruct (Hg eq_refl a Ha) as [Hg1 _]. destruct a as [| | | | | |[]]; try reflexivity. destruct (Hg1 eq_refl). }
    unfold flatten_group. destruct g' as [|a g'].
    + destruct (existsb _ kids').
      * split; [constructor; [apply every_kids; split; assumption|constructor]|]. intros E st env. cbn [flat_map used app]. rewrite app_nil_r, (IG attrs B). cbn [id_of pick app]. apply U.
      * split; [exact BK'|]. intros E st env. cbn [used]. rewrite (IG attrs B). apply U.
    + split; [constructor; [apply every_kids; split; assumption|constructor]|]. intros E st env. cbn [flat_map used]. rewrite app_nil_r, (IG attrs B), (IG (a :: g') B'). cbn [app]. apply U.
Qed.
Lemma collapse_used n : forall free above l, fine above n -> every bare_group n -> collapse local_name free n = Some l ->
  Forall (every bare_group) l /\ forall E (st : ename -> E -> list gattr -> E), good_walk st -> forall env, flat_map (used st env) l = used st env n.
Proof.
  induction n as [t|name attrs kids IH] using node_ind'; intros free above l F B.
  - intros [= <-]. split; [constructor; [exact B|constructor]|reflexivity].
  - rewrite collapse_eq. destruct F as [F1 F2]. pose proof F1 as F1'. apply every_kids in F1'. destruct F1' as [OG OK].
    pose proof B as B'. apply every_kids in B'. destruct B' as [BG BK].
    set (ab := fun k => above k \/ gives (Non k) attrs).
    assert (FK : Forall (fine ab) kids).
    { apply Forall_forall. intros x Hx. split; [rewrite Forall_forall in OK; auto|]. intros k. specialize (F2 k). apply once_kids in F2. destruct F2 as [_ F2].
      rewrite Forall_forall in F2. apply F2. exact Hx. }
    assert (KK : exists kids', collapse_kids local_name (negb (is_switch name)) kids = Some kids' /\ fine_list ab kids' /\ Forall (every bare_group) kids' /\
      forall E (st : ename -> E -> list gattr -> E), good_walk st -> forall env,
        flat_map (used st env) kids' = flat_map (used st env) kids /\ flat_map (seen st env) kids' = flat_map (seen st env) kids).
    { clear - IH FK BK. induction kids as [|x kids IHk]; [exists []; repeat split; constructor|].
      inversion IH; inversion FK; inversion BK; subst. destruct (IHk H2 H10 H6) as (l2 & E2 & G2 & B2 & S2).
      destruct (collapse_keeps local_name x (negb (is_switch name)) ab H5) as (l1 & E1 & G1 & _ & S1).
      destruct (H1 (negb (is_switch name)) ab l1 H5 H9 E1) as (B1 & U1).
      exists (l1 ++ l2). cbn [collapse_kids]. rewrite E1, E2. split; [reflexivity|]. split; [apply Forall_app; split; assumption|]. split; [apply Forall_app; split; assumption|].
      intros E st W env. rewrite !flat_map_app. cbn [flat_map]. destruct (S2 E st W env) as [-> ->]. rewrite S1, U1 by assumption. split; reflexivity. }
    destruct KK as (kids' & -> & FK' & BK' & HS).
    assert (FN : fine above (GE name attrs kids')).
    { split.
      - apply every_kids. split; [exact OG|]. eapply Forall_impl; [|exact FK']. intros x []; assumption.
      - intros k. specialize (F2 k). apply once_kids in F2. apply once_kids. split; [tauto|]. eapply Forall_impl; [|exact FK']. intros x [_ H]. apply H. }
    intros X. destruct (exit_used free name attrs kids' above l FN) as (BL & UL); [apply every_kids; split; assumption|exact X|]. split; [exact BL|].
    intros E st W env. rewrite UL. cbn [used]. destruct (HS E st W env) as [-> _]. f_equal. destruct (id_of attrs); [|reflexivity].
    cbn [seen]. destruct (HS E st W (st name env attrs)) as [_ ->]. reflexivity.
Qed.
Lemma used_totals_r env n : every okc n -> used_totals env n = used step_r (fst env) n.
Proof.
  intros H. unfold used_totals. apply (used_proj step_total step_r fst okc); [|exact H].
  intros name e attrs [HT (_ & HR & _)]. rewrite step_total_plain by exact HT. unfold step_t, step_r. destruct name; try reflexivity. congruence.
Qed.
Lemma used_inherited_i k env n : every okc n -> used_inherited k env n = used (step_i k) env n.
Proof.
  intros H. unfold used_inherited. rewrite <- (used_proj (step_inherited k) (step_i k) (fun x => x) okc) by (auto; intros; apply step_inh; assumption).
  rewrite <- (map_id (used (step_inherited k) env n)) at 1. apply map_ext. intros [i l]. cbn [fst snd]. f_equal. rewrite <- (map_id l) at 1. apply map_ext. intros []; reflexivity.
Qed.
Lemma used_effects_e k env n : every okc n -> used_effects k env n = used (step_e k) (fst env) n.
Proof.
  intros H. unfold used_effects. apply (used_proj (step_effects k) (step_e k) fst okc); [|exact H]. intros name e attrs HO. rewrite step_eff by exact HO. reflexivity.
Qed.
Theorem collapse_used_all n : every (fun _ => each_once) n -> every plain_transforms n -> every simple_element n -> (forall k, once_per_branch k False n) -> every bare_group n ->
  exists n', collapse local_name false n = Some [n'] /\ (forall env, used_totals env n' = used_totals env n) /\
  (forall k env, used_inherited k env n' = used_inherited k env n) /\ forall k env, used_effects k env n' = used_effects k env n.
Proof.
  intros H1 H2 H3 H4 B. pose proof (every_and _ _ _ (okt_both n H1 H2) H3) as H. change (every okc n) in H.
  destruct (collapse_keeps local_name n false (fun _ => False)) as (l & E & F & S & _); [split; [exact H|exact H4]|]. destruct (S eq_refl) as (n' & ->).
  exists n'. split; [exact E|]. destruct (collapse_used n false (fun _ => False) [n'] (conj H H4) B E) as (_ & U).
  inversion F as [|? ? [HN _] _]; subst.
  assert (U' : forall E (st : ename -> E -> list gattr -> E), good_walk st -> forall env, used st env n' = used st env n).
  { intros E0 st G env. rewrite <- (U E0 st G env). cbn [flat_map]. rewrite app_nil_r. reflexivity. }
  split; [intros env; rewrite !used_totals_r by assumption; apply U', good_r|]. split.
  - intros k env. rewrite !used_inherited_i by assumption. apply U', good_i.
  - intros k env. rewrite !used_effects_e by assumption. apply U', good_e.
Qed.
End Names.
