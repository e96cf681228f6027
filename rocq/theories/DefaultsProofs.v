(** Proofs about the removal of default and inherited values. *)
From Coq Require Import String List NArith Bool Arith Sorted Lia.
From Verif Require Import Chars NameModel AttrTable KnownModel CascadeModel CascadeSpec CascadeProofs DefaultsModel DefaultsSpec.
Import ListNotations.

Lemma filter_none : forall {A} (f : A -> bool) l, (forall a, In a l -> f a = false) -> filter f l = [].
Proof. intros A f l. induction l as [|a l IH]; intros H; [reflexivity|]. cbn [filter]. rewrite (H a (or_introl eq_refl)). apply IH. intros b Hb. apply H. right. exact Hb. Qed.

Lemma values_filter_nil : forall f p l, values p l = [] -> values p (filter f l) = [].
Proof.
  intros f p l. unfold values. induction l as [|[q w] l IH]; [reflexivity|]. cbn [filter]. destruct (f (q, w)); cbn [filter fst].
  - destruct (Nat.eqb q p); [discriminate|exact IH].
  - destruct (Nat.eqb q p); [discriminate|exact IH].
Qed.
(** An attribute that is there once is kept or dropped. *)
Lemma values_once : forall f p l, once l p ->
  values p (filter f l) = values p l \/ exists v, values p l = [v] /\ f (p, v) = false /\ values p (filter f l) = [].
Proof.
  intros f p l. unfold once. induction l as [|[q w] l IH]; intros O; [left; reflexivity|].
  destruct (Nat.eqb q p) eqn:E.
  - assert (N : values p l = []).
    { unfold values in O |- *. cbn [filter fst] in O. rewrite E in O. cbn in O. destruct (map snd (filter (fun d : nat * value => fst d =? p) l)); [reflexivity|cbn in O; lia]. }
    apply Nat.eqb_eq in E. subst q. cbn [filter]. destruct (f (p, w)) eqn:F.
    + left. unfold values in *. cbn [filter fst]. rewrite Nat.eqb_refl. cbn [map snd]. f_equal. rewrite N. apply (values_filter_nil f p l N).
    + right. exists w. split; [|split; [exact F|apply values_filter_nil; exact N]]. unfold values in *. cbn [filter fst]. rewrite Nat.eqb_refl. cbn [map snd]. rewrite N. reflexivity.
  - assert (V : forall k, values p ((q, w) :: k) = values p k) by (intros k; unfold values; cbn [filter fst]; rewrite E; reflexivity).
    rewrite V in O. destruct (IH O) as [H|(v & H1 & H2 & H3)].
    + left. cbn [filter]. destruct (f (q, w)); rewrite !V; exact H.
    + right. exists v. split; [rewrite V; exact H1|]. split; [exact H2|]. cbn [filter]. destruct (f (q, w)); [rewrite V|]; exact H3.
Qed.
Lemma last_one : forall {A} (v : A), last_of [v] = Some v.
Proof. reflexivity. Qed.

Section Job.
  Variable matches : sel -> elem -> bool.
  Variable inheritable non_group inh_type : prop -> bool.
  Variable select : text -> elem -> option bool.
  Variable default : prop -> option value.
  Variable initial : prop -> value.
  Variable default_attrs useless_overrides : bool.
  Variable sheets : list rule.

  Hypothesis defaults : forall p v, default p = Some v -> v = initial p.
  Hypothesis types : forall p, inheritable p = true -> inh_type p = true.
  Hypothesis blind : forall s e l, matches s (mkElem (e_id e) l (e_style e)) = matches s e.
  Hypothesis select_blind : forall s e l, select s (mkElem (e_id e) l (e_style e)) = select s e.
  Hypothesis skipped : forallb none_skipped sheets = true.

  Definition fit (e : elem) : Prop :=
    selectors_read matches select sheets e /\ Forall (none_after matches e) sheets /\
    forall p, by_specificity matches sheets e p /\ apart matches sheets e p /\ once (e_attrs e) p.

  Definition less (e e' : elem) : Prop := exists f, e' = mkElem (e_id e) (filter f (e_attrs e)) (e_style e).

  Lemma declared_less : forall f e l p, declared matches f sheets (mkElem (e_id e) l (e_style e)) p = declared matches f sheets e p.
  Proof. intros f e l p. unfold declared. apply flat_map_ext. intros g. rewrite blind. reflexivity. Qed.

  Lemma once_less : forall f l p, once l p -> once (filter f l) p.
  Proof.
    intros f l p O. destruct (values_once f p l O) as [H|(v & _ & _ & H)]; unfold once in *; rewrite H; [exact O|cbn; lia].
  Qed.

  Lemma fit_less : forall e f, fit e -> fit (mkElem (e_id e) (filter f (e_attrs e)) (e_style e)).
  Proof.
    intros e f (R & N & P). split; [|split].
    - intros g Hg. rewrite select_blind, blind. apply R. exact Hg.
    - eapply Forall_impl; [|exact N]. intros r H a g h b E. rewrite blind. eapply H. exact E.
    - intros p. destruct (P p) as (S & A & O). split; [|split].
      + intros k Hk. rewrite declared_less. apply S. exact Hk.
      + unfold apart. rewrite declared_less. cbn [e_attrs]. destruct A as [A|A]; [left; apply values_filter_nil; exact A|right; exact A].
      + apply once_less. exact O.
  Qed.

  Notation final' := (final matches inheritable initial).
  Lemma final_cons : forall on e c p, final' on sheets (e :: c) p =
    match cascaded matches on sheets e p with Some v => v | None => if inheritable p then final' on sheets c p else initial p end.
  Proof.
    intros on e c p. unfold final. cbn [computed first_of]. destruct (cascaded matches on sheets e p); [reflexivity|].
    destruct (inheritable p); [destruct (computed matches inheritable on sheets c p); reflexivity|reflexivity].
  Qed.

  (** What the code takes to be handed down agrees with the cascade. *)
  Lemma inherits_agrees : forall c, Forall fit c -> exists s, with_inherited select sheets c = Some s /\
    forall p, agrees (get inheritable s p) (fun on => if inheritable p then computed matches inheritable on sheets c p else None).
  Proof.
    intros [|a c] F.
    - exists no_styles. split; [reflexivity|]. intros p. cbn [computed]. unfold get, get_high, get_low, get_attr, get_inherited. cbn.
      destruct (inheritable p); apply agrees_none.
    - unfold with_inherited.
      assert (X : exists s, with_all select sheets (a :: c) = Some s /\ own matches sheets a s /\
                  forall p, agrees (find_prop p (inherited s)) (fun on => computed matches (fun _ => true) on sheets c p)).
      { assert (Y : forall p, exists s, with_all select sheets (a :: c) = Some s /\ own matches sheets a s /\
                  agrees (find_prop p (inherited s)) (fun on => computed matches (fun _ => true) on sheets c p)).
        { intros p. apply chain_styles; [exact skipped| | |].
          - eapply Forall_impl; [|exact F]. intros b (R & N & _). split; assumption.
          - eapply Forall_impl; [|exact F]. intros b (_ & _ & P). apply P.
          - inversion F as [|? ? _ F']. eapply Forall_impl; [|exact F']. intros b (_ & _ & P). apply P. }
        destruct (Y 0) as (s & E & O & _). exists s. split; [exact E|]. split; [exact O|]. intros p. destruct (Y p) as (s' & E' & _ & G). congruence. }
      destruct X as (s & E & O & G). rewrite E. eexists. split; [reflexivity|]. intros p.
      inversion F as [|? ? (_ & _ & P) _]; subst. destruct (P p) as (S & A & _).
      pose proof (handed matches sheets a s no_styles p _ O S A eq_refl (G p)) as H.
      unfold get. replace (get_high (inherit_from s no_styles) p) with (@None (value * mode)) by reflexivity.
      replace (get_low (inherit_from s no_styles) p) with (@None (value * mode)) by reflexivity.
      replace (get_attr (inherit_from s no_styles) p) with (@None (value * mode)) by reflexivity. cbn [or_else].
      unfold get_inherited. destruct (inheritable p) eqn:I; [|apply agrees_none].
      eapply agrees_ext; [|exact H]. intros on. rewrite (computed_inh _ inheritable on sheets (a :: c) p I). cbn [computed]. rewrite first_two. reflexivity.
  Qed.

  Notation keeps := (retain inheritable non_group inh_type default default_attrs useless_overrides).
  Notation cleaned := (clean select inheritable non_group inh_type default default_attrs useless_overrides).

  Definition same (c c' : list elem) : Prop := forall on p, final' on sheets c p = final' on sheets c' p.

  Lemma step : forall e i c c' s, fit e -> same c c' -> with_inherited select sheets c' = Some s ->
    (forall p, agrees (get inheritable s p) (fun on => if inheritable p then computed matches inheritable on sheets c' p else None)) ->
    same (e :: c) (mkElem (e_id e) (filter (keeps i s) (e_attrs e)) (e_style e) :: c').
  Proof.
    intros e i c c' s (R & N & P) H W G on p. rewrite !final_cons. destruct (P p) as (_ & _ & O).
    unfold cascaded. rewrite !declared_less. cbn [e_attrs]. unfold of_style. cbn [e_style].
    destruct (values_once (keeps i s) p _ O) as [V|(v & V1 & V2 & V3)].
    - rewrite V. destruct (first_of _); [reflexivity|]. rewrite (H on p). reflexivity.
    - rewrite V1, V3, last_one. change (last_of (@nil value)) with (@None value). rewrite !first_five.
      destruct (match e_style e with Some b => last_of (values p (b_important b)) | None => None end); [reflexivity|]. cbn [or_else].
      destruct (best (in_force on (declared matches b_important sheets e p))); [reflexivity|]. cbn [or_else].
      destruct (match e_style e with Some b => last_of (values p (b_normal b)) | None => None end); [reflexivity|]. cbn [or_else].
      destruct (best (in_force on (declared matches b_normal sheets e p))); [reflexivity|]. cbn [or_else].
      specialize (G p). destruct G as (_ & G2 & G3).
      unfold retain in V2.
      destruct (default_attrs && negb i && match (if inh_type p then get inheritable s p else None) with None => true | Some _ => false end
                && match default p with Some d => Nat.eqb d v | None => false end) eqn:D.
      + apply andb_prop in D. destruct D as [D D4]. apply andb_prop in D. destruct D as [_ D3].
        destruct (default p) as [d|] eqn:Dp; [|discriminate]. apply Nat.eqb_eq in D4. subst d. rewrite (defaults p v Dp).
        destruct (inheritable p) eqn:I; [|reflexivity]. rewrite (types p I) in D3. destruct (get inheritable s p) eqn:E; [discriminate|].
        specialize (G2 eq_refl on). unfold final. rewrite G2. reflexivity.
      + destruct (useless_overrides && negb i && negb (non_group p) && match (if inh_type p then get inheritable s p else None) with Some (w, Static) => Nat.eqb w v | _ => false end) eqn:U; [|discriminate].
        apply andb_prop in U. destruct U as [_ U]. destruct (inh_type p); [|discriminate].
        destruct (get inheritable s p) as [[w []]|] eqn:E; try discriminate. apply Nat.eqb_eq in U. subst w.
        specialize (G3 v eq_refl on). destruct (inheritable p) eqn:I; [|discriminate]. unfold final. rewrite G3. reflexivity.
  Qed.

  (** ** Documents *)
  Fixpoint tree_induction (P : tree -> Prop) (H : forall e i k, Forall P k -> P (Node e i k)) (t : tree) : P t :=
    match t with
    | Node e i k => H e i k ((fix go (l : list tree) : Forall P l := match l with [] => Forall_nil P | a :: l => Forall_cons a (tree_induction P H a) (go l) end) k)
    end.
  Definition clean_all (c : list elem) : list tree -> option (list tree) :=
    fix go (l : list tree) : option (list tree) :=
      match l with
      | [] => Some []
      | k :: l => match cleaned sheets c k with
                  | None => None
                  | Some k' => match go l with Some l' => Some (k' :: l') | None => None end
                  end
      end.
  Lemma clean_node : forall c e i k, cleaned sheets c (Node e i k) =
    match with_inherited select sheets c with
    | None => None
    | Some s => let e' := mkElem (e_id e) (filter (keeps i s) (e_attrs e)) (e_style e) in
                match clean_all (e' :: c) k with Some k' => Some (Node e' i k') | None => None end
    end.
  Proof. intros c e i k. reflexivity. Qed.

  Definition inside (t : tree) : list elem := flat_map (fun c => match c with e :: _ => [e] | [] => [] end) (chains [] t).
  Lemma heads_above : forall t above, flat_map (fun c : list elem => match c with e :: _ => [e] | [] => [] end) (chains above t) = inside t.
  Proof.
    unfold inside. induction t as [e i k IH] using tree_induction. intros above. cbn [chains flat_map app]. f_equal.
    induction k as [|a k IHk]; [reflexivity|]. inversion IH; subst. cbn [flat_map]. rewrite !flat_map_app. rewrite (H1 (e :: above)), (H1 [e]). f_equal. apply IHk. assumption.
  Qed.
  Lemma inside_node : forall e i k, inside (Node e i k) = e :: flat_map inside k.
  Proof.
    intros e i k. unfold inside at 1. cbn [chains flat_map app]. f_equal. induction k as [|a k IH]; [reflexivity|].
    cbn [flat_map]. rewrite flat_map_app, heads_above, IH. reflexivity.
  Qed.

  Lemma clean_same : forall t c c', Forall fit c' -> same c c' -> Forall fit (inside t) ->
    exists t', cleaned sheets c' t = Some t' /\ Forall2 same (chains c t) (chains c' t').
  Proof.
    induction t as [e i k IH] using tree_induction. intros c c' F H T. rewrite inside_node in T. inversion T as [|? ? Te Tk]; subst.
    destruct (inherits_agrees c' F) as (s & E & G). rewrite clean_node, E. cbv zeta.
    set (e' := mkElem (e_id e) (filter (keeps i s) (e_attrs e)) (e_style e)).
    assert (H' : same (e :: c) (e' :: c')) by (apply (step e i c c' s Te H E G)).
    assert (F' : Forall fit (e' :: c')) by (constructor; [apply fit_less; exact Te|exact F]).
    assert (K : exists k', clean_all (e' :: c') k = Some k' /\ Forall2 same (flat_map (chains (e :: c)) k) (flat_map (chains (e' :: c')) k')).
    { clear T. induction k as [|a k IHk]; [exists []; split; [reflexivity|constructor]|].
      inversion IH as [|? ? Ia Ik]; subst. cbn [flat_map] in Tk. apply Forall_app in Tk. destruct Tk as [Ta Tk].
      destruct (Ia (e :: c) (e' :: c') F' H' Ta) as (a' & Ea & Sa). destruct (IHk Ik Tk) as (k' & Ek & Sk).
      exists (a' :: k'). split; [cbn; rewrite Ea; fold (clean_all (e' :: c')); rewrite Ek; reflexivity|]. cbn [flat_map]. apply Forall2_app; assumption. }
    destruct K as (k' & Ek & Sk). rewrite Ek. eexists. split; [reflexivity|]. cbn [chains]. constructor; assumption.
  Qed.

  Theorem clean_final : forall t, Forall fit (elements t) ->
    exists t', cleaned sheets [] t = Some t' /\ Forall2 same (chains [] t) (chains [] t').
  Proof. intros t F. apply clean_same; [constructor|intros on p; reflexivity|exact F]. Qed.
End Job.

Lemma retain_id : forall inheritable non_group inh_type default default_attrs useless_overrides s a,
  retain inheritable non_group inh_type default default_attrs useless_overrides true s a = true.
Proof. intros until a. destruct a as [p v]. unfold retain. cbn [negb]. rewrite !andb_false_r. cbn [andb]. rewrite ?andb_false_r. cbn [andb]. reflexivity. Qed.

(** ** The table *)
Definition inherited_texts : list text := Eval vm_compute in map lit inherited_properties.
Lemma inherited_texts_eq : map lit inherited_properties = inherited_texts.
Proof. vm_cast_no_check (eq_refl inherited_texts). Qed.
Definition row_ok (k : kind) : bool :=
  if N.testbit (id_info (ABase (BKnown k))) 2 then (if existsb (text_eqb (kind_local k)) inherited_texts then inheritable_type (ABase (BKnown k)) else false)
  else match kind_prefix k with SVG => negb (existsb (text_eqb (kind_local k)) inherited_texts) | _ => true end || text_eqb (kind_id k) (lit "FillAnimate").
Lemma rows_ok : forallb row_ok attr_table = true.
Proof. vm_cast_no_check (eq_refl true). Qed.
Local Opaque id_info inheritable_type inherited_texts.
Lemma inherited_table : forall k, In k attr_table -> kind_prefix k = SVG -> kind_id k <> lit "FillAnimate" ->
  (N.testbit (id_info (ABase (BKnown k))) 2 = true <-> In (kind_local k) (map lit inherited_properties)) /\
  (N.testbit (id_info (ABase (BKnown k))) 2 = true -> inheritable_type (ABase (BKnown k)) = true).
Proof.
  intros k Hk Hp Hf. pose proof (proj1 (forallb_forall _ _) rows_ok k Hk) as R. unfold row_ok in R. apply (proj2 (text_eqb_neq _ _)) in Hf. rewrite inherited_texts_eq, Hp in *. rewrite Hf in R. cbn [orb] in R. rewrite ?orb_false_r in R.
  assert (M : In (kind_local k) inherited_texts <-> existsb (text_eqb (kind_local k)) inherited_texts = true).
  { rewrite existsb_exists. split; [intros H; exists (kind_local k); split; [exact H|apply text_eqb_refl]|]. intros (x & H & E). apply (proj1 (text_eqb_spec _ _)) in E. subst x. exact H. }
  destruct (N.testbit (id_info (ABase (BKnown k))) 2); destruct (existsb (text_eqb (kind_local k)) inherited_texts); try discriminate R;
    (split; [rewrite M; split; congruence|intros; congruence]).
Qed.
