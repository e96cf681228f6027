From Coq Require Import String List NArith Bool Arith Sorted Lia.
From Verif Require Import Chars CascadeModel CascadeSpec.
Import ListNotations.

(** ** Maps *)
Lemma find_app : forall {A} p (l k : list (prop * A)), find_prop p (l ++ k) = or_else (find_prop p l) (find_prop p k).
Proof. intros A p l k. induction l as [|[q a] l IH]; simpl; [reflexivity|]. destruct (Nat.eqb q p); [reflexivity|exact IH]. Qed.
Lemma extend_eq : forall {A} (l m : list (prop * A)), extend m l = rev l ++ m.
Proof.
  intros A l. unfold extend. induction l as [|[q a] l IH]; intros m; simpl; [reflexivity|].
  rewrite IH. unfold insert. rewrite <- app_assoc. reflexivity.
Qed.
Lemma find_extend : forall {A} p (l m : list (prop * A)), find_prop p (extend m l) = or_else (find_prop p (rev l)) (find_prop p m).
Proof. intros. rewrite extend_eq. apply find_app. Qed.
Lemma find_map : forall {A B} (f : A -> B) p (l : list (prop * A)), find_prop p (map (fun x => (fst x, f (snd x))) l) = option_map f (find_prop p l).
Proof. intros A B f p l. induction l as [|[q a] l IH]; simpl; [reflexivity|]. destruct (Nat.eqb q p); [reflexivity|exact IH]. Qed.
Lemma find_entries : forall {A B} (f : A -> B) p (l : list (prop * A)), find_prop p (rev (entries f l)) = option_map f (find_prop p l).
Proof. intros. unfold entries. rewrite <- map_rev, rev_involutive. apply find_map. Qed.
Lemma last_of_snoc : forall {A} (l : list A) a, last_of (l ++ [a]) = Some a.
Proof. intros. unfold last_of. rewrite rev_unit. reflexivity. Qed.
Lemma last_of_app : forall {A} (l k : list A), last_of (l ++ k) = or_else (last_of k) (last_of l).
Proof. intros. unfold last_of. rewrite rev_app_distr. destruct (rev k); reflexivity. Qed.
Lemma last_of_map : forall {A B} (f : A -> B) l, last_of (map f l) = option_map f (last_of l).
Proof. intros. unfold last_of. rewrite <- map_rev. destruct (rev l); reflexivity. Qed.
Lemma values_app : forall p l k, values p (l ++ k) = values p l ++ values p k.
Proof. intros. unfold values. rewrite filter_app, map_app. reflexivity. Qed.
Lemma find_rev : forall p (l : list (prop * value)), find_prop p (rev l) = last_of (values p l).
Proof.
  intros p l. induction l as [|[q a] l IH] using rev_ind; [reflexivity|].
  rewrite rev_unit, values_app, last_of_app. simpl. unfold values at 1. simpl. destruct (Nat.eqb q p); simpl; [reflexivity|]. exact IH.
Qed.
Lemma find_first : forall p (l : list (prop * value)), find_prop p l = hd_error (values p l).
Proof. intros p l. induction l as [|[q a] l IH]; [reflexivity|]. unfold values in *. simpl. destruct (Nat.eqb q p); simpl; [reflexivity|exact IH]. Qed.
Lemma find_once : forall p l, once l p -> find_prop p l = last_of (values p l).
Proof. intros p l H. rewrite find_first. unfold once in H. destruct (values p l) as [|a [|b k]]; simpl in *; try reflexivity. lia. Qed.
Lemma or_assoc : forall {A} (a b c : option A), or_else (or_else a b) c = or_else a (or_else b c).
Proof. intros A [a|] b c; reflexivity. Qed.
Lemma or_none : forall {A} (a : option A), or_else a None = a.
Proof. intros A [a|]; reflexivity. Qed.
Lemma or_map : forall {A B} (f : A -> B) a b, option_map f (or_else a b) = or_else (option_map f a) (option_map f b).
Proof. intros A B f [a|] b; reflexivity. Qed.

(** ** Agreement *)
Lemma agrees_const : forall v, agrees (as_static v) (fun _ => v).
Proof.
  intros [v|]; repeat split; simpl; try reflexivity; intros; try discriminate. congruence.
Qed.
Lemma agrees_or : forall a b c d, agrees a c -> agrees b d -> agrees (or_else a b) (fun on => or_else (c on) (d on)).
Proof.
  intros [[v m]|] b c d (A1 & A2 & A3) (B1 & B2 & B3).
  - split; [|split].
    + rewrite <- A1. reflexivity.
    + discriminate.
    + simpl. intros w E on. injection E as -> ->. rewrite (A3 w eq_refl on). reflexivity.
  - split; [|split].
    + simpl. rewrite <- A1. exact B1.
    + simpl. intros E on. rewrite (A2 eq_refl on). exact (B2 E on).
    + simpl. intros w E on. rewrite (A2 eq_refl on). exact (B3 w E on).
Qed.
Lemma agrees_ext : forall a c d, (forall on, c on = d on) -> agrees a c -> agrees a d.
Proof.
  intros a c d E (A1 & A2 & A3). split; [|split].
  - rewrite <- E. exact A1.
  - intros N on. rewrite <- E. exact (A2 N on).
  - intros v N on. rewrite <- E. exact (A3 v N on).
Qed.
Lemma agrees_none : agrees None (fun _ => None).
Proof. repeat split; intros; try reflexivity; discriminate. Qed.

(** ** Specificity in order: the last one is best *)
Lemma best_from_sorted : forall l b, StronglySorted le (map fst l) -> (forall x, b = Some x -> Forall (fun y => fst x <= fst y) l) ->
  best_from b l = or_else (last_of l) b.
Proof.
  induction l as [|x l IH]; intros b S H; [reflexivity|]. simpl. inversion S as [|? ? S' F]; subst.
  assert (E : (match b with Some y => if fst x <? fst y then b else Some x | None => Some x end) = Some x).
  { destruct b as [y|]; [|reflexivity]. specialize (H y eq_refl). inversion H; subst. destruct (fst x <? fst y) eqn:L; [|reflexivity].
    apply Nat.ltb_lt in L. lia. }
  rewrite E. rewrite IH.
  - change (x :: l) with ([x] ++ l). rewrite last_of_app. rewrite or_assoc. reflexivity.
  - exact S'.
  - intros y Ey. injection Ey as <-. rewrite Forall_map in F. exact F.
Qed.
Lemma best_sorted : forall l, StronglySorted le (map fst l) -> best l = option_map snd (last_of l).
Proof. intros l H. unfold best. rewrite best_from_sorted; [rewrite or_none; reflexivity|exact H|discriminate]. Qed.
Lemma sorted_filter : forall {A} (f : A -> nat) (k : A -> bool) l, StronglySorted le (map f l) -> StronglySorted le (map f (filter k l)).
Proof.
  intros A f k l. induction l as [|a l IH]; simpl; intros H; [constructor|]. inversion H as [|? ? S F]; subst.
  destruct (k a); [|auto]. simpl. constructor; [auto|]. rewrite Forall_map in *. apply Forall_forall. intros x Hx.
  apply filter_In in Hx. rewrite Forall_forall in F. apply F. tauto.
Qed.

Definition mode_of (conds : list nat) : mode := match conds with [] => Static | _ => Dynamic end.
Lemma agrees_declared : forall l : list (nat * value * list nat), StronglySorted le (map (fun x => fst (fst x)) l) ->
  agrees (option_map (fun x => (snd (fst x), mode_of (snd x))) (last_of l)) (fun on => best (in_force on l)).
Proof.
  intros l S.
  assert (B : forall on, best (in_force on l) = option_map (fun x => snd (fst x)) (last_of (filter (fun x => forallb on (snd x)) l))).
  { intros on. unfold in_force. rewrite best_sorted.
    - rewrite last_of_map. destruct (last_of _); reflexivity.
    - rewrite map_map. apply sorted_filter. exact S. }
  apply agrees_ext with (c := fun on => option_map (fun x => snd (fst x)) (last_of (filter (fun x => forallb on (snd x)) l))); [intros on; symmetry; apply B|].
  clear B. split; [|split].
  - assert (F : filter (fun x : nat * value * list nat => forallb (fun _ => true) (snd x)) l = l).
    { clear S. induction l as [|x l IH]; [reflexivity|]. simpl. rewrite IH.
      assert (T : forallb (fun _ : nat => true) (snd x) = true) by (apply forallb_forall; reflexivity). rewrite T. reflexivity. }
    rewrite F. destruct (last_of l); reflexivity.
  - intros N on. destruct l as [|x l _] using rev_ind; [reflexivity|]. rewrite last_of_snoc in N. discriminate.
  - intros v N on. destruct l as [|x l _] using rev_ind; [discriminate|]. rewrite last_of_snoc in N. simpl in N.
    rewrite filter_app. simpl. destruct (snd x) as [|c k] eqn:E; [|discriminate]. simpl. rewrite last_of_snoc. simpl. congruence.
Qed.

Section Agree.
  Variable matches : sel -> elem -> bool.
  Variable inheritable : prop -> bool.
  Variable select : text -> elem -> option bool.

  (** ** The rules as calls *)
  Fixpoint run (e : elem) (l : list single) (stack : list text) (s : styles) : option (styles * list text) :=
    match l with
    | [] => Some (s, stack)
    | g :: l =>
        match select (concat (stack ++ [sel_text (g_sel g)])) e with
        | None => None
        | Some false => run e l (stack ++ [sel_text (g_sel g)]) s
        | Some true => run e l stack (add_declarations s (g_block g) (sel_spec (g_sel g)) (mode_of (g_conds g)))
        end
    end.
  Lemma run_app : forall e l k stack s, run e (l ++ k) stack s = match run e l stack s with Some (s, stack) => run e k stack s | None => None end.
  Proof.
    intros e l k. induction l as [|g l IH]; intros stack s; [reflexivity|]. simpl. destruct (select _ e) as [[|]|]; [apply IH|apply IH|reflexivity].
  Qed.
  Lemma style_run : forall e b conds sels stack s,
    style_rule select e b (mode_of conds) 0 sels stack s = run e (map (fun x => mkSingle x b conds) sels) stack s.
  Proof.
    intros e b conds sels. induction sels as [|x sels IH]; intros stack s; [reflexivity|]. simpl. destruct (select _ e) as [[|]|]; [apply IH|apply IH|reflexivity].
  Qed.
  Lemma nested_run : forall r e conds stack s, none_skipped r = true ->
    with_nested_style select e r 0 (mode_of conds) stack s = run e (singles conds r) stack s.
  Proof.
    fix IH 1. intros r e conds stack s H. destruct r as [sels b|q rs|q rs].
    - exact (style_run e b conds sels stack s).
    - cbn [with_nested_style singles]. cbn [none_skipped] in H. revert stack s H.
      induction rs as [|r rs IHrs]; intros stack s H; [reflexivity|].
      apply andb_prop in H. destruct H as [H1 H2].
      rewrite run_app. rewrite (IH r e (q :: conds) stack s H1 : with_nested_style select e r 0 Dynamic stack s = _).
      destruct (run e (singles (q :: conds) r) stack s) as [[s' stack']|]; [|reflexivity]. exact (IHrs stack' s' H2).
    - discriminate H.
  Qed.

  Definition call (s : styles) (g : single) : styles := add_declarations s (g_block g) (sel_spec (g_sel g)) (mode_of (g_conds g)).
  Definition hits (e : elem) (l : list single) : list single := filter (fun g => matches (g_sel g) e) l.
  Lemma run_hits : forall e l s, (forall g, In g l -> select (sel_text (g_sel g)) e = Some (matches (g_sel g) e)) ->
    (forall a g h b, l = a ++ g :: h :: b -> matches (g_sel g) e = true) ->
    exists stack, run e l [] s = Some (fold_left call (hits e l) s, stack).
  Proof.
    intros e l. induction l as [|g l IH]; intros s R N; [exists []; reflexivity|].
    simpl. rewrite app_nil_r. rewrite (R g (or_introl eq_refl)). destruct (matches (g_sel g) e) eqn:M.
    - apply IH; [intros h Hh; apply R; right; exact Hh|]. intros a h i b E. apply (N (g :: a) h i b). rewrite E. reflexivity.
    - destruct l as [|h l].
      + simpl. eexists. reflexivity.
      + rewrite (N [] g h l eq_refl) in M. discriminate.
  Qed.
  Lemma with_style_hits : forall e rs s, forallb none_skipped rs = true -> selectors_read matches select rs e -> Forall (none_after matches e) rs ->
    with_style select e rs s = Some (fold_left call (hits e (all_singles rs)) s).
  Proof.
    intros e rs. induction rs as [|r rs IH]; intros s K R N; [reflexivity|]. cbn [with_style]. simpl in K. apply andb_prop in K. destruct K as [K1 K2].
    inversion N as [|? ? N1 N2]; subst.
    rewrite (nested_run r e [] [] s K1 : with_nested_style select e r 0 Static [] s = _).
    destruct (run_hits e (singles [] r) s) as (stack & E).
    - intros g Hg. apply R. unfold all_singles. simpl. apply in_or_app. left. exact Hg.
    - exact N1.
    - rewrite E. rewrite IH.
      + unfold all_singles. simpl. unfold hits. rewrite filter_app, fold_left_app. reflexivity.
      + exact K2.
      + intros g Hg. apply R. unfold all_singles. simpl. apply in_or_app. right. exact Hg.
      + exact N2.
  Qed.

  (** ** What the calls leave in the maps *)
  Lemma find_set : forall ds p spec m r, find_prop p (set_declarations r ds spec m) = or_else (option_map (fun v => (spec, (v, m))) (last_of (values p ds))) (find_prop p r).
  Proof.
    intros ds p spec m. induction ds as [|[q v] ds IH] using rev_ind; intros r; [reflexivity|].
    unfold set_declarations in *. rewrite fold_left_app. simpl. rewrite values_app, last_of_app.
    unfold values at 1. simpl. destruct (Nat.eqb q p); simpl; [reflexivity|]. apply IH.
  Qed.
  Definition of_hits (f : block -> list (prop * value)) (p : prop) (l : list single) : list (nat * value * list nat) :=
    flat_map (fun g => map (fun v => (sel_spec (g_sel g), v, g_conds g)) (values p (f (g_block g)))) l.
  Lemma declared_hits : forall f rs e p, declared matches f rs e p = of_hits f p (hits e (all_singles rs)).
  Proof.
    intros f rs e p. unfold declared. generalize (all_singles rs). intros l. induction l as [|g l IH]; [reflexivity|].
    simpl. destruct (matches (g_sel g) e); simpl; rewrite IH; reflexivity.
  Qed.
  Definition seen (x : nat * value * list nat) : nat * (value * mode) := (fst (fst x), (snd (fst x), mode_of (snd x))).
  Lemma call_normal : forall s g, declarations (call s g) = set_declarations (declarations s) (b_normal (g_block g)) (sel_spec (g_sel g)) (mode_of (g_conds g)).
  Proof. reflexivity. Qed.
  Lemma call_important : forall s g, important_declarations (call s g) = set_declarations (important_declarations s) (b_important (g_block g)) (sel_spec (g_sel g)) (mode_of (g_conds g)).
  Proof. reflexivity. Qed.
  Lemma find_calls : forall l s p,
    find_prop p (declarations (fold_left call l s)) = or_else (option_map seen (last_of (of_hits b_normal p l))) (find_prop p (declarations s)) /\
    find_prop p (important_declarations (fold_left call l s)) = or_else (option_map seen (last_of (of_hits b_important p l))) (find_prop p (important_declarations s)).
  Proof.
    intros l. induction l as [|g l IH] using rev_ind; intros s p; [split; reflexivity|].
    rewrite fold_left_app. cbn [fold_left]. unfold of_hits. rewrite !flat_map_app. cbn [flat_map]. rewrite !app_nil_r, !last_of_app, !or_map, !or_assoc.
    destruct (IH s p) as [I1 I2]. unfold of_hits in I1, I2. 
    rewrite call_normal, call_important, !find_set, I1, I2. rewrite !last_of_map. split; f_equal; [destruct (last_of (values p (b_normal (g_block g))))|destruct (last_of (values p (b_important (g_block g))))]; reflexivity.
  Qed.
  Lemma calls_rest : forall l s, attr (fold_left call l s) = attr s /\ inline (fold_left call l s) = inline s /\ inherited (fold_left call l s) = inherited s.
  Proof. intros l. induction l as [|g l IH]; intros s; [repeat split|]. simpl. destruct (IH (call s g)) as (A & B & C). rewrite A, B, C. repeat split. Qed.

  (** What is known of the styles of one element, apart from what it inherits. *)
  Definition own (rs : list rule) (e : elem) (s : styles) : Prop :=
    attr s = e_attrs e /\ inline s = e_style e /\
    forall p, option_map snd (find_prop p (declarations s)) = option_map (fun x => (snd (fst x), mode_of (snd x))) (last_of (declared matches b_normal rs e p)) /\
              option_map snd (find_prop p (important_declarations s)) = option_map (fun x => (snd (fst x), mode_of (snd x))) (last_of (declared matches b_important rs e p)).
  Lemma own_calls : forall rs e, own rs e (fold_left call (hits e (all_singles rs)) (with_attribute e (with_inline_style e no_styles))) .
  Proof.
    intros rs e. set (s0 := with_attribute e (with_inline_style e no_styles)).
    destruct (calls_rest (hits e (all_singles rs)) s0) as (A & B & _).
    assert (Z : attr s0 = e_attrs e /\ inline s0 = e_style e /\ declarations s0 = [] /\ important_declarations s0 = []).
    { subst s0. unfold with_attribute, with_inline_style. destruct (e_style e); repeat split. }
    destruct Z as (Z1 & Z2 & Z3 & Z4).
    split; [congruence|]. split; [congruence|]. intros p. destruct (find_calls (hits e (all_singles rs)) s0 p) as [F1 F2].
    rewrite F1, F2, Z3, Z4, !declared_hits. cbn [find_prop]. rewrite !or_none. clear. split; [destruct (last_of (of_hits b_normal p (hits e (all_singles rs))))|destruct (last_of (of_hits b_important p (hits e (all_singles rs))))]; reflexivity.
  Qed.

  Definition ready (rs : list rule) (e : elem) : Prop := selectors_read matches select rs e /\ Forall (none_after matches e) rs.

  Lemma inline_last : forall (f : block -> list (prop * value)) o p,
    find_prop p (rev (map (fun x : prop * value => (fst x, (snd x, Static))) (match o with Some b => f b | None => [] end)))
    = as_static (match o with Some b => last_of (values p (f b)) | None => None end).
  Proof. intros f o p. rewrite <- map_rev. rewrite (find_map (fun v : value => (v, Static))). destruct o as [b|]; [rewrite find_rev; reflexivity|reflexivity]. Qed.

  Lemma first_five : forall {A} (a b c d e : option A), first_of [a; b; c; d; e] = or_else a (or_else b (or_else c (or_else d e))).
  Proof. intros A a b c d e. destruct a, b, c, d, e; reflexivity. Qed.
  Lemma first_two : forall {A} (a b : option A), first_of [a; b] = or_else a b.
  Proof. intros A a b. destruct a, b; reflexivity. Qed.

  (** What a parent hands down. *)
  Lemma handed : forall rs e s s0 p c, own rs e s -> by_specificity matches rs e p -> apart matches rs e p ->
    inherited s0 = [] -> agrees (find_prop p (inherited s)) c ->
    agrees (find_prop p (inherited (inherit_from s s0))) (fun on => or_else (cascaded matches on rs e p) (c on)).
  Proof.
    intros rs e s s0 p c (O1 & O2 & O3) S A I C. destruct (O3 p) as [D N]. unfold inherit_from. cbv zeta. cbn [inherited].
    rewrite !find_extend, !find_entries, !inline_last, I, O1, O2, D, N. cbn [find_prop]. rewrite or_none.
    rewrite <- map_rev. rewrite (find_map (fun v : value => (v, Static))), find_rev.
    eapply agrees_ext.
    2:{ apply agrees_or; [apply agrees_const|]. apply agrees_or; [apply agrees_declared; apply S; left; reflexivity|].
        apply agrees_or; [apply agrees_const|]. apply agrees_or; [apply agrees_const|]. apply agrees_or; [apply agrees_declared; apply S; right; reflexivity|].
        destruct (find_prop p (inherited s)) eqn:E; exact C. }
    intros on. unfold cascaded. rewrite first_five, !or_assoc. cbn beta. unfold of_style. do 3 f_equal. rewrite <- !or_assoc. f_equal.
    destruct A as [A|A]; rewrite A; [apply eq_sym, or_none|]. simpl. apply or_none.
  Qed.

  Lemma got : forall rs e s p c, own rs e s -> by_specificity matches rs e p -> once (e_attrs e) p -> style_once e p ->
    agrees (get_inherited inheritable s p) c ->
    agrees (get inheritable s p) (fun on => or_else (cascaded matches on rs e p) (c on)).
  Proof.
    intros rs e s p c (O1 & O2 & O3) S A T C. destruct (O3 p) as [D N]. unfold get, get_high, get_low, get_attr. rewrite O1, O2, D, N, (find_once p _ A), !or_assoc.
    assert (I1 : (match e_style e with Some b => as_static (find_prop p (b_important b)) | None => None end) = as_static (of_style b_important e p)).
    { unfold of_style. unfold style_once in T. destruct (e_style e) as [b|]; [|reflexivity]. rewrite (find_once p _ (proj1 T)). reflexivity. }
    assert (I2 : (match e_style e with Some b => as_static (find_prop p (b_normal b)) | None => None end) = as_static (of_style b_normal e p)).
    { unfold of_style. unfold style_once in T. destruct (e_style e) as [b|]; [|reflexivity]. rewrite (find_once p _ (proj2 T)). reflexivity. }
    rewrite I1, I2.
    eapply agrees_ext.
    2:{ apply agrees_or; [apply agrees_const|]. apply agrees_or; [apply agrees_declared; apply S; left; reflexivity|].
        apply agrees_or; [apply agrees_const|]. apply agrees_or; [apply agrees_declared; apply S; right; reflexivity|].
        apply agrees_or; [apply agrees_const|exact C]. }
    intros on. unfold cascaded. rewrite first_five, !or_assoc. reflexivity.
  Qed.

  Definition cascade_with (inh : prop -> bool) := computed matches inh.

  (** The chain. *)
  Lemma chain_styles : forall rs p e rest, forallb none_skipped rs = true -> Forall (ready rs) (e :: rest) -> Forall (fun a => by_specificity matches rs a p) (e :: rest) ->
    Forall (fun a => apart matches rs a p) rest ->
    exists s, with_all select rs (e :: rest) = Some s /\ own rs e s /\
              agrees (find_prop p (inherited s)) (fun on => computed matches (fun _ => true) on rs rest p).
  Proof.
    intros rs p e rest K. revert e. induction rest as [|a rest IH]; intros e R S A; inversion R as [|? ? [R1 R2] R']; subst.
    - cbn [with_all]. rewrite (with_style_hits e rs _ K R1 R2). eexists. split; [reflexivity|]. split; [apply own_calls|].
      destruct (calls_rest (hits e (all_singles rs)) (with_attribute e (with_inline_style e no_styles))) as (_ & _ & Z). rewrite Z.
      assert (Z' : inherited (with_attribute e (with_inline_style e no_styles)) = []) by (unfold with_attribute, with_inline_style; destruct (e_style e); reflexivity).
      rewrite Z'. apply agrees_none.
    - inversion S as [|? ? S1 S']; subst. inversion A as [|? ? A1 A']; subst.
      destruct (IH a R' S' A') as (s & E & O & G).
      assert (W : with_all select rs (e :: a :: rest) = match with_style select e rs (with_attribute e (with_inline_style e no_styles)) with
         | None => None | Some s => match with_all select rs (a :: rest) with Some parent => Some (inherit_from parent s) | None => None end end) by reflexivity.
      rewrite W, (with_style_hits e rs _ K R1 R2), E. eexists. split; [reflexivity|]. split.
      + destruct (own_calls rs e) as (P1 & P2 & P3). split; [exact P1|]. split; [exact P2|]. exact P3.
      + eapply agrees_ext; [|eapply handed; [exact O| |exact A1| |exact G]].
        * intros on. simpl. rewrite <- first_two. reflexivity.
        * inversion S'; assumption.
        * destruct (calls_rest (hits e (all_singles rs)) (with_attribute e (with_inline_style e no_styles))) as (_ & _ & Z). rewrite Z.
          unfold with_attribute, with_inline_style. destruct (e_style e); reflexivity.
  Qed.
  Lemma computed_inh : forall inh on rs chain p, inh p = true -> computed matches inh on rs chain p = computed matches (fun _ => true) on rs chain p.
  Proof. intros inh on rs chain p H. induction chain as [|a c IH]; [reflexivity|]. cbn [computed]. rewrite H, IH. reflexivity. Qed.

  Lemma cascade : forall rs p e rest,
    forallb none_skipped rs = true ->
    Forall (fun a => selectors_read matches select rs a /\ Forall (none_after matches a) rs /\ by_specificity matches rs a p) (e :: rest) ->
    Forall (fun a => apart matches rs a p) rest -> once (e_attrs e) p -> style_once e p ->
    exists s, with_all select rs (e :: rest) = Some s /\ agrees (get inheritable s p) (fun on => computed matches inheritable on rs (e :: rest) p).
  Proof.
    intros rs p e rest K F A O T.
    destruct (chain_styles rs p e rest K) as (s & E & W & G).
    - eapply Forall_impl; [|exact F]. intros a (H1 & H2 & _). split; assumption.
    - eapply Forall_impl; [|exact F]. intros a (_ & _ & H). exact H.
    - exact A.
    - exists s. split; [exact E|]. inversion F as [|? ? (_ & _ & S) _]; subst.
      eapply agrees_ext; [|eapply (got rs e s p (fun on => if inheritable p then computed matches (fun _ => true) on rs rest p else None) W S O T)].
      + intros on. cbn [computed]. rewrite first_two. destruct (inheritable p) eqn:I; [|reflexivity]. rewrite (computed_inh _ _ _ _ _ I). reflexivity.
      + unfold get_inherited. destruct (inheritable p); [exact G|apply agrees_none].
  Qed.
End Agree.

(** ** Where stylesheets come from *)
Lemma in_order_elem : forall k, in_order (NElem k) = flat_map in_order k.
Proof. intros k. induction k as [|n k IH]; [reflexivity|]. cbn [flat_map]. rewrite <- IH. reflexivity. Qed.
Lemma levels_S : forall fuel l, levels (S fuel) l =
  option_map (app (flat_map (fun n => match n with NStyle rs => rs | NElem _ => [] end) l)) (levels fuel (flat_map (fun n => match n with NStyle _ => [] | NElem k => k end) l)).
Proof. intros fuel [|n l]; [destruct fuel; reflexivity|reflexivity]. Qed.
Lemma levels_empty : forall fuel l rs, Forall (fun n => in_order n = []) l -> levels fuel l = Some rs -> rs = [].
Proof.
  induction fuel as [|fuel IH]; intros l rs F E.
  - destruct l; [injection E as <-; reflexivity|discriminate].
  - rewrite levels_S in E. rename l into k.
    destruct (levels fuel (flat_map (fun n => match n with NStyle _ => [] | NElem k => k end) k)) as [rs'|] eqn:G; [|discriminate].
    injection E as <-. apply IH in G.
    + subst rs'. rewrite app_nil_r. clear - F. induction k as [|m k IH]; [reflexivity|]. inversion F; subst. simpl. rewrite IH by assumption. destruct m; [simpl in *; rewrite app_nil_r; assumption|reflexivity].
    + clear - F. induction k as [|m k IH]; [constructor|]. inversion F as [|? ? F1 F2]; subst. simpl. apply Forall_app. split; [|exact (IH F2)].
      destruct m as [r|c]; [constructor|]. rewrite in_order_elem in F1. clear - F1. induction c as [|o c IH]; [constructor|]. simpl in F1. apply app_eq_nil in F1. destruct F1. constructor; [assumption|apply IH; assumption].
Qed.
Lemma levels_shallow : forall fuel l rs, Forall shallow l -> levels fuel l = Some rs -> rs = flat_map in_order l.
Proof.
  intros [|fuel] l rs F E.
  - destruct l; [injection E as <-; reflexivity|discriminate].
  - rewrite levels_S in E. rename l into k.
    destruct (levels fuel (flat_map (fun n => match n with NStyle _ => [] | NElem k => k end) k)) as [rs'|] eqn:G; [|discriminate].
    injection E as <-. apply levels_empty in G.
    + subst rs'. rewrite app_nil_r. clear - F. induction k as [|m k IH]; [reflexivity|]. inversion F as [|? ? F1 F2]; subst. cbn [flat_map]. rewrite IH by assumption.
      f_equal. destruct m as [r|c]; [reflexivity|]. symmetry. exact F1.
    + clear - F. induction k as [|m k IH]; [constructor|]. inversion F as [|? ? F1 F2]; subst. simpl. apply Forall_app. split; [|exact (IH F2)].
      destruct m as [r|c]; [constructor|]. unfold shallow in F1. rewrite in_order_elem in F1. clear - F1. induction c as [|o c IH]; [constructor|]. simpl in F1. apply app_eq_nil in F1. destruct F1. constructor; [assumption|apply IH; assumption].
Qed.
Fixpoint depth (n : node) : nat :=
  match n with NStyle _ => 1 | NElem k => S ((fix go (l : list node) : nat := match l with [] => 0 | n :: l => Nat.max (depth n) (go l) end) k) end.
Definition depths (l : list node) : nat := fold_right (fun n d => Nat.max (depth n) d) 0 l.
Lemma depth_elem : forall k, depth (NElem k) = S (depths k).
Proof. reflexivity. Qed.
Lemma depths_app : forall l k, depths (l ++ k) = Nat.max (depths l) (depths k).
Proof. intros l k. induction l as [|n l IH]; [reflexivity|]. simpl. rewrite IH. lia. Qed.
Lemma levels_total : forall fuel l, depths l <= fuel -> levels fuel l <> None.
Proof.
  induction fuel as [|fuel IH]; intros l H.
  - destruct l as [|n l]; [discriminate|]. exfalso. change (depths (n :: l)) with (Nat.max (depth n) (depths l)) in H. destruct n as [r|k]; [cbn [depth] in H; lia|]. rewrite depth_elem in H. lia.
  - rewrite levels_S. rename l into k.
    assert (D : depths (flat_map (fun n => match n with NStyle _ => [] | NElem k => k end) k) <= fuel).
    { clear - H. induction k as [|m k IH]; [simpl; lia|]. cbn [flat_map]. rewrite depths_app.
      change (depths (m :: k)) with (Nat.max (depth m) (depths k)) in H. specialize (IH ltac:(lia)).
      destruct m as [r|c]; [simpl; exact IH|]. rewrite depth_elem in H. lia. }
    specialize (IH _ D). destruct (levels fuel _); [discriminate|contradiction].
Qed.
Lemma levels_order : forall l, Forall shallow l -> exists fuel, forall n, fuel <= n -> levels n l = Some (flat_map in_order l).
Proof.
  intros l H. exists (depths l). intros n L. destruct (levels n l) as [rs|] eqn:E; [|destruct (levels_total n l L E)].
  rewrite (levels_shallow n l rs H E). reflexivity.
Qed.
