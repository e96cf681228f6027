From Coq Require Import String List NArith QArith Bool.
From Verif Require Import Chars ViewModel BackingModel BareSpec BackingSpec.
Import ListNotations.

Section Induction.
  Variable P : btree -> Prop.
  Hypothesis H : forall e kids, Forall P kids -> P (BNode e kids).
  Fixpoint btree_ind2 (t : btree) : P t :=
    match t with BNode e kids => H e kids ((fix go l : Forall P l := match l with [] => Forall_nil _ | x :: l => Forall_cons _ (btree_ind2 x) (go l) end) kids) end.
End Induction.

Lemma any_filter_spec t : any_filter t = true <-> exists x, element_of t x /\ b_kind x = BFilter.
Proof.
  induction t as [e kids IH] using btree_ind2. cbn [any_filter]. rewrite orb_true_iff, existsb_exists. rewrite Forall_forall in IH. split.
  - intros [E|(t & Hin & E)].
    + exists e. split; [constructor|]. destruct (b_kind e); try discriminate. reflexivity.
    + apply (IH t Hin) in E. destruct E as (x & X & K). exists x. split; [econstructor; eassumption|exact K].
  - intros (x & X & K). inversion X as [e0 k0 E0|e0 k0 t x0 Hin Ht E0]; subst.
    + left. rewrite K. reflexivity.
    + right. exists t. split; [exact Hin|]. apply (IH t Hin). exists x. split; assumption.
Qed.
Lemma contains_spec t : contains_filter t = true <-> has_filter t.
Proof.
  destruct t as [e kids]. cbn [contains_filter]. rewrite existsb_exists. split.
  - intros (k & Hin & E). apply any_filter_spec in E. destruct E as (x & X & K). exists e, kids, k, x. auto.
  - intros (e' & kids' & k & x & E & Hin & X & K). injection E as -> ->. exists k. split; [exact Hin|]. apply any_filter_spec. exists x. auto.
Qed.
Lemma keeps_spec d : keeps d = false <-> declares_new d.
Proof.
  unfold declares_new. destruct d as [n v|n]; cbn [keeps].
  - rewrite orb_false_iff, !negb_false_iff. split.
    + intros [E V]. apply text_eqb_spec in E. subst n. destruct v as [|[t|m] v]; try discriminate. apply text_eqb_spec in V. subst t. exists v. reflexivity.
    + intros (tokens & E). injection E as -> ->. split; apply text_eqb_spec; reflexivity.
  - split; [discriminate|intros (tokens & E); discriminate].
Qed.
Lemma keeps_without l : without declares_new l (filter keeps l).
Proof.
  induction l as [|d l IH]; [constructor|]. cbn [filter]. destruct (keeps d) eqn:E; [apply without_keep|apply without_drop]; [|exact IH| |exact IH].
  - intros C. apply keeps_spec in C. rewrite C in E. discriminate.
  - apply keeps_spec, E.
Qed.
Lemma clean_style_spec s : style_without s (clean_style s).
Proof.
  destruct s as [[i n|n]|]; cbn [clean_style]; [|constructor|constructor].
  assert (I := keeps_without i). assert (N := keeps_without n). destruct (filter keeps i) as [|d di] eqn:Ei; [destruct (filter keeps n) as [|d dn] eqn:En|].
  - apply style_gone; assumption.
  - apply style_left; [exact I|exact N|]. right. discriminate.
  - apply style_left; [exact I|exact N|]. left. discriminate.
Qed.
Lemma matches_spec e : matches_size e = true <-> sized e.
Proof.
  unfold matches_size, sized. split.
  - destruct (b_back e) as [[[|[[[[x y] w] h]|]]| |]|]; try discriminate. destruct (b_width e) as [lw|]; [|discriminate]. destruct (b_height e) as [lh|]; [|cbn; destruct (to_px lw); discriminate]. cbn [px_attr].
    destruct (to_px lw) as [pw|] eqn:W; [|discriminate]. destruct (to_px lh) as [ph|] eqn:Hh; [|discriminate]. rewrite andb_true_iff. intros [A B]. apply Qeq_bool_iff in A, B.
    exists x, y, w, h, lw, lh, pw, ph. auto 10.
  - intros (x & y & w & h & lw & lh & pw & ph & B & W & Hh & PW & PH & EW & EH). rewrite B, W, Hh. cbn [px_attr]. rewrite PW, PH. apply andb_true_iff. split; apply Qeq_bool_iff; assumption.
Qed.
Lemma alike_map (R : belem -> belem -> Prop) f : (forall e, R e (clean_element f e)) -> forall t, alike R t (clean_tree f t).
Proof.
  intros HR. induction t as [e kids IH] using btree_ind2. cbn [clean_tree]. constructor; [apply HR|]. induction IH as [|k kids Hk _ IHk]; constructor; assumption.
Qed.
Lemma without_ok t : ~ has_filter t -> alike without_filter t (cleanup true t).
Proof.
  intros H. unfold cleanup. destruct (contains_filter t) eqn:E; [apply contains_spec in E; contradiction|]. apply alike_map. intros e. split; [repeat split|]. split; [apply clean_style_spec|reflexivity].
Qed.
Lemma with_ok t : has_filter t -> alike with_filter t (cleanup true t).
Proof.
  intros H. unfold cleanup. apply contains_spec in H. rewrite H. apply alike_map. intros e. split; [repeat split|]. split; [apply clean_style_spec|]. cbn [clean_element b_back negb].
  split; [|split].
  - intros S K. apply matches_spec in S. rewrite S, K. reflexivity.
  - intros S K. apply matches_spec in S. rewrite S. destruct K as [-> | ->]; reflexivity.
  - intros C. destruct (matches_size e) eqn:M; [|reflexivity]. apply matches_spec in M. destruct C as [C|C]; [contradiction|]. destruct (b_kind e); try reflexivity; exfalso; apply C; cbn; auto.
Qed.
Lemma disabled_ok t : cleanup false t = t.
Proof. reflexivity. Qed.
(** ** Running the job twice *)
Lemma filter_twice l : filter keeps (filter keeps l) = filter keeps l.
Proof. induction l as [|d l IH]; [reflexivity|]. cbn [filter]. destruct (keeps d) eqn:E; [|exact IH]. cbn [filter]. rewrite E, IH. reflexivity. Qed.
Lemma style_twice s : clean_style (clean_style s) = clean_style s.
Proof.
  destruct s as [[i n|n]|]; try reflexivity. cbn [clean_style]. assert (I := filter_twice i). assert (N := filter_twice n).
  destruct (filter keeps i) as [|d di] eqn:Ei; [destruct (filter keeps n) as [|d dn] eqn:En|]; [reflexivity| |]; cbn [clean_style]; rewrite I, N; reflexivity.
Qed.
Lemma element_twice f e : clean_element f (clean_element f e) = clean_element f e.
Proof.
  unfold clean_element. cbn [b_kind b_style b_back b_width b_height b_rest]. rewrite style_twice. f_equal. destruct f; [|reflexivity]. cbn [negb].
  destruct (matches_size e) eqn:M.
  - destruct (b_kind e); unfold matches_size in *; cbn [b_back b_width b_height]; try reflexivity; rewrite M; reflexivity.
  - unfold matches_size in *. cbn [b_back b_width b_height]. rewrite M. reflexivity.
Qed.
Lemma filter_kept f t : any_filter (clean_tree f t) = any_filter t.
Proof.
  induction t as [e kids IH] using btree_ind2. cbn [clean_tree any_filter clean_element b_kind]. f_equal. induction IH as [|k kids Hk _ IHk]; [reflexivity|]. cbn [map existsb]. rewrite Hk, IHk. reflexivity.
Qed.
Lemma contains_kept f t : contains_filter (clean_tree f t) = contains_filter t.
Proof. destruct t as [e kids]. cbn [clean_tree contains_filter]. induction kids as [|k kids IH]; [reflexivity|]. cbn [map existsb]. rewrite filter_kept, IH. reflexivity. Qed.
Lemma tree_twice f t : clean_tree f (clean_tree f t) = clean_tree f t.
Proof. induction t as [e kids IH] using btree_ind2. cbn [clean_tree]. rewrite element_twice. f_equal. rewrite map_map. apply map_ext_in. intros k Hk. rewrite Forall_forall in IH. apply IH, Hk. Qed.
Lemma twice b t : cleanup b (cleanup b t) = cleanup b t.
Proof. destruct b; [|reflexivity]. unfold cleanup. rewrite contains_kept. apply tree_twice. Qed.

(** ** What elements ask for with a filter in the document *)
Lemma without_all {A} (P : A -> Prop) l l' : without P l l' -> Forall (fun x => ~ P x) l -> l' = l.
Proof. intros W F. induction W as [|x l m Px W IH|x l m Px W IH]; [reflexivity| |]; apply Forall_cons_iff in F; destruct F as [Fx F]; [contradiction|]. rewrite (IH F). reflexivity. Qed.
Lemma style_value e e' : attributes_only e -> style_without (b_style e) (b_style e') -> b_back e' = b_back e -> background e' = background e.
Proof.
  intros A W B. unfold background. rewrite B. unfold attributes_only in A. inversion W as [E E'|n E E'|i n Wi Wn E E'|i n i' n' Wi Wn L E E']; symmetry in E, E'; rewrite ?E in *; try reflexivity;
  specialize (A i n eq_refl); apply Forall_app in A; destruct A as [Ai An].
  - apply without_all in Wi; [|exact Ai]. apply without_all in Wn; [|exact An]. subst i n. reflexivity.
  - apply without_all in Wi; [|exact Ai]. apply without_all in Wn; [|exact An]. subst i' n'. reflexivity.
Qed.
Lemma effect_ok e e' : attributes_only e -> at_origin e -> with_filter e e' -> same_effect e e'.
Proof.
  intros A O (R & W & S1 & S2 & S3). unfold same_effect. destruct (matches_size e) eqn:M.
  - apply matches_spec in M.
    set (st := match b_style e with Some (BStyle i n) => match last_decl i with Some v => Some v | None => last_decl n end | _ => None end).
    assert (Eq : match b_style e' with Some (BStyle i n) => match last_decl i with Some v => Some v | None => last_decl n end | _ => None end = st).
    { assert (V := style_value e (mkBelem (b_kind e) (b_style e') None (b_width e) (b_height e) (b_rest e))). assert (V' := style_value (mkBelem (b_kind e) (b_style e) None (b_width e) (b_height e) (b_rest e)) (mkBelem (b_kind e) (b_style e') None (b_width e) (b_height e) (b_rest e)) A W eq_refl).
      unfold background in V'. cbn [b_style b_back] in V'. unfold st. destruct (match b_style e' with Some (BStyle i n) => match last_decl i with Some v => Some v | None => last_decl n end | _ => None end), (match b_style e with Some (BStyle i n) => match last_decl i with Some v => Some v | None => last_decl n end | _ => None end); try discriminate; [injection V' as ->; reflexivity|reflexivity]. }
    unfold background. rewrite Eq. fold st. destruct st as [v|]; [left; reflexivity|].
    assert (B : exists a, b_back e = Some a) by (destruct M as (x & y & w & h & _ & _ & _ & _ & B & _); eexists; exact B). destruct B as [a B].
    destruct (b_kind e) eqn:K.
    + right. left. rewrite (S1 M eq_refl), B. split; [split; assumption|]. split; [reflexivity|]. split; [eexists; reflexivity|reflexivity].
    + right. right. rewrite (S2 M (or_introl eq_refl)), B. split; [split; assumption|]. split; [left; reflexivity|]. split; [eexists; reflexivity|reflexivity].
    + right. right. rewrite (S2 M (or_intror eq_refl)), B. split; [split; assumption|]. split; [right; reflexivity|]. split; [eexists; reflexivity|reflexivity].
    + left. rewrite S3; [reflexivity|]. right. cbn. intros C; repeat (destruct C as [C|C]; [discriminate|]); exact C.
    + left. rewrite S3; [reflexivity|]. right. cbn. intros C; repeat (destruct C as [C|C]; [discriminate|]); exact C.
  - left. apply style_value; [exact A|exact W|]. apply S3. left. intros C. apply matches_spec in C. rewrite C in M. discriminate.
Qed.
Lemma alike_effect t t' : (forall e, element_of t e -> attributes_only e /\ at_origin e) -> alike with_filter t t' -> alike same_effect t t'.
Proof.
  revert t'. induction t as [e kids IH] using btree_ind2. intros t' H A. inversion A as [e0 e' k0 kids' Re Rk E0 E1]; subst. constructor.
  - destruct (H e (of_here e kids)) as [H1 H2]. apply effect_ok; assumption.
  - assert (Hk : forall k, In k kids -> forall x, element_of k x -> attributes_only x /\ at_origin x) by (intros k Hk x Hx; apply H; econstructor; eassumption). clear A H Re.
    induction Rk as [|k k' kids kids' Ak Rk IHk]; [constructor|]. apply Forall_cons_iff in IH. destruct IH as [I1 I2]. constructor; [apply I1; [apply Hk; left; reflexivity|exact Ak]|]. apply IHk; [exact I2|]. intros x Hx. apply Hk. right. exact Hx.
Qed.
Lemma effect_kept t : has_filter t -> (forall e, element_of t e -> attributes_only e /\ at_origin e) -> alike same_effect t (cleanup true t).
Proof. intros F H. apply alike_effect; [exact H|]. apply with_ok, F. Qed.

(** ** Examples *)
Definition plain (k : bkind) : belem := mkBelem k None None None None 0.
Definition filtered (e : belem) : btree := BNode e [BNode (plain BFilter) []].
Lemma filtered_has e : has_filter (filtered e).
Proof. exists e, [BNode (plain BFilter) []], (BNode (plain BFilter) []), (plain BFilter). split; [reflexivity|]. split; [left; reflexivity|]. split; [constructor|reflexivity]. Qed.
Definition area (x y w h : Q) : option battr := Some (BDefined (BNew (Some (x, y, w, h)))).
Definition sample_mask : btree := BNode (plain BSvg) [BNode (mkBelem BMask (Some (BStyle [] [DKnown 1])) (area 0 0 96 10) (Some (LIn 1)) (Some (LPx 10)) 7) []; BNode (plain BFilter) []].
Lemma mask_sample : has_filter sample_mask /\ (forall e, element_of sample_mask e -> attributes_only e /\ at_origin e) /\
  cleanup true sample_mask = BNode (plain BSvg) [BNode (mkBelem BMask (Some (BStyle [] [DKnown 1])) (Some (BDefined (BNew None))) (Some (LIn 1)) (Some (LPx 10)) 7) []; BNode (plain BFilter) []].
Proof.
  split; [|split; [|reflexivity]].
  - eexists _, _, _, (plain BFilter). split; [reflexivity|]. split; [right; left; reflexivity|]. split; [constructor|reflexivity].
  - intros e E. inversion E as [|e0 kids k x Hin X E0]; subst; [split; [intros i n C; discriminate|intros x y w h C; discriminate]|].
    destruct Hin as [<- |[<- |[]]]; inversion X as [|? ? ? ? Hin2]; subst; try destruct Hin2.
    + split; [|intros x y w h C; injection C as <- <- <- <-; split; reflexivity]. intros i n C. injection C as <- <-. constructor; [intros (tokens & T); discriminate|constructor].
    + split; [intros i n C; discriminate|intros x y w h C; discriminate].
Qed.
Lemma style_refuted : exists t, has_filter t /\ background (root_of t) <> None /\ b_back (root_of t) = None /\ background (root_of (cleanup true t)) = None.
Proof. exists (filtered (mkBelem BSvg (Some (BStyle [] [DCustom (lit "enable-background") [TIdent (lit "new")]])) None None None 0)). split; [apply filtered_has|]. vm_compute. split; [discriminate|]. split; reflexivity. Qed.
Lemma shifted_refuted : exists t, has_filter t /\ ~ at_origin (root_of t) /\ background (root_of t) = Some (inr (BDefined (BNew (Some (5, 5, 100, 100)%Q)))) /\ background (root_of (cleanup true t)) = None.
Proof.
  exists (filtered (mkBelem BSvg None (area 5 5 100 100) (Some (LPx 100)) (Some (LPx 100)) 0)). split; [apply filtered_has|]. split; [|split; reflexivity].
  intros C. destruct (C 5 5 100 100 eq_refl)%Q as [C1 _]. discriminate.
Qed.
