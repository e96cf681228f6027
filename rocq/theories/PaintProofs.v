From Coq Require Import String List NArith Bool Arith Sorted Lia.
From Verif Require Import Chars CascadeModel CascadeSpec CascadeProofs PaintModel PaintSpec.
Import ListNotations.

Lemma stroke_named : forall p, starts_with (lit "stroke") (name p) = is_in p stroke_props.
Proof. intros p. do 14 (destruct p as [|p]; [reflexivity|]). destruct p; reflexivity. Qed.
Lemma fill_named : forall p, starts_with (lit "fill-") (name p) = is_in p [9; 10].
Proof. intros p. do 14 (destruct p as [|p]; [reflexivity|]). destruct p; reflexivity. Qed.

(** ** Lists of declarations *)
Lemma values_filter : forall f p (l : list (prop * value)), values p (filter (fun a => f (fst a)) l) = if f p then values p l else [].
Proof.
  intros f p l. induction l as [|[q v] l IH]; [destruct (f p); reflexivity|]. unfold values in *. cbn [filter fst].
  destruct (f q) eqn:F; cbn [filter fst]; destruct (Nat.eqb q p) eqn:E; cbn [map snd]; rewrite IH; try (apply Nat.eqb_eq in E; subst q; rewrite F); reflexivity.
Qed.
Lemma values_absent : forall p l, ~ In p (map fst l) -> values p l = [].
Proof.
  intros p l. unfold values. induction l as [|[q w] l IH]; intros N; [reflexivity|]. cbn [map fst] in N. cbn [filter fst]. destruct (Nat.eqb q p) eqn:E.
  - apply Nat.eqb_eq in E. exfalso. apply N. left. exact E.
  - apply IH. intros J. apply N. right. exact J.
Qed.
Lemma values_cons : forall p q v l, values p ((q, v) :: l) = if Nat.eqb q p then v :: values p l else values p l.
Proof. intros. unfold values. cbn [filter fst]. destruct (Nat.eqb q p); reflexivity. Qed.
Lemma values_nodup : forall p l, NoDup (map fst l) -> once l p.
Proof.
  intros p l. unfold once. induction l as [|[q v] l IH]; intros H; [cbn; lia|]. cbn [map fst] in H. inversion H as [|? ? N ND]; subst.
  rewrite values_cons. destruct (Nat.eqb q p) eqn:E; [|exact (IH ND)]. apply Nat.eqb_eq in E. subst q. rewrite (values_absent p l N). cbn. lia.
Qed.
Lemma values_set : forall p q v l, NoDup (map fst l) -> values p (set_attr q v l) = if Nat.eqb q p then [v] else values p l.
Proof.
  intros p q v l. induction l as [|[r w] l IH]; intros H; cbn [set_attr].
  - rewrite values_cons. destruct (Nat.eqb q p); reflexivity.
  - cbn [map fst] in H. inversion H as [|? ? N ND]; subst. destruct (Nat.eqb r q) eqn:E.
    + apply Nat.eqb_eq in E. subst r. rewrite !values_cons. destruct (Nat.eqb q p) eqn:F; [|reflexivity]. apply Nat.eqb_eq in F. subst q. rewrite (values_absent p l N). reflexivity.
    + rewrite !values_cons, (IH ND). destruct (Nat.eqb r p) eqn:F; [|reflexivity].
      destruct (Nat.eqb q p) eqn:G; [|reflexivity]. apply Nat.eqb_eq in F, G. subst. rewrite Nat.eqb_refl in E. discriminate.
Qed.
Lemma nodup_filter : forall f (l : list (prop * value)), NoDup (map fst l) -> NoDup (map fst (filter f l)).
Proof.
  intros f l. induction l as [|[q v] l IH]; intros H; [exact H|]. cbn [map fst] in H. inversion H as [|? ? N ND]; subst. cbn [filter].
  destruct (f (q, v)); [|exact (IH ND)]. cbn [map fst]. constructor; [|exact (IH ND)]. intros J. apply N. apply in_map_iff in J. destruct J as (x & E & J).
  apply filter_In in J. apply in_map_iff. exists x. split; [exact E|apply J].
Qed.

Section Proofs.
  Variable inheritable : prop -> bool.
  Variable zero valid inherits blank : prop -> value -> bool.
  Hypothesis INH : forall p, p < 14 -> inheritable p = true.
  Hypothesis ZERO : forall p v, zero p v = true -> valid p v = true /\ inherits p v = false /\ blank p v = true.
  Hypothesis NONE : zero 0 v_none = true /\ zero 8 v_none = true.
  Notation used := (used inheritable valid inherits).
  Notation own := (own valid).
  Notation from := (from valid).
  Notation stroked := (stroked inheritable valid inherits blank).
  Notation filled := (filled inheritable valid inherits blank).
  Notation is_blank := (is_blank inheritable valid inherits blank).
  Notation marked := (marked inheritable valid inherits blank).
  Notation draws := (draws inheritable valid inherits blank).
  Notation same_look := (same_look inheritable valid inherits blank).
  Notation plain := (plain inheritable valid inherits blank).

  (** ** What computed styles say, and what is in use *)
  Definition any_on : nat -> bool := fun _ => true.
  Notation computed := (computed (fun _ _ => false) inheritable any_on []).
  Lemma declared_nil : forall f e p, declared (fun _ _ => false) f [] e p = [].
  Proof. reflexivity. Qed.
  Lemma get_computed : forall e rest p, NoDup (map fst (e_attrs e)) -> NoDup (map fst (styled b_important e)) -> NoDup (map fst (styled b_normal e)) ->
    exists s, styles_of (e :: rest) = Some s /\ option_map fst (get inheritable s p) = computed (e :: rest) p.
  Proof.
    intros e rest p A B C. destruct (cascade (fun _ _ => false) inheritable (fun _ _ => None) [] p e rest) as (s & E & AG).
    - reflexivity.
    - apply Forall_forall. intros a _. split; [|split].
      + intros g [].
      + constructor.
      + intros f _. cbn. constructor.
    - apply Forall_forall. intros a _. right. reflexivity.
    - apply values_nodup. exact A.
    - unfold styled in B, C. unfold style_once. destruct (e_style e); [|exact Logic.I]. split; apply values_nodup; assumption.
    - exists s. split; [exact E|]. destruct AG as (G & _). exact G.
  Qed.
  Lemma from_last : forall l p v, last_of (values p l) = Some v -> valid p v = true -> from l p = Some v.
  Proof.
    intros l p v E V. unfold PaintSpec.from. destruct (values p l) as [|x k] using rev_ind; [discriminate|]. rewrite last_of_snoc in E. injection E as ->.
    rewrite filter_app. cbn [filter]. rewrite V. apply last_of_snoc.
  Qed.
  Lemma from_none : forall l p, last_of (values p l) = None -> from l p = None.
  Proof. intros l p E. unfold PaintSpec.from. destruct (values p l) as [|x k] using rev_ind; [reflexivity|]. rewrite last_of_snoc in E. discriminate. Qed.
  Lemma of_style_last : forall f e p, of_style f e p = last_of (values p (styled f e)).
  Proof. intros f e p. unfold of_style, styled. destruct (e_style e); reflexivity. Qed.
  Lemma cascaded_eq : forall e p, cascaded (fun _ _ => false) any_on [] e p =
    first_of [last_of (values p (styled b_important e)); last_of (values p (styled b_normal e)); last_of (values p (e_attrs e))].
  Proof.
    intros e p. unfold cascaded. rewrite !of_style_last. cbn [declared all_singles flat_map in_force filter map best best_from option_map first_of].
    destruct (last_of (values p (styled b_important e))); [reflexivity|]. destruct (last_of (values p (styled b_normal e))); reflexivity.
  Qed.
  Lemma own_some : forall e p v, cascaded (fun _ _ => false) any_on [] e p = Some v -> valid p v = true -> own e p = Some v.
  Proof.
    intros e p v E V. rewrite cascaded_eq in E. unfold PaintSpec.own. cbn [first_of] in *.
    destruct (last_of (values p (styled b_important e))) as [a|] eqn:A.
    { injection E as ->. rewrite (from_last _ _ _ A V). reflexivity. }
    rewrite (from_none _ _ A). destruct (last_of (values p (styled b_normal e))) as [b|] eqn:B.
    { injection E as ->. rewrite (from_last _ _ _ B V). reflexivity. }
    rewrite (from_none _ _ B). destruct (last_of (values p (e_attrs e))) as [c|] eqn:C; [|discriminate]. injection E as ->. rewrite (from_last _ _ _ C V). reflexivity.
  Qed.
  Lemma own_none : forall e p, cascaded (fun _ _ => false) any_on [] e p = None -> own e p = None.
  Proof.
    intros e p E. rewrite cascaded_eq in E. unfold PaintSpec.own. cbn [first_of] in *.
    destruct (last_of (values p (styled b_important e))) as [a|] eqn:A; [discriminate|]. rewrite (from_none _ _ A).
    destruct (last_of (values p (styled b_normal e))) as [b|] eqn:B; [discriminate|]. rewrite (from_none _ _ B).
    destruct (last_of (values p (e_attrs e))) as [c|] eqn:C; [discriminate|]. rewrite (from_none _ _ C). reflexivity.
  Qed.
  Lemma computed_some : forall chain p v, p < 14 -> computed chain p = Some v -> zero p v = true -> used chain p = Some v.
  Proof.
    intros chain p v P E Z. destruct (ZERO p v Z) as (V & NI & _). induction chain as [|e rest IH]; [discriminate|].
    cbn [CascadeSpec.computed PaintSpec.used first_of] in *. rewrite (INH p P) in E. rewrite (INH p P).
    destruct (cascaded (fun _ _ => false) any_on [] e p) as [a|] eqn:A.
    - injection E as ->. rewrite (own_some _ _ _ A V), NI. reflexivity.
    - rewrite (own_none _ _ A). apply IH. destruct (computed rest p); [exact E|discriminate].
  Qed.
  Lemma computed_none : forall chain p, p < 14 -> computed chain p = None -> used chain p = None.
  Proof.
    intros chain p P E. induction chain as [|e rest IH]; [reflexivity|].
    cbn [CascadeSpec.computed PaintSpec.used first_of] in *. rewrite (INH p P) in E. rewrite (INH p P).
    destruct (cascaded (fun _ _ => false) any_on [] e p) as [a|] eqn:A; [discriminate|]. rewrite (own_none _ _ A). apply IH. destruct (computed rest p); [discriminate|reflexivity].
  Qed.
  (** What is inherited does not depend on the element. *)
  Lemma inherited_same : forall e e' rest s s', styles_of (e :: rest) = Some s -> styles_of (e' :: rest) = Some s' -> inherited s = inherited s'.
  Proof.
    intros e e' rest s s' E E'. unfold styles_of in *. cbn [with_all with_style] in *. destruct rest as [|a rest].
    - injection E as <-. injection E' as <-. unfold with_inline_style. destruct (e_style e), (e_style e'); reflexivity.
    - destruct (with_all (fun _ _ => None) [] (a :: rest)) as [parent|]; [|discriminate]. injection E as <-. injection E' as <-.
      unfold inherit_from, with_inline_style. destruct (e_style e), (e_style e'); reflexivity.
  Qed.
  Lemma inherited_computed : forall e rest s p, p < 14 -> styles_of (e :: rest) = Some s -> option_map fst (get_inherited inheritable s p) = computed rest p.
  Proof.
    intros e rest s p P E. destruct (get_computed (mkElem (e_id e) [] None) rest p) as (s' & E' & G); try (cbn; constructor).
    unfold get_inherited. rewrite (inherited_same _ _ _ _ _ E E'). cbn [CascadeSpec.computed first_of] in G. rewrite cascaded_eq in G.
    cbn [styled e_style e_attrs values filter map last_of rev first_of] in G. rewrite (INH p P) in *.
    assert (X : get inheritable s' p = find_prop p (inherited s')).
    { unfold get, get_high, get_low, get_attr, get_inherited. rewrite (INH p P).
      assert (Y : inline s' = None /\ important_declarations s' = [] /\ declarations s' = [] /\ attr s' = []).
      { unfold styles_of in E'. cbn [with_all with_style with_inline_style e_style with_attribute e_attrs] in E'. destruct rest as [|a rest].
        - injection E' as <-. repeat split.
        - destruct (with_all (fun _ _ => None) [] (a :: rest)); [|discriminate]. injection E' as <-. repeat split. }
      destruct Y as (-> & -> & -> & ->). reflexivity. }
    rewrite <- X, G. destruct (computed rest p); reflexivity.
  Qed.

  (** ** Changing attributes *)
  Lemma own_attrs : forall e l p, values p l = values p (e_attrs e) -> own (mkElem (e_id e) l (e_style e)) p = own e p.
  Proof. intros e l p E. unfold PaintSpec.own, PaintSpec.from, styled. cbn [e_attrs e_style]. rewrite E. reflexivity. Qed.
  Lemma used_attrs : forall e l rest p, values p l = values p (e_attrs e) -> used (mkElem (e_id e) l (e_style e) :: rest) p = used (e :: rest) p.
  Proof. intros e l rest p E. cbn [PaintSpec.used]. rewrite (own_attrs _ _ _ E). reflexivity. Qed.
  Lemma in_values_from : forall l p v, from l p = Some v -> In v (values p l) /\ valid p v = true.
  Proof.
    intros l p v E. unfold PaintSpec.from, last_of in E. destruct (rev (filter (valid p) (values p l))) as [|x k] eqn:R; [discriminate|]. injection E as ->.
    assert (J : In v (filter (valid p) (values p l))) by (apply in_rev; rewrite R; left; reflexivity). apply filter_In in J. exact J.
  Qed.
  (** The value in use once the attribute is [w]. *)
  Lemma used_no_paint : forall e rest p, no_paint valid inherits blank e p -> p < 14 ->
    (exists v, used (e :: rest) p = Some v /\ blank p v = true) \/
    used (e :: rest) p = match from (e_attrs e) p with Some v => if inherits p v then used rest p else Some v | None => used rest p end.
  Proof.
    intros e rest p H P. cbn [PaintSpec.used]. unfold PaintSpec.own. cbn [first_of]. rewrite (INH p P).
    destruct (from (styled b_important e) p) as [a|] eqn:A.
    { apply in_values_from in A. destruct A as (A & V). destruct (H a) as (I & B); [rewrite values_app; apply in_or_app; left; exact A|exact V|].
      left. exists a. rewrite I. split; [reflexivity|exact B]. }
    destruct (from (styled b_normal e) p) as [b|] eqn:B'.
    { apply in_values_from in B'. destruct B' as (A' & V). destruct (H b) as (I & B); [rewrite values_app; apply in_or_app; right; exact A'|exact V|].
      left. exists b. rewrite I. split; [reflexivity|exact B]. }
    right. destruct (from (e_attrs e) p); reflexivity.
  Qed.
  Lemma look_refl : forall c, same_look c c.
  Proof. intros c. unfold PaintSpec.same_look. repeat split; reflexivity. Qed.
  Lemma look_trans : forall a b c, same_look a b -> same_look b c -> same_look a c.
  Proof.
    intros a b c (A1 & A2 & A3 & A4 & A5) (B1 & B2 & B3 & B4 & B5). unfold PaintSpec.same_look. split; [congruence|]. split; [|split; [congruence|split]].
    - assert (M : marked a = marked b).
      { unfold PaintSpec.marked, marker_props. cbn [existsb]. unfold PaintSpec.draws. rewrite !A5 by reflexivity. reflexivity. }
      intros H p P. rewrite (A2 H p P). apply B2; [rewrite <- A1, <- M; exact H|exact P].
    - intros H p P. rewrite (A4 H p P). apply B4; [rewrite <- A3; exact H|exact P].
    - intros p P. rewrite (A5 p P). exact (B5 p P).
  Qed.

  (** ** The stroke *)
  Definition stroke_gone (chain : list elem) : Prop := stroked chain = false.
  Lemma blank_gone : forall chain, is_blank chain 0 = true \/ is_blank chain 1 = true \/ is_blank chain 2 = true \/ used chain 0 = None -> stroked chain = false.
  Proof.
    intros chain H. unfold PaintSpec.stroked, PaintSpec.is_blank in *. destruct H as [H|[H|[H|H]]].
    - destruct (used chain 0); [|discriminate]. rewrite H. reflexivity.
    - rewrite H. cbn [negb]. rewrite andb_false_r. reflexivity.
    - rewrite H. cbn [negb]. apply andb_false_r.
    - rewrite H. reflexivity.
  Qed.
  Lemma static_zero_blank : forall e rest s p, p < 14 -> NoDup (map fst (e_attrs e)) -> NoDup (map fst (styled b_important e)) -> NoDup (map fst (styled b_normal e)) ->
    styles_of (e :: rest) = Some s -> static_zero inheritable zero s p = true -> is_blank (e :: rest) p = true.
  Proof.
    intros e rest s p P A B C E H. unfold static_zero in H. destruct (get_computed e rest p A B C) as (s' & E' & G). rewrite E in E'. injection E' as <-.
    destruct (get inheritable s p) as [[v [|]]|]; try discriminate. cbn [option_map fst] in G. symmetry in G.
    unfold PaintSpec.is_blank. rewrite (computed_some _ _ _ P G H). apply ZERO. exact H.
  Qed.
  (** An element that had no stroke and the same one without its attributes for strokes. *)
  Lemma strip_look : forall e e' rest, e_style e' = e_style e -> (forall p, is_in p stroke_props = false -> values p (e_attrs e') = values p (e_attrs e)) ->
    stroked (e :: rest) = false -> stroked (e' :: rest) = false -> marked (e :: rest) = false -> same_look (e :: rest) (e' :: rest).
  Proof.
    intros e e' rest S V A B M.
    assert (U : forall p, is_in p stroke_props = false -> used (e' :: rest) p = used (e :: rest) p).
    { intros p P. destruct e' as [i l st]. cbn [e_style e_attrs] in *. subst st. specialize (V p P). cbn [PaintSpec.used].
      replace (own (mkElem i l (e_style e)) p) with (own e p); [reflexivity|].
      unfold PaintSpec.own, PaintSpec.from, styled. cbn [e_attrs e_style]. rewrite V. reflexivity. }
    unfold PaintSpec.same_look. rewrite A, B, M. split; [reflexivity|]. split; [discriminate|]. split; [|split].
    - unfold PaintSpec.filled, PaintSpec.is_blank. rewrite !U by reflexivity. reflexivity.
    - intros _ p P. symmetry. apply U. destruct p as [|p]; [discriminate|]. do 7 (destruct p as [|p]; [discriminate|]). reflexivity.
    - intros p P. symmetry. apply U. unfold is_in in *. rewrite existsb_app in P. apply orb_false_elim in P. apply P.
  Qed.
  Lemma values_stroke_gone : forall e p, values p (e_attrs (without (lit "stroke") e)) = if is_in p stroke_props then [] else values p (e_attrs e).
  Proof.
    intros e p. unfold without. cbn [e_attrs]. rewrite (values_filter (fun q => negb (starts_with (lit "stroke") (name q)))). rewrite stroke_named.
    destruct (is_in p stroke_props); reflexivity.
  Qed.
  Lemma nodup_without : forall t e, NoDup (map fst (e_attrs e)) -> NoDup (map fst (e_attrs (without t e))).
  Proof. intros t e H. unfold without. cbn [e_attrs]. apply nodup_filter. exact H. Qed.
  Lemma stroke_look : forall o e rest s, styles_of (e :: rest) = Some s -> plain (e :: rest) -> same_look (e :: rest) (fst (remove_stroke inheritable zero o s e) :: rest).
  Proof.
    intros o e rest s E PL. destruct PL as (ND & NI & NN & NP & _ & MK). unfold remove_stroke.
    destruct (o_stroke o); cbn [negb]; [|apply look_refl].
    destruct (negb (static_zero inheritable zero s p_stroke_width) && match get inheritable s p_marker_end with Some _ => true | None => false end) eqn:G; [apply look_refl|].
    assert (MF : marked (e :: rest) = false).
    { destruct (marked (e :: rest)) eqn:M; [|reflexivity]. exfalso. destruct (MK eq_refl) as (D & W). apply andb_false_elim in G. destruct G as [G|G].
      - apply negb_false_iff in G. apply (static_zero_blank e rest s) in G; [|unfold p_stroke_width; lia|exact ND|exact NI|exact NN|exact E]. unfold p_stroke_width in G. congruence.
      - destruct (get inheritable s p_marker_end) eqn:X; [discriminate|]. destruct (get_computed e rest p_marker_end ND NI NN) as (s' & E' & C). rewrite E in E'. injection E' as <-.
        rewrite X in C. symmetry in C. apply computed_none in C; [|unfold p_marker_end; lia]. unfold PaintSpec.draws in D. unfold p_marker_end in C. rewrite C in D. discriminate. }
    set (eq_none := match get inheritable s p_stroke with Some (v, _) => zero p_stroke v | None => false end).
    set (is_none := match get inheritable s p_stroke with None => true | Some (_, Static) => eq_none | Some (_, Dynamic) => false end).
    destruct (is_none || static_zero inheritable zero s p_stroke_opacity || static_zero inheritable zero s p_stroke_width) eqn:Z; [|apply look_refl].
    assert (A : stroked (e :: rest) = false).
    { apply blank_gone. apply orb_prop in Z. destruct Z as [Z|Z]; [apply orb_prop in Z; destruct Z as [Z|Z]|].
      - destruct (get_computed e rest p_stroke ND NI NN) as (s' & E' & C). rewrite E in E'. injection E' as <-. unfold is_none, eq_none in Z.
        destruct (get inheritable s p_stroke) as [[v [|]]|]; cbn [option_map fst] in C; symmetry in C.
        + left. unfold PaintSpec.is_blank. change 0 with p_stroke. rewrite (computed_some (e :: rest) p_stroke v ltac:(unfold p_stroke; lia) C Z). apply ZERO. exact Z.
        + discriminate.
        + right. right. right. apply computed_none; [lia|exact C].
      - right. right. left. apply (static_zero_blank e rest s); try assumption; unfold p_stroke_opacity, p_stroke_width; lia.
      - right. left. apply (static_zero_blank e rest s); try assumption; unfold p_stroke_opacity, p_stroke_width; lia. }
    pose proof (inherited_computed e rest s p_stroke ltac:(unfold p_stroke; lia) E) as IC.
    (* without the attributes, with what is inherited *)
    assert (W : used rest 0 = None \/ (exists v, used rest 0 = Some v /\ blank 0 v = true) -> same_look (e :: rest) (without (lit "stroke") e :: rest)).
    { intros H. apply strip_look.
      - reflexivity.
      - intros p P. rewrite values_stroke_gone, P. reflexivity.
      - exact A.
      - apply blank_gone. destruct (used_no_paint (without (lit "stroke") e) rest 0 NP ltac:(lia)) as [(v & U & B)|U].
        + left. unfold PaintSpec.is_blank. rewrite U. exact B.
        + unfold PaintSpec.from in U. rewrite values_stroke_gone in U. change (is_in 0 stroke_props) with true in U. cbn [filter last_of rev] in U.
          destruct H as [H|(v & H & B)].
          * right. right. right. rewrite U. exact H.
          * left. unfold PaintSpec.is_blank. rewrite U, H. exact B.
      - exact MF. }
    assert (X : same_look (e :: rest) (with_none p_stroke (without (lit "stroke") e) :: rest)).
    { apply strip_look.
      - reflexivity.
      - intros p P. unfold with_none. cbn [e_attrs]. rewrite values_set by (apply nodup_without; exact ND). destruct (Nat.eqb p_stroke p) eqn:Q.
        + apply Nat.eqb_eq in Q. subst p. discriminate.
        + rewrite values_stroke_gone, P. reflexivity.
      - exact A.
      - apply blank_gone. left. destruct (used_no_paint (with_none p_stroke (without (lit "stroke") e)) rest 0 NP ltac:(lia)) as [(v & U & B)|U].
        + unfold PaintSpec.is_blank. rewrite U. exact B.
        + unfold PaintSpec.from in U. change (e_attrs (with_none p_stroke (without (lit "stroke") e))) with (set_attr p_stroke v_none (e_attrs (without (lit "stroke") e))) in U. rewrite values_set in U by (apply nodup_without; exact ND).
          change (Nat.eqb p_stroke 0) with true in U. destruct NONE as (N & _). destruct (ZERO 0 v_none N) as (V & I & B).
          cbn [filter] in U. rewrite V in U. cbn [last_of rev app] in U. rewrite I in U. unfold PaintSpec.is_blank. rewrite U. exact B.
      - exact MF. }
    destruct (get_inherited inheritable s p_stroke) as [[v [|]]|] eqn:GI; cbn [option_map fst] in IC; symmetry in IC.
    - destruct (zero p_stroke v) eqn:ZV; cbn [fst]; [|exact X]. apply W. right. exists v. split; [|apply (ZERO 0 v ZV)].
      apply (computed_some rest 0 v); [lia|exact IC|exact ZV].
    - exfalso. (* nothing is dynamic *)
      clear -GI E. assert (K : forall chain s p x, styles_of chain = Some s -> find_prop p (inherited s) = Some x -> snd x = Static).
      { intros chain. induction chain as [|a chain IH]; intros s0 p x H F.
        - injection H as <-. discriminate.
        - unfold styles_of in H. cbn [with_all with_style] in H. destruct chain as [|b chain].
          + injection H as <-. unfold with_inline_style in F. destruct (e_style a); discriminate.
          + destruct (with_all (fun _ _ => None) [] (b :: chain)) as [parent|] eqn:PA; [|discriminate]. injection H as <-.
            unfold inherit_from in F. cbn [inherited] in F. rewrite !find_extend, !find_entries in F.
            assert (D : declarations parent = [] /\ important_declarations parent = []).
            { clear -PA. cbn [with_all with_style] in PA. destruct chain as [|c chain].
              - injection PA as <-. unfold with_inline_style. destruct (e_style b); split; reflexivity.
              - destruct (with_all (fun _ _ => None) [] (c :: chain)); [|discriminate]. injection PA as <-. unfold inherit_from, with_inline_style. destruct (e_style b); split; reflexivity. }
            destruct D as (D1 & D2). rewrite D1, D2 in F. cbn [find_prop option_map] in F.
            assert (ST : forall l, match find_prop p (rev (map (fun y : prop * value => (fst y, (snd y, Static))) l)) with Some y => snd y = Static | None => True end).
            { intros l. rewrite <- map_rev. rewrite (find_map (fun v : value => (v, Static))). destruct (find_prop p (rev l)); [reflexivity|exact Logic.I]. }
            repeat match type of F with context [find_prop p (rev (map ?g ?l))] => pose proof (ST l); destruct (find_prop p (rev (map g l))) as [?|] end; cbn [or_else] in F;
              try (injection F as <-; assumption).
            assert (I0 : inherited (with_attribute a (with_inline_style a no_styles)) = []) by (unfold with_inline_style; destruct (e_style a); reflexivity).
            rewrite I0 in F. cbn [find_prop] in F. destruct (find_prop p (inherited parent)) as [y|] eqn:FP; cbn [option_map or_else] in F; [|discriminate].
            injection F as <-. exact (IH parent p y PA FP). }
      unfold get_inherited in GI. destruct (inheritable p_stroke); [|discriminate]. specialize (K _ _ _ _ E GI). discriminate.
    - cbn [fst]. apply W. left. apply computed_none; [lia|exact IC].
  Qed.

  (** ** The fill *)
  Lemma fill_strip_look : forall e e' rest, e_style e' = e_style e -> (forall p, is_in p fill_props = false -> values p (e_attrs e') = values p (e_attrs e)) ->
    filled (e :: rest) = false -> filled (e' :: rest) = false -> same_look (e :: rest) (e' :: rest).
  Proof.
    intros e e' rest S V A B.
    assert (U : forall p, is_in p fill_props = false -> used (e' :: rest) p = used (e :: rest) p).
    { intros p P. destruct e' as [i l st]. cbn [e_style e_attrs] in *. subst st. specialize (V p P). cbn [PaintSpec.used].
      replace (own (mkElem i l (e_style e)) p) with (own e p); [reflexivity|].
      unfold PaintSpec.own, PaintSpec.from, styled. cbn [e_attrs e_style]. rewrite V. reflexivity. }
    unfold PaintSpec.same_look. rewrite A, B. split; [|split; [|split; [reflexivity|split; [discriminate|]]]].
    - unfold PaintSpec.stroked, PaintSpec.is_blank. rewrite !U by reflexivity. reflexivity.
    - intros _ p P. symmetry. apply U. do 8 (destruct p as [|p]; [reflexivity|]). discriminate P.
    - intros p P. symmetry. apply U. unfold is_in in *. rewrite existsb_app in P. apply orb_false_elim in P. apply P.
  Qed.
  Lemma values_fill_gone : forall e p, values p (e_attrs (without (lit "fill-") e)) = if is_in p [9; 10] then [] else values p (e_attrs e).
  Proof.
    intros e p. unfold without. cbn [e_attrs]. rewrite (values_filter (fun q => negb (starts_with (lit "fill-") (name q)))). rewrite fill_named.
    destruct (is_in p [9; 10]); reflexivity.
  Qed.
  Lemma not_filled : forall chain, is_blank chain 8 = true \/ is_blank chain 9 = true -> filled chain = false.
  Proof. intros chain [H|H]; unfold PaintSpec.filled; rewrite H; [reflexivity|apply andb_false_r]. Qed.
  Lemma fill_in : forall p, is_in p fill_props = false -> Nat.eqb 8 p = false /\ is_in p [9; 10] = false.
  Proof. intros p P. unfold is_in, fill_props in P. cbn [existsb] in P. apply orb_false_elim in P. destruct P as (A & B). rewrite Nat.eqb_sym. split; assumption. Qed.
  (** [e]: the element that was read; [e1]: the one that is changed. *)
  Lemma fill_look : forall o e e1 rest s, styles_of (e :: rest) = Some s -> NoDup (map fst (e_attrs e)) -> NoDup (map fst (styled b_important e)) -> NoDup (map fst (styled b_normal e)) ->
    NoDup (map fst (e_attrs e1)) -> e_style e1 = e_style e -> (forall p, is_in p fill_props = true -> values p (e_attrs e1) = values p (e_attrs e)) ->
    no_paint valid inherits blank e 8 -> same_look (e1 :: rest) (fst (remove_fill inheritable zero o s e1) :: rest).
  Proof.
    intros o e e1 rest s E ND NI NN ND1 ST FV NP. unfold remove_fill. destruct (o_fill o); cbn [negb]; [|apply look_refl].
    assert (U : forall p, is_in p fill_props = true -> used (e1 :: rest) p = used (e :: rest) p).
    { intros p P. destruct e1 as [i l st]. cbn [e_style e_attrs] in *. subst st. specialize (FV p P). cbn [PaintSpec.used].
      replace (own (mkElem i l (e_style e)) p) with (own e p); [reflexivity|].
      unfold PaintSpec.own, PaintSpec.from, styled. cbn [e_attrs e_style]. rewrite FV. reflexivity. }
    destruct (static_zero inheritable zero s p_fill || static_zero inheritable zero s p_fill_opacity) eqn:Z; [|apply look_refl].
    assert (B1 : filled (e1 :: rest) = false).
    { apply not_filled. unfold PaintSpec.is_blank. rewrite !U by reflexivity. apply orb_prop in Z. destruct Z as [Z|Z]; [left|right].
      - apply (static_zero_blank e rest s p_fill) in Z; try assumption; unfold p_fill; lia.
      - apply (static_zero_blank e rest s p_fill_opacity) in Z; try assumption; unfold p_fill_opacity; lia. }
    destruct (static_zero inheritable zero s p_fill) eqn:ZF; cbn [negb fst].
    - apply fill_strip_look.
      + reflexivity.
      + intros p P. rewrite values_fill_gone. destruct (fill_in p P) as (_ & ->). reflexivity.
      + exact B1.
      + apply not_filled. left. apply (static_zero_blank e rest s p_fill) in ZF; try assumption; [|unfold p_fill; lia].
        unfold PaintSpec.is_blank in *. change p_fill with 8 in ZF. rewrite <- (U 8 eq_refl) in ZF.
        replace (used (without (lit "fill-") e1 :: rest) 8) with (used (e1 :: rest) 8); [exact ZF|]. symmetry. apply used_attrs.
        exact (values_fill_gone e1 8).
    - apply fill_strip_look.
      + reflexivity.
      + intros p P. destruct (fill_in p P) as (Q & R). unfold with_none. cbn [e_attrs]. rewrite values_set by (apply nodup_without; exact ND1). change p_fill with 8. rewrite Q.
        rewrite values_fill_gone, R. reflexivity.
      + exact B1.
      + apply not_filled. left.
        assert (NP1 : no_paint valid inherits blank (with_none p_fill (without (lit "fill-") e1)) 8).
        { unfold no_paint, styled, with_none, without. cbn [e_style]. rewrite ST. exact NP. }
        destruct (used_no_paint _ rest 8 NP1 ltac:(lia)) as [(v & V & B)|V].
        * unfold PaintSpec.is_blank. rewrite V. exact B.
        * unfold PaintSpec.from in V. change (e_attrs (with_none p_fill (without (lit "fill-") e1))) with (set_attr p_fill v_none (e_attrs (without (lit "fill-") e1))) in V. rewrite values_set in V by (apply nodup_without; exact ND1).
          change (Nat.eqb p_fill 8) with true in V. destruct NONE as (_ & N). destruct (ZERO 8 v_none N) as (V' & I & B).
          cbn [filter] in V. rewrite V' in V. cbn [last_of rev app] in V. rewrite I in V. unfold PaintSpec.is_blank. rewrite V. exact B.
  Qed.
  Lemma nodup_set : forall p v l, NoDup (map fst l) -> NoDup (map fst (set_attr p v l)).
  Proof.
    intros p v l. assert (K : forall q l, In q (map fst (set_attr p v l)) -> q = p \/ In q (map fst l)).
    { intros q k. induction k as [|[r w] k IH]; cbn [set_attr map fst].
      - intros [<-|[]]. left. reflexivity.
      - destruct (Nat.eqb r p) eqn:F; cbn [map fst].
        + intros [<-|J]; [left; reflexivity|right; right; exact J].
        + intros [<-|J]; [right; left; reflexivity|]. destruct (IH J) as [X|X]; [left; exact X|right; right; exact X]. }
    induction l as [|[q w] l IH]; intros H; cbn [set_attr].
    - constructor; [intros []|constructor].
    - cbn [map fst] in H. inversion H as [|? ? N ND]; subst. destruct (Nat.eqb q p) eqn:F; cbn [map fst].
      + apply Nat.eqb_eq in F. subst q. exact H.
      + constructor; [|exact (IH ND)]. intros J. destruct (K q l J) as [X|X]; [|exact (N X)]. subst q. rewrite Nat.eqb_refl in F. discriminate.
  Qed.
  Lemma stroke_edit : forall o s e, let e1 := fst (remove_stroke inheritable zero o s e) in
    NoDup (map fst (e_attrs e)) -> NoDup (map fst (e_attrs e1)) /\ e_style e1 = e_style e /\ forall p, is_in p fill_props = true -> values p (e_attrs e1) = values p (e_attrs e).
  Proof.
    intros o s e e1 ND. unfold e1, remove_stroke.
    assert (X : NoDup (map fst (e_attrs e)) /\ e_style e = e_style e /\ forall p, is_in p fill_props = true -> values p (e_attrs e) = values p (e_attrs e)) by (repeat split; assumption).
    assert (SP : forall p, is_in p fill_props = true -> is_in p stroke_props = false).
    { intros p P. do 8 (destruct p as [|p]; [discriminate P|]). reflexivity. }
    assert (W : let e' := without (lit "stroke") e in NoDup (map fst (e_attrs e')) /\ e_style e' = e_style e /\ forall p, is_in p fill_props = true -> values p (e_attrs e') = values p (e_attrs e)).
    { split; [apply nodup_without; exact ND|]. split; [reflexivity|]. intros p P. rewrite values_stroke_gone, (SP p P). reflexivity. }
    assert (V : let e' := with_none p_stroke (without (lit "stroke") e) in NoDup (map fst (e_attrs e')) /\ e_style e' = e_style e /\ forall p, is_in p fill_props = true -> values p (e_attrs e') = values p (e_attrs e)).
    { split; [unfold with_none; cbn [e_attrs]; apply nodup_set, nodup_without; exact ND|]. split; [reflexivity|]. intros p P. unfold with_none. cbn [e_attrs].
      rewrite values_set by (apply nodup_without; exact ND). destruct (Nat.eqb p_stroke p) eqn:Q; [apply Nat.eqb_eq in Q; subst p; discriminate P|]. rewrite values_stroke_gone, (SP p P). reflexivity. }
    destruct (o_stroke o); cbn [negb fst]; [|exact X].
    destruct (negb _ && _); [exact X|]. cbv zeta. destruct (_ || _); [|exact X].
    destruct (get_inherited inheritable s p_stroke) as [[v [|]]|]; try exact W. destruct (zero p_stroke v); cbn [fst]; [exact W|exact V].
  Qed.
  Lemma edit_look : forall o rest e, plain (e :: rest) -> same_look (e :: rest) (fst (edit inheritable zero o rest e) :: rest).
  Proof.
    intros o rest e PL. unfold edit. destruct PL as (ND & NI & NN & NP & NF & MK). destruct (styles_of (e :: rest)) as [s|] eqn:E; [|apply look_refl].
    pose proof (stroke_look o e rest s E (conj ND (conj NI (conj NN (conj NP (conj NF MK)))))) as A. pose proof (stroke_edit o s e ND) as B. cbv zeta in B.
    destruct (remove_stroke inheritable zero o s e) as [e1 g1]. cbn [fst] in A, B. destruct B as (N1 & ST & FV).
    pose proof (fill_look o e e1 rest s E ND NI NN N1 ST FV NF) as C. destruct (remove_fill inheritable zero o s e1) as [e2 g2]. cbn [fst] in *.
    exact (look_trans _ _ _ A C).
  Qed.
  Lemma edit_stays : forall o rest e, o_remove_none o = false -> snd (edit inheritable zero o rest e) = false.
  Proof.
    intros o rest e R. unfold edit. destruct (styles_of (e :: rest)) as [s|]; [|reflexivity].
    assert (A : snd (remove_stroke inheritable zero o s e) = false).
    { unfold remove_stroke. destruct (negb (o_stroke o)); [reflexivity|]. destruct (negb _ && _); [reflexivity|]. cbv zeta. rewrite R.
      match goal with |- snd (let '(_, _) := ?x in _) = _ => destruct x as [? ?] end. apply andb_false_r. }
    destruct (remove_stroke inheritable zero o s e) as [e1 g1]. cbn [snd] in A. subst g1.
    assert (B : snd (remove_fill inheritable zero o s e1) = false).
    { unfold remove_fill. destruct (negb (o_fill o)); [reflexivity|]. cbv zeta. rewrite R.
      match goal with |- snd (let '(_, _) := ?x in _) = _ => destruct x as [? ?] end. apply andb_false_r. }
    destruct (remove_fill inheritable zero o s e1) as [e2 g2]. exact B.
  Qed.

  (** ** Documents *)
  Fixpoint doc_ind' (P : doc -> Prop) (H : forall s i e k, Forall P k -> P (Doc s i e k)) (d : doc) : P d :=
    match d with
    | Doc s i e k => H s i e k ((fix go (l : list doc) : Forall P l := match l with [] => Forall_nil P | x :: l => Forall_cons x (doc_ind' P H x) (go l) end) k)
    end.
  Lemma shapes_eq : forall anc i e k, shapes anc (Doc false i e k) = flat_map (shapes (e :: anc)) k.
  Proof. intros. cbn [shapes]. induction k as [|x k IH]; [reflexivity|]. cbn [flat_map]. rewrite <- IH. reflexivity. Qed.
  Lemma visit_eq : forall o anc s e k, visit inheritable zero o anc (Doc s false e k) =
    let '(e', gone) := if s then edit inheritable zero o anc e else (e, false) in if gone then [] else [Doc s false e' (flat_map (visit inheritable zero o (e' :: anc)) k)].
  Proof.
    intros. cbn [visit]. destruct (if s then edit inheritable zero o anc e else (e, false)) as [e' gone]. destruct gone; [reflexivity|]. do 2 f_equal.
  Qed.
  Lemma identified_eq : forall s e k, identified (Doc s false e k) = flat_map identified k.
  Proof. intros. cbn [identified]. induction k as [|x k IH]; [reflexivity|]. cbn [flat_map]. rewrite <- IH. reflexivity. Qed.
  Lemma visit_look : forall o, o_remove_none o = false -> forall d anc, Forall plain (shapes anc d) ->
    Forall2 same_look (shapes anc d) (flat_map (shapes anc) (visit inheritable zero o anc d)).
  Proof.
    intros o R d. induction d as [s i e k IH] using doc_ind'. intros anc PL. destruct i.
    { cbn [visit flat_map]. rewrite app_nil_r. apply (Forall_impl (fun _ => True)) in PL; [|intros; exact Logic.I].
      induction (shapes anc (Doc s true e k)) as [|x l IHl]; constructor; [apply look_refl|]. apply IHl. inversion PL; assumption. }
    rewrite visit_eq. destruct s.
    - cbn [shapes] in PL. inversion PL as [|? ? P _]; subst. pose proof (edit_look o anc e P) as L. pose proof (edit_stays o anc e R) as G.
      destruct (edit inheritable zero o anc e) as [e' gone]. cbn [fst snd] in *. subst gone. cbn [flat_map shapes app]. constructor; [exact L|constructor].
    - cbv beta iota zeta. cbn [flat_map]. rewrite app_nil_r, !shapes_eq in *. revert IH PL. generalize (e :: anc). intros c IH PL.
      induction k as [|x k IHk]; [constructor|]. inversion IH as [|? ? X IH']; subst. cbn [flat_map] in *. apply Forall_app in PL. destruct PL as (P1 & P2).
      rewrite flat_map_app. apply Forall2_app; [exact (X c P1)|exact (IHk IH' P2)].
  Qed.
  Theorem run_look : forall o script sheets d, o_remove_none o = false -> Forall plain (shapes [] d) ->
    Forall2 same_look (shapes [] d) (flat_map (shapes []) (run inheritable zero o script sheets d)).
  Proof.
    intros o script sheets d R PL. unfold run. destruct (script || match sheets with [] => false | _ => true end); [|exact (visit_look o R d [] PL)].
    cbn [flat_map]. rewrite app_nil_r. clear PL. induction (shapes [] d); constructor; [apply look_refl|assumption].
  Qed.
  Lemma visit_ids : forall o, o_remove_none o = false -> forall d anc, flat_map identified (visit inheritable zero o anc d) = identified d.
  Proof.
    intros o R d. induction d as [s i e k IH] using doc_ind'. intros anc. destruct i; [cbn [visit flat_map]; apply app_nil_r|].
    rewrite visit_eq. assert (G : exists e', (if s then edit inheritable zero o anc e else (e, false)) = (e', false)).
    { destruct s; [|exists e; reflexivity]. pose proof (edit_stays o anc e R) as G. destruct (edit inheritable zero o anc e) as [e' g]. cbn [snd] in G. subst g. exists e'. reflexivity. }
    destruct G as (e' & ->). cbn [flat_map]. rewrite app_nil_r, !identified_eq. generalize (e' :: anc). intros c.
    induction IH as [|x k X _ IHk]; [reflexivity|]. cbn [flat_map]. rewrite flat_map_app, X, IHk. reflexivity.
  Qed.
  Theorem run_ids : forall o script sheets d, o_remove_none o = false -> flat_map identified (run inheritable zero o script sheets d) = identified d.
  Proof.
    intros o script sheets d R. unfold run. destruct (script || match sheets with [] => false | _ => true end); [|exact (visit_ids o R d [])].
    cbn [flat_map]. apply app_nil_r.
  Qed.
End Proofs.
