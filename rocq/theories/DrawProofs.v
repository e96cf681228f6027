(** The text of a written path is read back as the commands that were written. *)
From Coq Require Import List NArith ZArith QArith Qcanon Bool Arith Lia Field DecimalN.
From Verif Require Import Chars ParseModel ParseSpec ParseProofs2 ShapeModel PathModel PathSpec PathProofs4 PathProofs5 SegmentModel SegmentSpec SegmentProofs SegmentProofs2 SegmentProofs3 DrawSpec.
Import ListNotations.
Local Close Scope Q_scope.
Local Open Scope nat_scope.

(** ** Implicit commands *)
Definition starts (l : list data) : Prop :=
  match l with
  | [] => True
  | d :: l => d_implicit d = false /\ (d_id d = PathModel.MoveTo \/ d_id d = PathModel.MoveBy) /\ follows (d_id d) l
  end.
Lemma starts_follows b l : starts l -> follows b l.
Proof. destruct l as [|d l]; cbn; [auto|]. intros (A & _ & B). split; [congruence|exact B]. Qed.
Lemma follows_app b l m : follows b l -> starts m -> follows b (l ++ m).
Proof.
  revert b. induction l as [|d l IH]; intros b F S; cbn [app]; [apply starts_follows, S|].
  destruct F as [F1 F2]. split; [exact F1|]. apply IH; assumption.
Qed.
Lemma starts_app l m : l <> [] -> starts l -> starts m -> starts (l ++ m).
Proof.
  destruct l as [|d l]; [congruence|]. intros _ (A & B & C) S. cbn [app starts]. split; [exact A|]. split; [exact B|]. apply follows_app; assumption.
Qed.

(** ** What is written *)
Definition no_arc (c : cmd) : Prop := match c with Arc _ _ _ _ _ _ _ => False | _ => True end.
Definition made (p : nat) (o : out) : Prop :=
  (exists c, snd o = round_cmd p c /\ no_arc c) /\ (fst o = true -> snd o <> Close).

Lemma id_round p c : id_of (round_cmd p c) = id_of c.
Proof. destruct c; try destruct rel; reflexivity. Qed.
Lemma id_eqb_eq i j : id_eqb i j = true -> i = j.
Proof. destruct i, j; cbn; congruence. Qed.
Lemma implicit_repeats i j : id_eqb (next_implicit i) j = true -> repeats i j.
Proof. intros E. apply id_eqb_eq in E. destruct i; cbn in *; congruence. Qed.

Lemma compactest_made t prev l imp o : compactest t prev l imp = Some o -> (forall c, In c l -> no_arc c /\ c <> Close) ->
  (exists c, snd o = round_cmd (precision t) c /\ no_arc c) /\ snd o <> Close /\
  (fst o = true -> exists i, imp = Some i /\ id_eqb i (id_of (snd o)) = true).
Proof.
  unfold compactest. destruct l as [|c l]; [discriminate|]. cbn [map]. intros E A. injection E as E.
  match type of E with min_by ?f ?b ?m = _ => generalize (min_by_in f m b) end.
  rewrite E. intros I.
  assert (J : In o (map (fun d => (match imp with Some i => id_eqb i (id_of d) | None => false end, round_cmd (precision t) d)) (c :: l))) by exact I.
  apply in_map_iff in J. destruct J as (d & <- & J). cbn [fst snd]. split; [exists d; split; [reflexivity|apply A, J]|]. split.
  - destruct (A d J) as [_ N]. destruct d; cbn; congruence.
  - rewrite id_round. destruct imp as [i|]; [|discriminate]. intros Q. exists i. split; [reflexivity|exact Q].
Qed.

Lemma write_one_made t g d l prev a control o k : write_one t g d l prev a control = Some (o, k) ->
  made (precision t) o /\ (fst o = true -> exists q, prev = Some q /\ repeats (id_of (snd q)) (id_of (snd o))).
Proof.
  set (imp := match prev with Some o => Some (next_implicit (id_of (snd o))) | None => None end).
  assert (G : forall l, compactest t prev l imp = Some o -> (forall c, In c l -> no_arc c /\ c <> Close) ->
    made (precision t) o /\ (fst o = true -> exists q, prev = Some q /\ repeats (id_of (snd q)) (id_of (snd o)))).
  { intros m E A. destruct (compactest_made _ _ _ _ _ E A) as (B & C & D). split; [split; [exact B|auto]|].
    intros F. destruct (D F) as (i & E1 & E2). subst imp. destruct prev as [q|]; [|discriminate]. exists q. split; [reflexivity|].
    injection E1 as <-. apply implicit_repeats, E2. }
  assert (K : forall b : bool, o = (false, Close) -> made (precision t) o /\ (fst o = true -> exists q, prev = Some q /\ repeats (id_of (snd q)) (id_of (snd o)))).
  { intros _ ->. split; [split; [exists Close; split; [reflexivity|exact Logic.I]|discriminate]|discriminate]. }
  unfold write_one. fold imp. destruct d as [b|c1 c2 b|]; [| |discriminate].
  - unfold to_svg_line.
    destruct (point_eqb a b); [intros E; injection E as <- _; apply (K true); reflexivity|].
    destruct (Qc_eq_bool _ _).
    { destruct (compactest _ _ _ _) eqn:E; [|discriminate]. intros Q. injection Q as <- _. apply (G _ E).
      intros c [<-|[<-|[]]]; (split; [exact Logic.I|discriminate]). }
    destruct (Qc_eq_bool _ _).
    { destruct (compactest _ _ _ _) eqn:E; [|discriminate]. intros Q. injection Q as <- _. apply (G _ E).
      intros c [<-|[<-|[]]]; (split; [exact Logic.I|discriminate]). }
    destruct (point_eqb b (s_start g)); [intros E; injection E as <- _; apply (K true); reflexivity|].
    destruct (compactest _ _ _ _) eqn:E; [|discriminate]. intros Q. injection Q as <- _. apply (G _ E).
    intros c [<-|[<-|[]]]; (split; [exact Logic.I|discriminate]).
  - unfold to_svg_curve. cbv zeta. destruct (compactest _ _ _ _) eqn:E; [|discriminate]. intros Q. injection Q as <- _. apply (G _ E).
    intros c H. apply in_app_or in H. destruct H as [H|H].
    + repeat match type of H with In _ (if ?b then _ else _) => destruct b end; cbn in H; intuition (subst; cbn; try exact Logic.I; discriminate).
    + repeat match type of H with In _ (if ?b then _ else _) => destruct b | In _ (match ?b with Some _ => _ | None => _ end) => destruct b end;
        cbn in H; intuition (subst; cbn; try exact Logic.I; discriminate).
Qed.

Section Data.
  Variable t : tolerance.
  Let p := precision t.
  Let dat := map (to_data p).
  Lemma with_move_made g by_ o : made p o -> fst o = false ->
    Forall (made p) (with_move t (s_start g) by_ o) /\ starts (dat (with_move t (s_start g) by_ o)) /\
    with_move t (s_start g) by_ o <> [].
  Proof.
    intros M F. assert (MM : forall r a, made p (false, Move r (round_point p a))).
    { intros r a. split; [exists (Move r a); split; [reflexivity|exact Logic.I]|discriminate]. }
    assert (ML : forall r a, snd o = Line r a -> made p (true, snd o)).
    { intros r a E. destruct M as [M _]. split; [exact M|]. cbn. congruence. }
    unfold with_move. fold p. destruct o as [i c]. cbn [fst snd] in *. subst i.
    destruct c; try destruct rel; (split; [constructor; [apply MM|constructor; [|constructor]]|split; [|discriminate]]);
      try exact M; try (eapply ML; reflexivity); cbn; repeat split; auto; discriminate.
  Qed.
  Lemma data_made g by_ : forall l q a control o k, to_svg_data t g by_ l (Some q) a control = Some (o, k) ->
    Forall (made p) o /\ follows (id_of (snd q)) (dat o).
  Proof.
    induction l as [|d l IH]; intros q a control o k.
    { intros E. injection E as <- _. split; [constructor|exact Logic.I]. }
    rewrite to_svg_data_cons. destruct (write_one t g d l (Some q) a control) as [[w k']|] eqn:W; [|discriminate].
    cbv zeta. destruct (to_svg_data t g by_ l (Some w) (end_point d) k') as [[r k'']|] eqn:R; [|discriminate].
    intros E. injection E as <- _. destruct (write_one_made _ _ _ _ _ _ _ _ _ W) as [M I]. destruct (IH _ _ _ _ _ R) as [MR FR].
    assert (FW : fst w = true -> repeats (id_of (snd q)) (id_of (snd w))).
    { intros F. destruct (I F) as (q' & E & X). injection E as <-. exact X. }
    destruct (s_closed g && match l with [] => true | _ => false end && negb (id_eqb (id_of (snd w)) PathModel.ClosePath)) eqn:C.
    - destruct l as [|x l]; [|rewrite andb_false_r in C; discriminate]. cbn in R. injection R as <- _. rewrite app_nil_r. cbn [app].
      split; [constructor; [exact M|constructor; [|constructor]]|].
      { split; [exists Close; split; [reflexivity|exact Logic.I]|discriminate]. }
      cbn. split; [exact FW|]. split; [discriminate|exact Logic.I].
    - cbn [app]. split; [constructor; assumption|]. cbn. split; [exact FW|exact FR].
  Qed.
  Lemma first_made g by_ d l a control o k : to_svg_data t g by_ (d :: l) None a control = Some (o, k) ->
    Forall (made p) o /\ starts (dat o) /\ o <> [].
  Proof.
    rewrite to_svg_data_cons. destruct (write_one t g d l None a control) as [[w k']|] eqn:W; [|discriminate].
    cbv zeta. destruct (to_svg_data t g by_ l (Some w) (end_point d) k') as [[r k'']|] eqn:R; [|discriminate].
    intros E. injection E as <- _. destruct (write_one_made _ _ _ _ _ _ _ _ _ W) as [M I]. destruct (data_made _ _ _ _ _ _ _ _ R) as [MR FR].
    assert (F : fst w = false).
    { destruct (fst w); [|reflexivity]. destruct (I eq_refl) as (q & E & _). discriminate. }
    destruct (with_move_made g by_ w M F) as (A & B & C).
    assert (CL : made p (false, Close)) by (split; [exists Close; split; [reflexivity|exact Logic.I]|discriminate]).
    assert (L : exists m, with_move t (s_start g) by_ w = [m; (fst (List.last (with_move t (s_start g) by_ w) w), snd w)]).
    { unfold with_move. destruct w as [i c]. destruct c; try destruct rel; cbn; eexists; reflexivity. }
    destruct L as (m & L). destruct (with_move t (s_start g) by_ w) as [|m' [|w' [|]]]; try discriminate. injection L as <- L.
    assert (SW : snd w' = snd w) by (rewrite L; reflexivity). clear L.
    destruct B as (B1 & B2 & B3 & _).
    destruct (s_closed g && match l with [] => true | _ => false end && negb (id_eqb (id_of (snd w)) PathModel.ClosePath)) eqn:Q.
    - destruct l as [|x l]; [|rewrite andb_false_r in Q; discriminate]. cbn in R. injection R as <- _. rewrite app_nil_r.
      split; [apply Forall_app; split; [exact A|constructor; [exact CL|constructor]]|]. split; [|discriminate].
      cbn. split; [exact B1|]. split; [exact B2|]. split; [exact B3|]. split; [discriminate|exact Logic.I].
    - split; [apply Forall_app; split; assumption|]. split; [|discriminate].
      cbn. split; [exact B1|]. split; [exact B2|]. split; [exact B3|]. rewrite SW. exact FR.
  Qed.
  Lemma loop_made : forall l e control o, to_svg_loop t l e control = Some o -> Forall (made p) o /\ starts (dat o) /\ (l <> [] -> o <> []).
  Proof.
    induction l as [|g l IH]; intros e control o.
    { cbn. intros E. injection E as <-. split; [constructor|]. split; [exact Logic.I|congruence]. }
    cbn [to_svg_loop]. intros E.
    match type of E with match ?x with Some _ => _ | None => _ end = _ => destruct x as [[w k]|] eqn:W; [|discriminate] end.
    destruct (to_svg_loop t l _ k) as [r|] eqn:R; [|discriminate]. injection E as <-. destruct (IH _ _ _ R) as (MR & SR & _).
    assert (S : Forall (made p) w /\ starts (dat w) /\ w <> []).
    { destruct (s_data g) as [|d ds]; [|apply (first_made _ _ _ _ _ _ _ _ W)]. injection W as <- _.
      split; [constructor; [|constructor]|split; [|discriminate]].
      - split; [exists (Move false (s_start g)); split; [reflexivity|exact Logic.I]|discriminate].
      - cbn. auto. }
    destruct S as (A & B & C). split; [apply Forall_app; split; assumption|]. split.
    - unfold dat. rewrite map_app. apply starts_app; [destruct w; [congruence|discriminate]|exact B|exact SR].
    - intros _. destruct w; [congruence|discriminate].
  Qed.
End Data.

(** ** Numbers *)
Lemma uint_lt u : Forall (fun c => (c < 10)%N) (uint_digits u).
Proof. induction u; cbn; constructor; try assumption; reflexivity. Qed.
Lemma to_dec_canonical p x : canonical (to_dec p x).
Proof. apply shortest_canonical, uint_lt. Qed.

Lemma uint_of u : forall a, fold_left (fun a c => (10 * a + Z.of_N c)%Z) (uint_digits u) (Zpos a) = Zpos (Pos.of_uint_acc u a).
Proof. induction u; intros a; cbn [uint_digits fold_left Pos.of_uint_acc]; [reflexivity|..]; rewrite <- IHu; f_equal; lia. Qed.
Lemma uint_value u : of_digits (uint_digits u) = Z.of_N (Pos.of_uint u).
Proof.
  unfold of_digits. induction u; cbn [uint_digits fold_left Pos.of_uint]; [reflexivity|exact IHu|..];
    match goal with |- fold_left _ _ ?z = Z.of_N (N.pos (Pos.of_uint_acc _ ?a)) => change z with (Zpos a) end; apply uint_of.
Qed.
Lemma digits_of n : of_digits (uint_digits (N.to_uint n)) = Z.of_N n.
Proof. rewrite uint_value. f_equal. apply DecimalN.Unsigned.of_to. Qed.

Lemma pow10_eq p : Zpos (pow10 p) = (10 ^ Z.of_nat p)%Z.
Proof. unfold pow10. rewrite Z2Pos.id; [reflexivity|]. apply Z.pow_pos_nonneg; lia. Qed.
Lemma dec_value_is d n m p : value_is d n m (- Z.of_nat p) -> dec_value d = Q2Qc (Qmake (if n then - m else m) (pow10 p)).
Proof.
  intros [N V]. cbv zeta in V. unfold dec_value, mant. rewrite N.
  assert (A : forall q, q = of_digits (dig d) -> forall a b, (q * a = m * b)%Z -> ((if n then - q else q) * a = (if n then - m else m) * b)%Z).
  { intros q _ a b E. destruct n; lia. }
  destruct (ex d) as [|e|e] eqn:X.
  - apply Qc_is_canon. cbn [this Q2Qc]. rewrite !Qred_correct. unfold Qeq, inject_Z. cbn [Qnum Qden].
    rewrite Z.min_r in V by lia. rewrite pow10_eq, Z.pow_0_r, Z.mul_1_r. rewrite Z.sub_diag, Z.pow_0_r, Z.sub_0_l, Z.opp_involutive in V. apply (A _ eq_refl _ _ V).
  - apply Qc_is_canon. cbn [this Q2Qc]. rewrite !Qred_correct. unfold Qeq, inject_Z. cbn [Qnum Qden].
    rewrite Z.min_r in V by lia. rewrite pow10_eq, <- Z.mul_assoc, <- Z.pow_add_r by lia. rewrite Z.sub_diag, Z.pow_0_r in V.
    replace (Zpos e - - Z.of_nat p)%Z with (Zpos e + Z.of_nat p)%Z in V by lia. apply (A _ eq_refl _ _ V).
  - apply Qc_is_canon. cbn [this Q2Qc]. rewrite !Qred_correct. unfold Qeq. cbn [Qnum Qden].
    rewrite pow10_eq, Z2Pos.id by (apply Z.pow_pos_nonneg; lia). apply (A _ eq_refl).
    destruct (Z.le_ge_cases (Zneg e) (- Z.of_nat p)) as [L|L].
    + rewrite Z.min_l in V by lia. rewrite Z.sub_diag, Z.pow_0_r, Z.mul_1_r in V. rewrite V, <- Z.mul_assoc, <- Z.pow_add_r by lia. f_equal. f_equal. lia.
    + rewrite Z.min_r in V by lia. rewrite Z.sub_diag, Z.pow_0_r, Z.mul_1_r in V. rewrite <- V, <- Z.mul_assoc, <- Z.pow_add_r by lia. f_equal. f_equal. lia.
Qed.
Lemma to_dec_is p x : value_is (to_dec p x) (scale p x <? 0)%Z (Z.abs (scale p x)) (- Z.of_nat p).
Proof.
  unfold to_dec. match goal with |- value_is (shortest ?n ?l ?e) _ _ _ => pose proof (shortest_value n l e) as V end.
  rewrite digits_of, Z2N.id in V by lia. exact V.
Qed.
Lemma to_dec_value p x : on_grid p x -> dec_value (to_dec p x) = x.
Proof.
  intros G. rewrite (dec_value_is _ _ _ _ (to_dec_is p x)).
  replace (if (scale p x <? 0)%Z then (- Z.abs (scale p x))%Z else Z.abs (scale p x)) with (scale p x)
    by (destruct (Z.ltb_spec (scale p x) 0); lia).
  apply (rnd_grid p x G).
Qed.

Lemma digits_below l : Forall (fun c => (c < 10)%N) l -> (0 <= of_digits l < 10 ^ Z.of_nat (List.length l))%Z.
Proof.
  induction l as [|c l IH] using rev_ind; intros F; [cbn; lia|]. apply Forall_app in F. destruct F as [F C]. inversion C; subst.
  rewrite of_digits_app, app_length, Nat2Z.inj_add, Z.pow_add_r by lia. specialize (IH F). cbn [List.length]. change (10 ^ Z.of_nat 1)%Z with 10%Z.
  assert (of_digits [c] = Z.of_N c) by reflexivity. nia.
Qed.
Lemma digits_above c l : c <> 0%N -> Forall (fun c => (c < 10)%N) l -> (10 ^ Z.of_nat (List.length l) <= of_digits (c :: l))%Z.
Proof.
  intros N F. change (c :: l) with ([c] ++ l). rewrite of_digits_app. assert (of_digits [c] = Z.of_N c) by reflexivity.
  pose proof (digits_below l F). assert (0 < 10 ^ Z.of_nat (List.length l))%Z by (apply Z.pow_pos_nonneg; lia). nia.
Qed.
Lemma moderate_scale p x : on_grid p x -> moderate x -> (Z.abs (scale p x) < 10 ^ (16 + Z.of_nat p))%Z.
Proof.
  intros [n ->] [A B]. rewrite scale_grid. unfold Qclt in A, B. cbn [this Q2Qc Qcopp] in A, B. rewrite !Qred_correct in B. do 2 rewrite Qred_correct in A. rewrite ?Qred_correct in A.
  unfold Qlt, Qopp, inject_Z in A, B. cbn [Qnum Qden] in A, B. rewrite pow10_eq in A, B. rewrite Z.pow_add_r by lia.
  change (10 ^ 16)%Z with 10000000000000000%Z in *. lia.
Qed.
Lemma to_dec_plain p x : p <= 5 -> on_grid p x -> moderate x -> PathSpec.plain (to_dec p x).
Proof.
  intros P5 G M. pose proof (moderate_scale p x G M) as B. pose proof (to_dec_is p x) as [_ V]. cbv zeta in V.
  pose proof (to_dec_canonical p x) as C. unfold canonical in C. unfold PathSpec.plain.
  destruct (dig (to_dec p x)) as [|c l] eqn:D; [left; reflexivity|right]. destruct C as (C0 & _ & F).
  set (L := Z.of_nat (List.length (c :: l))) in *. set (E := ex (to_dec p x)) in *. set (k := Z.min E (- Z.of_nat p)) in *.
  pose proof (digits_below _ F) as [_ U]. fold L in U. inversion F as [|? ? _ Fl]; subst.
  pose proof (digits_above c l C0 Fl) as W. set (v := of_digits (c :: l)) in *. set (m := Z.abs (scale p x)) in *.
  assert (LL : Z.of_nat (List.length l) = (L - 1)%Z) by (unfold L; cbn [List.length]; lia). rewrite LL in W. assert (L1 : (1 <= L)%Z) by lia.
  assert (KE : (k <= E)%Z) by (unfold k; lia). assert (KP : (k <= - Z.of_nat p)%Z) by (unfold k; lia).
  assert (T : (0 < 10 ^ (E - k))%Z) by (apply Z.pow_pos_nonneg; lia).
  assert (T2 : (0 < 10 ^ (- Z.of_nat p - k))%Z) by (apply Z.pow_pos_nonneg; lia).
  assert (V0 : (0 < v)%Z) by (assert (0 < 10 ^ (L - 1))%Z by (apply Z.pow_pos_nonneg; lia); lia).
  assert (M0 : (0 < m)%Z) by nia.
  split.
  - assert (Q : (10 ^ (- Z.of_nat p - k) < 10 ^ (L + (E - k)))%Z).
    { rewrite Z.pow_add_r by lia. nia. }
    apply Z.pow_lt_mono_r_iff in Q; lia.
  - assert (Q : (10 ^ (L - 1 + (E - k)) < 10 ^ (16 + Z.of_nat p + (- Z.of_nat p - k)))%Z).
    { rewrite (Z.pow_add_r 10 (L - 1)), (Z.pow_add_r 10 (16 + Z.of_nat p)) by lia. nia. }
    apply Z.pow_lt_mono_r_iff in Q; lia.
Qed.

(** ** Reading back *)
Lemma numbers_args c : no_arc c -> args c = numbers c.
Proof. destruct c; cbn; intros H; try reflexivity. contradiction. Qed.
Lemma no_arc_round p c : no_arc c -> no_arc (round_cmd p c).
Proof. destruct c; cbn; auto. Qed.
Lemma rnd_on p x : on_grid p (rnd p x).
Proof. exists (scale p x). reflexivity. Qed.
Lemma made_grid p o : made p o -> no_arc (snd o) /\ Forall (on_grid p) (args (snd o)).
Proof.
  intros [(c & -> & N) _]. split; [apply no_arc_round, N|].
  destruct c; cbn in N; try contradiction; cbn; repeat constructor; apply rnd_on.
Qed.
Lemma same_value p x d : on_grid p x -> same_number (to_dec p x) d -> dec_value d = x.
Proof.
  intros G [<-|[A B]]; [apply to_dec_value, G|]. rewrite <- (to_dec_value p x G). unfold dec_value, mant. rewrite A, B.
  assert (Z : forall b : bool, (if b then (- of_digits [])%Z else of_digits []) = 0%Z) by (intros []; reflexivity). rewrite !Z.
  destruct (ex d), (ex (to_dec p x)); apply Qc_is_canon; cbn [this Q2Qc]; rewrite !Qred_correct; unfold Qeq; reflexivity.
Qed.
Lemma cmd_back p o d : made p o -> same_command (to_data p o) d -> cmd_of d = Some (snd o).
Proof.
  intros M [I A]. destruct (made_grid p o M) as [N G]. unfold to_data in I, A. cbn [d_id d_args] in I, A. unfold cmd_of.
  destruct d as [f i l]. cbn [d_id d_args] in *. subst i. destruct (snd o) as [r a| |r a|r x|r y|r c1 c2 a|r c a|r c a|r a|]; cbn in N; try contradiction;
    cbn [args] in A, G; cbn [map] in A;
    repeat match goal with
           | H : Forall _ (_ :: _) |- _ => apply Forall_cons_iff in H; destruct H
           | H : Forall2 _ (_ :: _) ?l |- _ => inversion H; clear H; subst
           | H : Forall2 _ [] ?l |- _ => inversion H; clear H; subst
           end;
    try destruct r; cbn [id_of]; repeat match goal with H : same_number (to_dec _ ?x) ?d |- _ => rewrite (same_value p x d); [clear H|assumption|exact H] end;
    try destruct a; try destruct c; try destruct c1; try destruct c2; reflexivity.
Qed.
Lemma cmds_back p l : Forall (made p) l -> forall m, same_path (map (to_data p) l) m -> cmds_of m = Some (map snd l).
Proof.
  induction 1 as [|o l M F IH]; intros m S; inversion S as [|? d ? m' C S']; subst; [reflexivity|].
  cbn [cmds_of map]. rewrite (cmd_back p o d M C), (IH m' S'). reflexivity.
Qed.

Lemma made_command p o : made p o -> command_ok (to_data p o).
Proof.
  intros M. destruct (made_grid p o M) as [N _]. unfold to_data. split; [|split].
  - cbn [d_args d_id]. rewrite map_length. destruct (snd o); try destruct rel; cbn in N; try contradiction; reflexivity.
  - cbn [d_args]. apply Forall_forall. intros d I. apply in_map_iff in I. destruct I as (x & <- & _). apply to_dec_canonical.
  - cbn [d_id]. intros [A|A]; destruct (snd o); try destruct rel; cbn in N, A; try contradiction; discriminate.
Qed.

Theorem text_back : forall (finite : dec -> bool) t gs o, (forall d, PathSpec.plain d -> finite d = true) ->
  to_svg t gs = Some o -> gs <> [] -> precision t <= 5 -> Forall (fun c => Forall moderate (numbers (snd c))) o ->
  forall fuel, List.length o <= fuel ->
  exists l q, parse_path finite fuel (format_path (map (to_data (precision t)) o)) = Ok l q /\ cmds_of l = Some (map snd o).
Proof.
  intros finite t gs o FI E NE P5 MO fuel FU. destruct (loop_made t gs None None o E) as (M & S & N). specialize (N NE).
  set (p := precision t) in *.
  assert (OK : path_ok (map (to_data p) o)).
  { split.
    - apply Forall_forall. intros d I. apply in_map_iff in I. destruct I as (c & <- & I). apply made_command. rewrite Forall_forall in M. apply M, I.
    - exact S. }
  assert (NN : map (to_data p) o <> []) by (destruct o; [congruence|discriminate]).
  assert (PL : Forall (fun d => Forall (fun x => PathSpec.plain x /\ finite x = true) (d_args d)) (map (to_data p) o)).
  { apply Forall_forall. intros d I. apply in_map_iff in I. destruct I as (c & <- & I). cbn [to_data d_args].
    rewrite Forall_forall in M, MO. destruct (made_grid p c (M c I)) as [NA G]. specialize (MO c I). rewrite (numbers_args _ NA) in *.
    apply Forall_forall. intros y J. apply in_map_iff in J. destruct J as (x & <- & J). rewrite Forall_forall in G, MO.
    assert (Q : PathSpec.plain (to_dec p x)) by (apply to_dec_plain; auto). split; [exact Q|apply FI, Q]. }
  assert (Z : finite (Dec false [] 0) = true) by (apply FI; left; reflexivity).
  assert (CL : Forall (fun d => d_implicit d = true -> d_id d <> PathModel.ClosePath) (map (to_data p) o)).
  { apply Forall_forall. intros d I. apply in_map_iff in I. destruct I as (c & <- & I). cbn [to_data d_implicit d_id].
    rewrite Forall_forall in M. destruct (M c I) as [_ X]. intros T Y. apply (X T). apply is_close_id. rewrite Y. reflexivity. }
  destruct (round_trip finite (map (to_data p) o) OK NN PL Z CL fuel) as (l & q & PP & SP); [rewrite map_length; exact FU|].
  exists l, q. split; [exact PP|]. apply (cmds_back p o M l SP).
Qed.
Theorem text_drawing : forall (finite : dec -> bool) t l gs, (forall d, PathSpec.plain d -> finite d = true) ->
  from_svg t l = Some gs -> smooth_matches l -> arcs_ok l -> ends_apart t l -> writable t gs ->
  gs <> [] -> precision t <= 5 ->
  exists o, optimize t l = Some o /\
    (Forall (fun c => Forall moderate (numbers (snd c))) o -> forall fuel, List.length o <= fuel ->
     exists m q cs, parse_path finite fuel (format_path (map (to_data (precision t)) o)) = Ok m q /\ cmds_of m = Some cs /\
       same_drawing (drawing l) (drawing cs)).
Proof.
  intros finite t l gs FI R S A E W N P. destruct (optimize_spec t l gs R S A E W) as (o & O & D). exists o. split; [exact O|].
  intros M fuel F. unfold optimize in O. rewrite R in O.
  destruct (text_back finite t gs o FI O N P M fuel F) as (m & q & X & Y). exists m, q, (map snd o). auto.
Qed.

(** Deciding, for the example. *)
Definition moderateb (x : Qc) : bool := ltb (- Q2Qc (inject_Z (10 ^ 16)))%Qc x && ltb x (Q2Qc (inject_Z (10 ^ 16))).
Lemma moderate_by (o : list SegmentModel.out) : forallb (fun c => forallb moderateb (numbers (snd c))) o = true -> Forall (fun c => Forall moderate (numbers (snd c))) o.
Proof.
  intros H. rewrite forallb_forall in H. apply Forall_forall. intros c I. specialize (H c I). rewrite forallb_forall in H.
  apply Forall_forall. intros x J. specialize (H x J). apply andb_prop in H. destruct H as [A B]. split; apply ltb_iff; assumption.
Qed.
Lemma nonempty_by {A} (l : list A) : match l with [] => false | _ => true end = true -> l <> [].
Proof. destruct l; discriminate. Qed.
