From Coq Require Import String List NArith ZArith Bool Arith Lia.
From Coq Require DecimalN.
From Verif Require Import Chars ParseModel ParseSpec ParseProofs ParseProofs2 ParseProofs3 ParseProofs4 ListProofs ClockModel ClockSpec.
Import ListNotations.

(** ** Integers *)
Lemma print_uint_digits u : Forall digit (print_uint u).
Proof. induction u; cbn; constructor; auto; unfold digit; lia. Qed.
Lemma uint_acc u : forall p, fold_left (fun a c => (10 * a + (Z.of_N c - 48))%Z) (print_uint u) (Z.pos p) = Z.pos (Pos.of_uint_acc u p).
Proof.
  induction u; intros p; cbn [print_uint fold_left Pos.of_uint_acc]; [reflexivity| | | | | | | | | |];
    rewrite <- IHu; f_equal; cbn [Z.of_N]; lia.
Qed.
Lemma uint_value u : digits_value (print_uint u) = Z.of_N (N.of_uint u).
Proof.
  unfold digits_value, N.of_uint. induction u; cbn [print_uint fold_left Pos.of_uint]; [reflexivity|exact IHu| | | | | | | | |]; apply uint_acc.
Qed.
Lemma print_uint_nonempty n : print_uint (N.to_uint n) <> [].
Proof.
  intros E. assert (N.to_uint n = Decimal.Nil) by (destruct (N.to_uint n); cbn in E; congruence).
  pose proof (DecimalN.Unsigned.of_to n) as O. rewrite H in O. cbn in O. subst n. discriminate H.
Qed.

Lemma print_int_spec z : (0 <= z)%Z -> Forall digit (print_int z) /\ print_int z <> [] /\ digits_value (print_int z) = z.
Proof.
  intros L. unfold print_int. destruct (Z.ltb_spec z 0) as [|_]; [lia|].
  split; [apply print_uint_digits|]. split; [apply print_uint_nonempty|].
  rewrite uint_value, DecimalN.Unsigned.of_to. lia.
Qed.
Lemma pad_int_spec z : (0 <= z)%Z -> Forall digit (pad_int z) /\ pad_int z <> [] /\ digits_value (pad_int z) = z.
Proof.
  intros L. unfold pad_int. destruct (print_int_spec z L) as (F & NE & V). destruct (z <? 10)%Z; [|auto].
  split; [constructor; [unfold digit; lia|exact F]|]. split; [discriminate|exact V].
Qed.

Lemma digits_number t : Forall digit t -> t <> [] -> number t false (digits_value t) 0.
Proof.
  intros F NE. exists [], t, [], [], [], 0%Z. rewrite !app_nil_r. repeat split; auto; unfold sign_text, fraction, exponent; auto.
Qed.
Lemma value_magnitude d z : (0 <= z)%Z -> value_is d false z 0 -> magnitude d = z /\ is_integer d = true.
Proof.
  intros Z0 [_ V]. unfold magnitude, is_integer. cbv zeta in V. destruct (Z.leb_spec 0 (ex d)) as [L|L].
  - rewrite Z.min_r in V by lia. rewrite !Z.sub_0_r, Z.pow_0_r, Z.mul_1_r in V. auto.
  - rewrite Z.min_l in V by lia. rewrite Z.sub_diag, Z.pow_0_r, Z.mul_1_r, Z.sub_0_l in V.
    assert (0 < 10 ^ - ex d)%Z by (apply Z.pow_pos_nonneg; lia).
    rewrite V. split; [apply Z.div_mul; lia|]. rewrite Z.mod_mul by lia. reflexivity.
Qed.
Lemma rust_canonical t d : rust_f64 t = Some d -> canonical d.
Proof.
  unfold rust_f64. destruct (sign t) as [n s1]. destruct (digits s1) as [i s2] eqn:D1. apply digits_split in D1.
  destruct D1 as (it & E1 & F1 & -> & _). subst s1.
  destruct (match s2 with [] => _ | _ => _ end) as [f s3] eqn:D2.
  assert (FF : exists ft, Forall digit ft /\ f = map (fun c => (c - 48)%N) ft).
  { destruct s2 as [|c s2]; [injection D2 as <- _; exists []; auto|]. destruct (N.eqb c DOT); [|injection D2 as <- _; exists []; auto].
    apply digits_split in D2. destruct D2 as (ft & _ & F & E & _). eauto. }
  destruct FF as (ft & FF & ->). 
  assert (L : Forall (fun c => (c < 10)%N) (map (fun c => (c - 48)%N) it ++ map (fun c => (c - 48)%N) ft)).
  { rewrite <- map_app. apply Forall_map. assert (G : Forall digit (it ++ ft)) by (apply Forall_app; auto). revert G. apply Forall_impl. unfold digit. intros; lia. }
  destruct (_ ++ _) as [|x m]; [discriminate|]. destruct s3 as [|c s3]; [intros E; injection E as <-; apply shortest_canonical, L|].
  destruct (_ || _); [|discriminate]. destruct (sign s3) as [en s4]. destruct (digits s4) as [e s5].
  destruct e; [discriminate|]. destruct s5; [|discriminate]. intros E; injection E as <-; apply shortest_canonical, L.
Qed.

(** ** Padding *)
Lemma spells_pad t d : spells t d -> spells (48%N :: t) d.
Proof.
  intros (H & ED & E). destruct t as [|c t]; [destruct H|]. split; [left; unfold digit; lia|].
  split; [intros X; apply ends_cons in X; [contradiction|discriminate]|].
  unfold rust_f64 in *. cbn [sign] in *. change (N.eqb 48 45) with false. change (N.eqb 48 43) with false. cbn iota.
  assert (S : sign (c :: t) = (false, c :: t)).
  { cbn [sign]. destruct (N.eqb_spec c 45) as [->|]; [unfold digit in H; lia|]. destruct (N.eqb_spec c 43) as [->|]; [unfold digit in H; lia|reflexivity]. }
  cbn [sign] in S. rewrite S in E. clear S. 
  assert (D : digits (48%N :: c :: t) = (0%N :: fst (digits (c :: t)), snd (digits (c :: t)))).
  { cbn [digits]. change (is_ascii_digit 48) with true. cbn iota. change (48 - 48)%N with 0%N. destruct (if is_ascii_digit c then _ else _). reflexivity. }
  rewrite D. destruct (digits (c :: t)) as [i s2]. cbn [fst snd].
  destruct (match s2 with [] => _ | _ => _ end) as [f s3]. cbn [app].
  assert (SH : forall m e, shortest false (0%N :: m) e = shortest false m e) by reflexivity.
  destruct (i ++ f) as [|x m]; [discriminate|]. destruct s3 as [|c3 s3]; [rewrite SH; exact E|].
  destruct (_ || _); [|discriminate]. destruct (sign s3) as [en s4]. destruct (digits s4) as [e s5].
  destruct e; [discriminate|]. destruct s5; [|discriminate]. rewrite SH. exact E.
Qed.
Lemma spells_digits t z : Forall digit t -> t <> [] -> digits_value t = z ->
  exists d, spells t d /\ neg d = false /\ canonical d /\ value_is d false z 0.
Proof.
  intros F NE V. destruct (rust_f64_complete t false (digits_value t) 0 (digits_number t F NE)) as (d & E & VI).
  exists d. rewrite V in VI. split; [|split; [apply VI|split; [eapply rust_canonical, E|exact VI]]].
  split; [destruct t; [contradiction|inversion F; auto]|]. split; [|exact E].
  intros (u & ->). apply Forall_app in F. destruct F as [_ F]. inversion F as [|? ? X _]. unfold digit in X. lia.
Qed.

(** ** Reading *)
Definition colon_or_end (r : text) : Prop := match r with [] => True | c :: _ => c = 58%N end.
Definition unit_start (c : N) : Prop := c = 58%N \/ c = 104%N \/ c = 109%N \/ c = 115%N.

Section Read.
  Variable finite : dec -> bool.
  Variable f32 : dec -> dec.

  Lemma spells_is_number t d : spells t d -> is_number t.
  Proof. intros (_ & _ & E). apply rust_f64_sound in E. destruct E as (n & m & e & N & _). exists n, m, e. exact N. Qed.
  Lemma f32_at a t r d : spells t d -> finite d = true -> f32 d = d ->
    match r with [] => True | c :: _ => unit_start c end -> ~ ends_in 46%N r ->
    parse_f32 finite f32 (at_ a (t ++ r)) = Ok d (at_ (a ++ t) r).
  Proof.
    intros S F R U E. unfold parse_f32, bind. 
    pose proof (f64_exact_dec finite a [] t r d (Forall_nil _) (spells_is_number _ _ S)) as H. cbn [app] in H.
    rewrite H; [cbn; rewrite R; reflexivity| |exact E|apply S|exact F].
    destruct r as [|c r]; [exact I|]. unfold stops. unfold unit_start in U. split; [unfold digit; lia|]. split; intros; lia.
  Qed.

  Lemma head_not_ws t d r : spells t d -> match t ++ r with [] => True | c :: _ => is_whitespace c = false end.
  Proof.
    intros (H & _). destruct t as [|c t]; [destruct H|]. cbn [app].
    assert (L : (46 <= c <= 57)%N) by (unfold digit in H; lia).
    assert (X : forall k, 46 <= k <= 57 -> is_whitespace (N.of_nat k) = false).
    { intros k K. do 58 (destruct k as [|k]; [try lia; try reflexivity|]). lia. }
    rewrite <- (N2Nat.id c). apply X. lia.
  Qed.

  Lemma sign_none a t d r : spells t d -> parse_sign (at_ a (t ++ r)) = Ok false (at_ a (t ++ r)).
  Proof.
    intros (H & _). destruct t as [|c t]; [destruct H|]. cbn [app]. unfold parse_sign, or_else, try_parse, bind.
    assert (L : (46 <= c <= 57)%N) by (unfold digit in H; lia).
    rewrite read_at by lia. unfold skip_whitespace. rewrite skip_matches_at.
    destruct (N.eqb_spec c 43) as [|_]; [lia|]. destruct (N.eqb_spec c 45) as [|_]; [lia|]. unfold fail, ret. cbn [p_input p_cursor].
    f_equal. unfold at_. cbn [p_input p_cursor]. rewrite <- !app_assoc, take_drop. reflexivity.
  Qed.
  Lemma sign_minus a t d r : spells t d -> parse_sign (at_ a (45%N :: t ++ r)) = Ok true (at_ (a ++ [45%N]) (t ++ r)).
  Proof.
    intros S. unfold parse_sign, or_else, try_parse, bind. rewrite read_at by lia.
    rewrite skip_ws_head by (eapply head_not_ws, S). reflexivity.
  Qed.

  Lemma expect_ident_at a c r : (c < 128)%N -> is_name_start_char c = true ->
    expect_ident (at_ a (c :: r)) = Ok (c :: take_while is_name_char r) (at_ (a ++ c :: take_while is_name_char r) (drop_while is_name_char r)).
  Proof.
    intros L S. unfold expect_ident, bind, cursor. rewrite read_at by exact L. rewrite S. rewrite skip_matches_at.
    change (p_cursor (at_ a (c :: r))) with (blen a).
    pose proof (slice_from_at a (c :: take_while is_name_char r) (drop_while is_name_char r)) as H.
    rewrite <- !app_assoc. cbn [app]. exact H.
  Qed.

  Lemma metric_colon u : exists e q, parse_string parse_metric (58%N :: u) = Fail e q.
  Proof.
    unfold parse_string, bind. change (new (58%N :: u)) with (at_ [] (58%N :: u)). rewrite skip_ws_head by reflexivity.
    unfold parse_metric, or_else, try_parse, bind. rewrite expect_ident_at by (reflexivity || lia). cbn [app].
    assert (X : forall t, text_eqb (58%N :: take_while is_name_char u) t = true -> exists t', t = 58%N :: t').
    { intros t E. apply text_eqb_spec in E. eauto. }
    destruct (text_eqb _ (lit "h")) eqn:E1; [apply X in E1; destruct E1; discriminate|].
    destruct (text_eqb _ (lit "min")) eqn:E2; [apply X in E2; destruct E2; discriminate|].
    destruct (text_eqb _ (lit "s")) eqn:E3; [apply X in E3; destruct E3; discriminate|].
    destruct (text_eqb _ (lit "ms")) eqn:E4; [apply X in E4; destruct E4; discriminate|].
    clear X E1 E2 E3 E4. unfold fail, ret. cbn [p_input p_cursor at_]. cbn [app]. rewrite ?take_drop.
    change (P (58%N :: u) (blen [])) with (at_ [] (58%N :: u)). rewrite skip_ws_head by reflexivity.
    unfold expect_done. cbn [at_ p_cursor p_input app]. change (blen (58%N :: u)) with (1 + blen u).
    change (blen []) with 0. destruct (Nat.ltb_spec 0 (1 + blen u)); [|lia]. eauto.
  Qed.

  Lemma unit_fails_end a t : parse_unit t (at_ a []) = Fail EndOfInput (at_ a []).
  Proof. unfold parse_unit, bind, expect_ident, bind, cursor. rewrite read_end. reflexivity. Qed.
  Lemma unit_fails_colon a t r : exists e q, parse_unit t (at_ a (58%N :: r)) = Fail e q /\ p_input q = a ++ 58%N :: r.
  Proof.
    unfold parse_unit, bind. rewrite expect_ident_at by (reflexivity || lia).
    destruct (metric_colon (take_while is_name_char r)) as (e & q & ->). eexists; eexists; split; [reflexivity|].
    cbn [at_ p_input]. rewrite <- app_assoc. cbn [app]. rewrite take_drop. reflexivity.
  Qed.

  Lemma or_else_ok {A} (f g : parser -> out A) p v q : f p = Ok v q -> or_else f g p = Ok v q.
  Proof. intros E. unfold or_else, try_parse. rewrite E. reflexivity. Qed.
  Lemma or_else_fail {A} (f g : parser -> out A) a b e q : f (at_ a b) = Fail e q -> p_input q = a ++ b -> or_else f g (at_ a b) = g (at_ a b).
  Proof. intros E I. unfold or_else, try_parse. rewrite E, I. reflexivity. Qed.

  Lemma colon_end a t : parse_colon finite f32 t (at_ a []) = Fail EndOfInput (at_ a []).
  Proof. unfold parse_colon, bind. pose proof (expect_char_at 58 a []) as H. cbn iota in H. rewrite H by lia. reflexivity. Qed.
  Lemma expect_colon a r : expect_char 58 (at_ a (58%N :: r)) = Ok tt (at_ (a ++ [58%N]) r).
  Proof. pose proof (expect_char_at 58 a (58%N :: r)) as H. cbn iota in H. rewrite H by lia. reflexivity. Qed.

  (** What follows the first number. *)
  Definition after (t : dec) : parser -> out clock :=
    or_else (parse_unit t) (or_else (parse_colon finite f32 t) (ret (TimecountValue t Second))).
  Lemma after_end a t : after t (at_ a []) = Ok (TimecountValue t Second) (at_ a []).
  Proof.
    unfold after. rewrite (or_else_fail _ _ a [] _ _ (unit_fails_end a t)) by reflexivity.
    rewrite (or_else_fail _ _ a [] _ _ (colon_end a t)) by reflexivity. reflexivity.
  Qed.
  Lemma after_metric a t m : after t (at_ a (print_metric m)) = Ok (TimecountValue t m) (at_ (a ++ print_metric m) []).
  Proof.
    destruct m; try (rewrite app_nil_r; apply after_end);
      (unfold after; apply or_else_ok; unfold parse_unit, bind, print_metric; cbn [lit Ascii.N_of_ascii];
       match goal with |- context [at_ a ?l] => let l' := eval vm_compute in l in change l with l' end;
       rewrite expect_ident_at by (reflexivity || lia); cbn [take_while drop_while];
       match goal with |- context [parse_string parse_metric ?l] => let l' := eval vm_compute in l in change l with l' end;
       reflexivity).
  Qed.
  Lemma after_partial a t m u : spells u m -> finite m = true -> f32 m = m ->
    after t (at_ a (58%N :: u)) = Ok (PartialClockValue (to_int t) m) (at_ (a ++ 58%N :: u) []).
  Proof.
    intros S F R. unfold after. destruct (unit_fails_colon a t u) as (e & q & E & I).
    rewrite (or_else_fail _ _ _ _ _ _ E I). apply or_else_ok. unfold parse_colon, bind. rewrite expect_colon.
    pose proof (f32_at (a ++ [58%N]) u [] m S F R Logic.I) as H. rewrite app_nil_r in H. rewrite H by (intros (x & X); destruct x; discriminate).
    unfold try_parse. pose proof (expect_char_at 58 ((a ++ [58%N]) ++ u) []) as H2. cbn iota in H2. rewrite H2 by lia.
    cbn [p_input p_cursor at_]. unfold at_. rewrite <- !app_assoc. reflexivity.
  Qed.
  Lemma ends_no_dot t d r : spells t d -> ends_in 46%N (r ++ t) -> False.
  Proof. intros (H & E & _) X. rewrite ends_app in X; [contradiction|]. destruct t; [destruct H|discriminate]. Qed.
  Lemma after_full a t m u s w : spells u m -> finite m = true -> f32 m = m -> is_integer m = true ->
    spells w s -> finite s = true -> f32 s = s ->
    after t (at_ a (58%N :: u ++ 58%N :: w)) = Ok (FullClockValue (to_int t) (to_int m) s) (at_ (a ++ 58%N :: u ++ 58%N :: w) []).
  Proof.
    intros S F R IM S' F' R'. unfold after. destruct (unit_fails_colon a t (u ++ 58%N :: w)) as (e & q & E & I).
    rewrite (or_else_fail _ _ _ _ _ _ E I). apply or_else_ok. unfold parse_colon, bind. rewrite expect_colon.
    rewrite (f32_at (a ++ [58%N]) u (58%N :: w) m S F R); [|left; reflexivity|intros X; exact (ends_no_dot w s [58%N] S' X)].
    unfold try_parse. rewrite expect_colon. rewrite IM.
    pose proof (f32_at (((a ++ [58%N]) ++ u) ++ [58%N]) w [] s S' F' R' Logic.I) as H. rewrite app_nil_r in H. rewrite H by (intros (x & X); destruct x; discriminate).
    cbn [ret]. rewrite <- !app_assoc. reflexivity.
  Qed.

  Lemma clock_start t d r (n : bool) : spells t d -> finite d = true -> f32 d = d ->
    match r with [] => True | c :: _ => unit_start c end -> ~ ends_in 46%N r ->
    exists a, parse_clock finite f32 (at_ [] ((if n then 45%N :: t else t) ++ r)) = after (apply_sign n d) (at_ a r) /\
      a ++ r = (if n then 45%N :: t else t) ++ r.
  Proof.
    intros S F R U E. unfold parse_clock. fold after. destruct n.
    - exists (45%N :: t). split; [|reflexivity]. unfold bind. cbn [app]. rewrite skip_ws_head by reflexivity.
      rewrite (sign_minus [] t d r S). cbn [app].
      rewrite (f32_at [45%N] t r d S F R U E). reflexivity.
    - exists t. split; [|reflexivity]. unfold bind. rewrite skip_ws_head by (eapply head_not_ws, S).
      rewrite (sign_none [] t d r S). rewrite (f32_at [] t r d S F R U E). reflexivity.
  Qed.
  Lemma apply_sign_same d : apply_sign (neg d) (Dec false (dig d) (ex d)) = d.
  Proof. destruct d as [n ds e]. unfold apply_sign. cbn. rewrite xorb_false_r. reflexivity. Qed.
  Lemma apply_sign_false d : neg d = false -> apply_sign false d = d.
  Proof. destruct d as [n ds e]. cbn. intros ->. reflexivity. Qed.
  Lemma to_int_value d z : (0 <= z <= 2147483647)%Z -> neg d = false -> value_is d false z 0 -> to_int d = z.
  Proof. intros B N V. destruct (value_magnitude d z) as [M _]; [lia|exact V|]. unfold to_int. rewrite N, M. lia. Qed.

  Lemma parse_string_full {A} (f : parser -> out A) t c : match t with [] => False | x :: _ => is_whitespace x = false end ->
    f (at_ [] t) = Ok c (at_ t []) -> exists q, parse_string f t = Ok c q.
  Proof.
    intros W E. unfold parse_string, bind. change (new t) with (at_ [] t).
    rewrite skip_ws_head by (destruct t; auto). rewrite E. rewrite skip_ws_head by exact I.
    unfold expect_done. cbn [at_ p_cursor p_input]. rewrite app_nil_r, Nat.ltb_irrefl. eexists. reflexivity.
  Qed.

  Variable print : dec -> text.
  Lemma pad_number_spells s : printable finite f32 print s -> neg s = false ->
    spells (pad_number print s) s /\ finite s = true /\ f32 s = s.
  Proof.
    intros (F & R & t & S & E) N. assert (D : Dec false (dig s) (ex s) = s) by (destruct s; cbn in N; subst; reflexivity).
    rewrite D in *. rewrite N in E. unfold pad_number. rewrite E. split; [destruct (less_than_10 s); [apply spells_pad|]; exact S|auto].
  Qed.
  Lemma pad_int_spells z : exact_int finite f32 z -> exists d, spells (pad_int z) d /\ finite d = true /\ f32 d = d /\ to_int d = z /\ is_integer d = true /\ neg d = false.
  Proof.
    intros [B X]. destruct (pad_int_spec z) as (F & NE & V); [lia|]. destruct (spells_digits _ _ F NE V) as (d & S & N & C & VI).
    exists d. destruct (X d N C VI) as [F' R]. split; [exact S|]. split; [exact F'|]. split; [exact R|].
    split; [apply (to_int_value d z B N VI)|]. split; [|exact N]. apply (value_magnitude d z); [lia|exact VI].
  Qed.

  Lemma timecount_text t m : print_clock print (TimecountValue t m) = print t ++ print_metric m.
  Proof. destruct m; reflexivity. Qed.
  Lemma clock_round_trip c : clock_ok finite f32 print c ->
    exists q, parse_string (parse_clock finite f32) (print_clock print c) = Ok c q.
  Proof.
    intros OK. destruct c as [h m s|m s|t m]; cbn [clock_ok] in OK.
    - cbn [print_clock]. destruct OK as (H & M & S & N). destruct (pad_int_spells h H) as (dh & SH & FH & RH & IH & _ & NH).
      destruct (pad_int_spells m M) as (dm & SM & FM & RM & IM & ZM & _). destruct (pad_number_spells s S N) as (SS & FS & RS).
      apply parse_string_full; [pose proof (head_not_ws _ _ (58%N :: pad_int m ++ 58%N :: pad_number print s) SH) as W; destruct (pad_int h); [destruct SH as [[] _]|exact W]|].
      destruct (clock_start (pad_int h) dh (58%N :: pad_int m ++ 58%N :: pad_number print s) false SH FH RH) as (a & E & EA).
      { left; reflexivity. } { intros X. apply (ends_no_dot _ _ (58%N :: pad_int m ++ [58%N]) SS). cbn [app]. rewrite <- app_assoc. exact X. }
      rewrite E. rewrite (apply_sign_false dh NH). rewrite (after_full a dh dm _ s _ SM FM RM ZM SS FS RS). rewrite IH, IM, EA. reflexivity.
    - cbn [print_clock]. destruct OK as (M & S & N). destruct (pad_int_spells m M) as (dm & SM & FM & RM & IM & ZM & NM). destruct (pad_number_spells s S N) as (SS & FS & RS).
      apply parse_string_full; [pose proof (head_not_ws _ _ (58%N :: pad_number print s) SM) as W; destruct (pad_int m); [destruct SM as [[] _]|exact W]|].
      destruct (clock_start (pad_int m) dm (58%N :: pad_number print s) false SM FM RM) as (a & E & EA).
      { left; reflexivity. } { intros X. exact (ends_no_dot _ _ [58%N] SS X). }
      rewrite E. rewrite (apply_sign_false dm NM). rewrite (after_partial a dm s _ SS FS RS). rewrite IM, EA. reflexivity.
    - destruct OK as (F & R & u & S & E). rewrite timecount_text. rewrite E.
      apply parse_string_full.
      { pose proof (head_not_ws _ _ (print_metric m) S) as W. destruct (neg t); [reflexivity|]. destruct u; [destruct S as [[] _]|exact W]. }
      destruct (clock_start u _ (print_metric m) (neg t) S F R) as (a & E' & EA).
      { destruct m; cbn; unfold unit_start; auto. }
      { intros (x & X). destruct m; cbn in X; repeat (destruct x as [|? x]; try discriminate). }
      etransitivity; [exact E'|]. rewrite apply_sign_same. rewrite after_metric. rewrite EA. reflexivity.
  Qed.
End Read.
