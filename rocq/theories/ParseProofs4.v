From Coq Require Import String List NArith ZArith Bool Arith Lia.
From Verif Require Import Chars ParseModel ParseSpec ParseProofs ParseProofs2 ParseProofs3.
Import ListNotations.

Section WithFinite.
Variable finite : dec -> bool.

Lemma f64_sound a b d q : ~ ends_in DOT b -> parse_f64 finite (at_ a b) = Ok d q ->
  exists w t r n m e, b = w ++ t ++ r /\ Forall (fun c => is_whitespace c = true) w /\
    number t n m e /\ value_is d n m e /\ q = at_ (a ++ w ++ t) r /\
    forall u v, r = u ++ v -> is_number (t ++ u) -> u = [].
Proof.
  intros ND H. pose proof (dots_ok_not_ends _ (not_ends_drop DOT is_whitespace b ND)) as DO.
  destruct (parse_f64_at finite a b DO) as [(q' & E & _)|(d' & AC & E)]; rewrite H in E; [discriminate|].
  injection E as <- ->. apply accept_number in AC. destruct AC as [_ AC]. apply rust_f64_sound in AC.
  destruct AC as (n & m & e & N & V).
  exists (take_while is_whitespace b), (fst (scan (drop_while is_whitespace b))), (snd (scan (drop_while is_whitespace b))), n, m, e.
  split; [rewrite scan_app, take_drop; reflexivity|]. split; [apply take_while_all|]. split; [exact N|]. split; [exact V|].
  split; [reflexivity|]. intros u v E U. eapply scan_maximal; [|exact E|exact U]. exists n, m, e. exact N.
Qed.

Lemma f64_no_panic a b : ~ ends_in DOT b ->
  (exists d t r, b = t ++ r /\ t <> [] /\ parse_f64 finite (at_ a b) = Ok d (at_ (a ++ t) r)) \/
  (exists e q, parse_f64 finite (at_ a b) = Fail e q /\ p_input q = a ++ b).
Proof.
  intros ND. pose proof (dots_ok_not_ends _ (not_ends_drop DOT is_whitespace b ND)) as DO.
  destruct (parse_f64_at finite a b DO) as [(q' & E & I)|(d' & AC & E)].
  - right. exists InvalidNumber, q'. auto.
  - left. exists d', (take_while is_whitespace b ++ fst (scan (drop_while is_whitespace b))), (snd (scan (drop_while is_whitespace b))).
    split; [rewrite <- app_assoc, scan_app, take_drop; reflexivity|]. split; [|exact E].
    intros X. apply app_eq_nil in X. destruct X as [_ X]. rewrite X in AC. discriminate.
Qed.

Lemma number_head t n m e : number t n m e -> exists c t', t = c :: t' /\ is_whitespace c = false.
Proof.
  intros (s & i & tf & f & te & x & -> & SG & I & FR & NE & EX & _ & _).
  assert (DW : forall c, digit c -> is_whitespace c = false).
  { intros c D. unfold digit in D. unfold is_whitespace. repeat rewrite orb_false_iff.
    repeat split; rewrite ?andb_false_iff, ?N.eqb_neq, ?N.leb_gt; lia. }
  destruct SG as [[-> _]|[[-> _]|[-> _]]].
  - destruct i as [|c i].
    + destruct FR as [[-> ->]|[-> _]]; [contradiction|]. eexists _, _. split; [reflexivity|reflexivity].
    + eexists _, _. split; [reflexivity|]. apply DW. inversion I; auto.
  - eexists _, _. split; [reflexivity|reflexivity].
  - eexists _, _. split; [reflexivity|reflexivity].
Qed.

Lemma f64_exact_dec a w t r d : Forall (fun c => is_whitespace c = true) w -> is_number t -> stops t r -> ~ ends_in DOT r ->
  rust_f64 t = Some d -> finite d = true ->
  parse_f64 finite (at_ a (w ++ t ++ r)) = Ok d (at_ (a ++ w ++ t) r).
Proof.
  intros W N S ED R F.
  destruct (scan_exact t r N S ED) as [SC DO].
  assert (TW : take_while is_whitespace (w ++ t ++ r) = w /\ drop_while is_whitespace (w ++ t ++ r) = t ++ r).
  { apply take_while_app; [exact W|]. destruct N as (n & m & e & N). destruct (number_head _ _ _ _ N) as (c & t' & -> & C). exact C. }
  destruct TW as [T1 T2].
  pose proof (parse_f64_at finite a (w ++ t ++ r)) as H. cbv zeta in H. rewrite T1, T2, SC in H. cbn [fst snd] in H.
  assert (A : accept finite t = Some d) by (unfold accept; rewrite R, F; reflexivity).
  destruct (H DO) as [(q & E & _)|(d' & AC & E)].
  - exfalso. revert E. unfold parse_f64, bind, skip_whitespace, cursor. rewrite skip_matches_at, T1, T2.
    destruct DO as [D1 D2]. rewrite skip_mantissa_at by exact D1. rewrite skip_exponent_at by exact D2.
    unfold scan in SC. destruct (exp_split (mant_rest (t ++ r))) as [x r'] eqn:EX. injection SC as ST ->. cbn [fst snd].
    replace (p_cursor (at_ (a ++ w) (t ++ r))) with (blen (a ++ w)) by reflexivity.
    assert (X1 : forall y, x <> [y]).
    { intros y ->. rewrite <- ST in R. 
      assert (Y : y = 101%N \/ y = 69%N).
      { unfold exp_split in EX. destruct (mant_rest (t ++ r)) as [|c z]; [discriminate|].
        destruct (N.eqb c 101 || N.eqb c 69) eqn:CE; [|discriminate]. apply is_e in CE.
        destruct z as [|u z]; [inversion EX; subst; clear EX; exact CE|]. destruct (N.eqb u 120 || N.eqb u 109); [discriminate|].
        inversion EX; subst; clear EX. exact CE. }
      clear - R Y. revert R. generalize (mant_part (t ++ r)) as p. intros p R.
      assert (LD : exists c p', p ++ [y] = p' ++ [c] /\ (digit c \/ c = DOT)).
      { apply rust_f64_sound in R. destruct R as (n & m & e & (s & i & tf & f & te & x & E & SG & I & FR & NE & EX & _ & _) & _).
        rewrite E. destruct EX as [[-> _]|(l & s' & n' & ds & -> & L & S' & DN & DS & ->)].
        - destruct FR as [[-> ->]|[-> F]].
          + rewrite !app_nil_r in *. destruct (exists_last NE) as (i' & c & ->). exists c, (s ++ i'). rewrite app_assoc. split; [reflexivity|].
            apply Forall_app in I. destruct I as [_ I]. inversion I; auto.
          + destruct f as [|f0 f].
            * exists DOT, (s ++ i). rewrite app_nil_r, app_assoc. auto.
            * destruct (exists_last (l := f0 :: f)) as (f' & c & E'); [discriminate|]. rewrite E' in *.
              exists c, (s ++ i ++ 46%N :: f'). rewrite app_nil_r, <- !app_assoc. split; [reflexivity|].
              apply Forall_app in F. destruct F as [_ F]. inversion F; auto.
        - destruct (exists_last DN) as (ds' & c & ->). exists c, (s ++ i ++ tf ++ l :: s' ++ ds').
          rewrite <- !app_assoc. cbn [app]. rewrite <- !app_assoc. split; [reflexivity|].
          apply Forall_app in DS. destruct DS as [_ DS]. inversion DS; auto. }
      destruct LD as (c & p' & E & C). apply app_inj_tail in E. destruct E as [_ <-]. unfold digit, DOT in *. lia. }
    assert (FIN : forall z, match slice_from (blen (a ++ w)) (at_ ((a ++ w) ++ t) r) with
     | Ok a0 p => match rust_f64 a0 with Some d => if finite d then ret d else fail InvalidNumber | None => fail InvalidNumber end p
     | Fail e p => Fail e p | Panic => Panic | Loop => Loop end <> Fail InvalidNumber z).
    { intros z. rewrite slice_from_at, R, F. discriminate. }
    rewrite <- ST in FIN. rewrite app_assoc in FIN.
    destruct x as [|x0 [|x1 x2]]; [apply FIN| |apply FIN]. destruct (X1 x0 eq_refl).
  - rewrite A in AC. injection AC as <-. exact E.
Qed.

Lemma f64_takes a w t r n m e : Forall (fun c => is_whitespace c = true) w -> number t n m e -> stops t r -> ~ ends_in DOT r ->
  exists d, value_is d n m e /\
    (finite d = true -> parse_f64 finite (at_ a (w ++ t ++ r)) = Ok d (at_ (a ++ w ++ t) r)).
Proof.
  intros W N S ED. destruct (rust_f64_complete _ _ _ _ N) as (d & R & V). exists d. split; [exact V|].
  intros F. apply f64_exact_dec; auto. exists n, m, e. exact N.
Qed.
End WithFinite.

Lemma matches_at f a b : exists t r, span f b t r /\
  take_matches f (at_ a b) = Ok t (at_ (a ++ t) r) /\ skip_matches f (at_ a b) = Ok tt (at_ (a ++ t) r).
Proof.
  exists (take_while f b), (drop_while f b). split; [apply span_take|]. split; [apply take_matches_at|apply skip_matches_at].
Qed.
Lemma skip_char_partial c a b : ~ ends_in c b -> exists t r, span (N.eqb c) b t r /\ skip_char c (at_ a b) = Ok tt (at_ (a ++ t) r).
Proof.
  intros H. exists (take_while (N.eqb c) b), (drop_while (N.eqb c) b). split; [apply span_take|].
  apply skip_char_at, not_ends_drop, H.
Qed.
Lemma skip_char_all c a n : skip_char c (at_ a (repeat c n)) = Ok tt (at_ (a ++ repeat c n) []).
Proof.
  assert (D : drop_while (N.eqb c) (repeat c n) = []).
  { induction n; simpl; auto. rewrite N.eqb_refl. exact IHn. }
  pose proof (take_drop (N.eqb c) (repeat c n)) as T. rewrite D, app_nil_r in T.
  rewrite skip_char_at; rewrite D; [rewrite T; reflexivity|]. intros (t & E). destruct t; discriminate.
Qed.
Lemma expect_matches_spec f a b :
  (exists t r, span f b t r /\ t <> [] /\ expect_matches f (at_ a b) = Ok t (at_ (a ++ t) r)) \/
  (expect_matches f (at_ a b) = Fail ExpectedMatch (at_ a b) /\ match b with [] => True | c :: _ => f c = false end).
Proof.
  rewrite expect_matches_at. destruct (take_while f b) as [|c t] eqn:E.
  - right. split; [reflexivity|]. destruct b as [|c b]; auto. simpl in E. destruct (f c); [discriminate|reflexivity].
  - left. exists (c :: t), (drop_while f b). split; [rewrite <- E; apply span_take|]. split; [discriminate|reflexivity].
Qed.
Lemma try_parse_spec {A} (f : parser -> out A) p :
  (forall e q, try_parse f p = Fail e q -> p_cursor q = p_cursor p) /\
  (forall v q, try_parse f p = Ok v q <-> f p = Ok v q).
Proof.
  split; [intros e q; apply try_parse_restores|]. intros v q. unfold try_parse. destruct (f p); split; congruence.
Qed.
Lemma read_spec a b :
  match b with
  | [] => read (at_ a b) = Fail EndOfInput (at_ a b)
  | c :: r => (c < 128)%N -> read (at_ a b) = Ok c (at_ (a ++ [c]) r)
  end.
Proof. destruct b as [|c r]; [apply read_end|apply read_at]. Qed.
