From Coq Require Import String List NArith ZArith Bool Arith Lia.
From Verif Require Import Chars ParseModel ParseSpec ParseProofs.
Import ListNotations.

(** ** The reference reading of a number text *)
Lemma digit_spec c : is_ascii_digit c = true <-> digit c.
Proof. unfold is_ascii_digit, digit. rewrite andb_true_iff, !N.leb_le. tauto. Qed.
Lemma digit_false c : is_ascii_digit c = false <-> ~ digit c.
Proof. rewrite <- digit_spec. destruct (is_ascii_digit c); split; congruence. Qed.

Lemma digits_app t c u : is_ascii_digit c = false ->
  digits (t ++ c :: u) = (fst (digits t), snd (digits t) ++ c :: u).
Proof.
  intros C. induction t as [|x t IH]; simpl.
  - rewrite C. reflexivity.
  - destruct (is_ascii_digit x); [|reflexivity]. rewrite IH. destruct (digits t). reflexivity.
Qed.
Lemma digits_all t : Forall digit t -> digits t = (map (fun c => (c - 48)%N) t, []).
Proof.
  induction 1 as [|c t C A IH]; simpl; auto. apply digit_spec in C. rewrite C, IH. reflexivity.
Qed.
Lemma digits_all_app t u : Forall digit t -> match u with [] => True | c :: _ => ~ digit c end ->
  digits (t ++ u) = (map (fun c => (c - 48)%N) t, u).
Proof.
  intros A U. destruct u as [|c u].
  - rewrite app_nil_r. apply digits_all, A.
  - apply digit_false in U. rewrite digits_app by exact U. rewrite digits_all by exact A. reflexivity.
Qed.
Lemma digits_split t d r : digits t = (d, r) ->
  exists i, t = i ++ r /\ Forall digit i /\ d = map (fun c => (c - 48)%N) i /\
            match r with [] => True | c :: _ => ~ digit c end.
Proof.
  revert d r. induction t as [|x t IH]; simpl; intros d r E.
  - inversion E; subst. exists []. repeat split; auto.
  - destruct (is_ascii_digit x) eqn:X.
    + destruct (digits t) as [d' r'] eqn:E'. inversion E; subst.
      destruct (IH _ _ eq_refl) as (i & -> & A & -> & R). exists (x :: i). repeat split; auto.
      constructor; auto. apply digit_spec, X.
    + inversion E; subst. exists []. repeat split; auto. apply digit_false, X.
Qed.
Lemma map_digit_value i : Forall digit i -> of_digits (map (fun c => (c - 48)%N) i) = digits_value i.
Proof.
  unfold of_digits, digits_value. generalize 0%Z as z.
  induction i as [|c i IH]; intros z A; [reflexivity|]. inversion A; subst. simpl. rewrite IH by assumption.
  f_equal. unfold digit in *. lia.
Qed.

(** the decimal's value is unchanged by taking the shortest form *)
Lemma of_digits_app a b : of_digits (a ++ b) = (of_digits a * 10 ^ Z.of_nat (List.length b) + of_digits b)%Z.
Proof.
  unfold of_digits. rewrite fold_left_app. generalize (fold_left (fun a c => (10 * a + Z.of_N c)%Z) a 0%Z) as z.
  induction b as [|c b IH] using rev_ind; intros z.
  - simpl. lia.
  - rewrite !fold_left_app. cbn [fold_left]. rewrite IH, app_length, Nat2Z.inj_add, Z.pow_add_r by lia. cbn [List.length].
    change (10 ^ Z.of_nat 1)%Z with 10%Z. ring.
Qed.
Lemma of_digits_zeros n : of_digits (repeat 0%N n) = 0%Z.
Proof. induction n as [|n IH]; [reflexivity|]. change (repeat 0%N (S n)) with ([0%N] ++ repeat 0%N n). rewrite of_digits_app, IH. reflexivity. Qed.
Lemma drop_zeros l : exists n, l = repeat 0%N n ++ drop_while (N.eqb 0) l.
Proof.
  induction l as [|c l (n & IH)]; simpl; [exists 0; reflexivity|].
  destruct c as [|c]; [exists (S n)|exists 0; reflexivity]. simpl. rewrite <- IH. reflexivity.
Qed.
Lemma rev_repeat {A} (x : A) n : rev (repeat x n) = repeat x n.
Proof.
  induction n; simpl; auto. rewrite IHn. clear. induction n; simpl; congruence.
Qed.

Lemma shortest_value n l e : value_is (shortest n l e) n (of_digits l) e.
Proof.
  unfold shortest. destruct (drop_zeros l) as (z1 & E1). set (ds := drop_while (N.eqb 0) l) in *.
  destruct (drop_zeros (rev ds)) as (z2 & E2).
  assert (O1 : of_digits l = of_digits ds).
  { rewrite E1, of_digits_app, of_digits_zeros. lia. }
  destruct (drop_while (N.eqb 0) (rev ds)) as [|c r] eqn:E.
  - split; [reflexivity|]. simpl. rewrite app_nil_r in E2.
    apply (f_equal (@rev N)) in E2. rewrite rev_involutive, rev_repeat in E2.
    rewrite O1, E2, of_digits_zeros. reflexivity.
  - split; [reflexivity|]. cbn [dig ex].
    apply (f_equal (@rev N)) in E2. rewrite rev_involutive, rev_app_distr, rev_repeat in E2.
    assert (L : List.length ds = List.length (c :: r) + z2).
    { rewrite E2, app_length, rev_length, repeat_length. reflexivity. }
    set (X := rev (c :: r)) in *.
    replace (e + (Z.of_nat (List.length ds) - Z.of_nat (List.length (c :: r))))%Z with (e + Z.of_nat z2)%Z by lia.
    replace (Z.min (e + Z.of_nat z2) e) with e by lia.
    replace (e + Z.of_nat z2 - e)%Z with (Z.of_nat z2) by lia.
    rewrite Z.sub_diag, Z.pow_0_r, Z.mul_1_r, O1, E2, of_digits_app, of_digits_zeros, repeat_length. lia.
Qed.

Lemma last_rev_cons {A} (c : A) r d : last (rev (c :: r)) d = c.
Proof. simpl. apply last_last. Qed.
Lemma shortest_canonical n l e : Forall (fun c => (c < 10)%N) l -> canonical (shortest n l e).
Proof.
  intros L. unfold shortest. destruct (drop_zeros l) as (z1 & E1). pose proof (drop_while_head (N.eqb 0) l) as H1.
  set (ds := drop_while (N.eqb 0) l) in *.
  destruct (drop_zeros (rev ds)) as (z2 & E2). pose proof (drop_while_head (N.eqb 0) (rev ds)) as H2.
  destruct (drop_while (N.eqb 0) (rev ds)) as [|c r] eqn:E; [reflexivity|].
  apply (f_equal (@rev N)) in E2. rewrite rev_involutive, rev_app_distr, rev_repeat in E2.
  unfold canonical. cbn [dig]. apply N.eqb_neq in H2.
  assert (F : Forall (fun c => (c < 10)%N) (rev (c :: r))).
  { rewrite E1 in L. apply Forall_app in L. destruct L as [_ L]. rewrite E2 in L. apply Forall_app in L. tauto. }
  pose proof (last_rev_cons c r 0%N) as LR.
  destruct (rev (c :: r)) as [|x y] eqn:R.
  { apply (f_equal (@List.length N)) in R. rewrite rev_length in R. discriminate. }
  split; [|split; [|exact F]].
  - rewrite E2 in H1. simpl in H1. destruct x; [discriminate|discriminate].
  - rewrite LR. congruence.
Qed.

Lemma sign_split t n r : sign t = (n, r) -> exists s, t = s ++ r /\ sign_text s n.
Proof.
  destruct t as [|c t]; simpl.
  - intros E; inversion E; subst. exists []. split; [reflexivity|left; auto].
  - destruct (N.eqb_spec c 45) as [->|D].
    + intros E; inversion E; subst. exists [45%N]. split; [reflexivity|right; right; auto].
    + destruct (N.eqb_spec c 43) as [->|D'].
      * intros E; inversion E; subst. exists [43%N]. split; [reflexivity|right; left; auto].
      * intros E; inversion E; subst. exists []. split; [reflexivity|left; auto].
Qed.
Lemma sign_app s n r : sign_text s n -> match r with [] => True | c :: _ => is_sign c = false end ->
  sign (s ++ r) = (n, r).
Proof.
  intros S R. destruct S as [[-> ->]|[[-> ->]|[-> ->]]]; simpl; auto.
  destruct r as [|c r]; [reflexivity|]. simpl. unfold is_sign in R. apply orb_false_iff in R. destruct R as [-> ->]. reflexivity.
Qed.
Lemma is_e c : N.eqb c 101 || N.eqb c 69 = true <-> c = 101%N \/ c = 69%N.
Proof. rewrite orb_true_iff, !N.eqb_eq. tauto. Qed.

Lemma rust_f64_sound t d : rust_f64 t = Some d -> exists n m e, number t n m e /\ value_is d n m e.
Proof.
  unfold rust_f64. destruct (sign t) as [n s1] eqn:E1. destruct (digits s1) as [i s2] eqn:E2.
  apply sign_split in E1. destruct E1 as (sg & -> & SG).
  apply digits_split in E2. destruct E2 as (it & -> & IT & -> & R2).
  set (p := match s2 with
     | [] => ([], s2)
     | c :: s' => if (c =? DOT)%N then digits s' else ([], s2)
     end).
  destruct p as [f s3] eqn:E3. subst p.
  assert (HF : exists tf ft, s2 = tf ++ s3 /\ fraction tf ft /\ Forall digit ft /\ f = map (fun c => (c - 48)%N) ft).
  { destruct s2 as [|c s'].
    - inversion E3; subst. exists [], []. split; [reflexivity|]. split; [left; auto|]. auto.
    - destruct (N.eqb_spec c DOT) as [->|D].
      + apply digits_split in E3. destruct E3 as (ft & -> & FT & -> & R3). exists (DOT :: ft), ft.
        split; [reflexivity|]. split; [right; auto|]. auto.
      + inversion E3; subst. exists [], []. split; [reflexivity|]. split; [left; auto|]. auto. }
  destruct HF as (tf & ft & -> & FR & FT & ->). clear E3 R2.
  rewrite <- map_app. set (m := it ++ ft).
  assert (M : Forall digit m) by (apply Forall_app; auto).
  destruct (map (fun c => (c - 48)%N) m) as [|y ys] eqn:EM; [discriminate|].
  assert (NE : m <> []) by (intros ->; discriminate).
  rewrite <- EM. clear EM y ys.
  destruct s3 as [|c s3].
  - intros E; inversion E; subst. exists n, (digits_value m), (- Z.of_nat (List.length ft))%Z. split.
    + exists sg, it, tf, ft, [], 0%Z. split; [reflexivity|]. split; [exact SG|]. split; [exact IT|]. split; [exact FR|].
      split; [exact NE|]. split; [left; auto|]. split; [reflexivity|lia].
    + rewrite <- map_digit_value, map_length by exact M. apply shortest_value.
  - destruct (N.eqb c 101 || N.eqb c 69) eqn:EE; [|discriminate]. apply is_e in EE.
    destruct (sign s3) as [en s4] eqn:E4. apply sign_split in E4. destruct E4 as (es & -> & ES).
    destruct (digits s4) as [e s5] eqn:E5. apply digits_split in E5. destruct E5 as (et & -> & ET & -> & _).
    destruct et as [|e0 et]; [discriminate|]. destruct s5 as [|? ?]; [|discriminate].
    cbn [map]. intros E; inversion E; subst. exists n, (digits_value m),
      ((if en then - digits_value (e0 :: et) else digits_value (e0 :: et)) - Z.of_nat (List.length ft))%Z. split.
    + exists sg, it, tf, ft, (c :: es ++ (e0 :: et) ++ []), (if en then - digits_value (e0 :: et) else digits_value (e0 :: et))%Z.
      split; [reflexivity|]. split; [exact SG|]. split; [exact IT|]. split; [exact FR|].
      split; [exact NE|]. split; [|split; [reflexivity|reflexivity]].
      right. exists c, es, en, (e0 :: et). rewrite app_nil_r. repeat split; auto. discriminate.
    + rewrite map_length. change ((e0 - 48)%N :: map (fun c : N => (c - 48)%N) et) with (map (fun c : N => (c - 48)%N) (e0 :: et)).
      rewrite !map_digit_value by assumption. rewrite <- map_digit_value with (i := m) by exact M. apply shortest_value.
Qed.

Lemma digit_not_sign c : digit c -> is_sign c = false.
Proof. unfold digit, is_sign. intros H. apply orb_false_iff. rewrite !N.eqb_neq. lia. Qed.
Lemma digit_not_e c : digit c -> ~ (c = 101%N \/ c = 69%N).
Proof. unfold digit. lia. Qed.

Lemma rust_f64_complete t n m e : number t n m e -> exists d, rust_f64 t = Some d /\ value_is d n m e.
Proof.
  intros (s & i & tf & f & te & x & -> & SG & I & FR & NE & EX & -> & ->).
  assert (FD : Forall digit f) by (destruct FR as [[_ ->]|[_ F]]; auto).
  assert (HTE : match te with [] => True | c :: _ => ~ digit c /\ c <> DOT /\ is_sign c = false end).
  { destruct EX as [[-> _]|(l & s' & n' & ds & -> & L & _)]; auto. unfold digit, DOT, is_sign.
    destruct L as [->| ->]; split; try lia; split; try lia; reflexivity. }
  assert (HTF : match tf ++ te with [] => True | c :: _ => ~ digit c end).
  { destruct FR as [[-> _]|[-> _]]; simpl; [destruct te; tauto|unfold digit; lia]. }
  unfold rust_f64. rewrite (sign_app s n); [|exact SG|].
  2:{ destruct i as [|c i]; simpl; [|apply digit_not_sign; inversion I; auto].
      destruct FR as [[-> ->]|[-> _]]; simpl; [contradiction|reflexivity]. }
  rewrite (digits_all_app i (tf ++ te)) by assumption.
  match goal with |- context [match ?X with pair _ _ => _ end] =>
    assert (HF : X = (map (fun c => (c - 48)%N) f, te)) end.
  { destruct FR as [[-> ->]|[-> F]]; simpl.
    - destruct te as [|c te]; [reflexivity|]. destruct HTE as (_ & D & _). apply N.eqb_neq in D. rewrite D. reflexivity.
    - apply digits_all_app; [exact F|]. destruct te; tauto. }
  rewrite HF. rewrite <- map_app.
  assert (M : Forall digit (i ++ f)) by (apply Forall_app; auto).
  destruct (map (fun c => (c - 48)%N) (i ++ f)) as [|y ys] eqn:EM.
  { destruct (i ++ f); [contradiction|discriminate]. }
  rewrite <- EM. clear EM.
  destruct EX as [[-> ->]|(l & s' & n' & ds & -> & L & S' & DN & DS & ->)].
  - eexists. split; [reflexivity|]. rewrite map_length, <- map_digit_value by exact M. apply shortest_value.
  - apply is_e in L. rewrite L. rewrite (sign_app s' n'); [|exact S'|].
    2:{ destruct ds; [contradiction|]. inversion DS; subst. apply digit_not_sign; auto. }
    rewrite digits_all by exact DS. destruct ds as [|d0 ds]; [contradiction|]. cbn [map].
    eexists. split; [reflexivity|]. rewrite map_length. 
    change ((d0 - 48)%N :: map (fun c : N => (c - 48)%N) ds) with (map (fun c : N => (c - 48)%N) (d0 :: ds)).
    rewrite map_digit_value with (i := d0 :: ds) by exact DS. rewrite <- map_digit_value with (i := i ++ f) by exact M.
    apply shortest_value.
Qed.

(** ** Longer number texts *)
Lemma rust_f64_none_extend t c u d d' : rust_f64 t = Some d -> rust_f64 (t ++ c :: u) = Some d' ->
  digit c \/ (c = DOT /\ ~ In DOT t /\ ~ In 101%N t /\ ~ In 69%N t) \/
  ((c = 101%N \/ c = 69%N) /\ ~ In 101%N t /\ ~ In 69%N t /\ exists x u', u = x :: u' /\ (is_sign x = true \/ digit x)).
Proof.
  intros E E'. destruct (is_ascii_digit c) eqn:C; [left; apply digit_spec, C|]. right. revert E E'.
  unfold rust_f64.
  assert (S : forall t, t <> [] -> sign (t ++ c :: u) = (fst (sign t), snd (sign t) ++ c :: u)).
  { intros [|x t']; [contradiction|]. simpl. destruct (N.eqb x 45); [reflexivity|]. destruct (N.eqb x 43); reflexivity. }
  destruct t as [|t0 t1]; [discriminate|]. rewrite S by discriminate.
  remember (t0 :: t1) as t eqn:ET. clear ET t0 t1.
  destruct (sign t) as [n s1] eqn:E1. apply sign_split in E1. destruct E1 as (sg & -> & SG). cbn [fst snd].
  rewrite digits_app by exact C. destruct (digits s1) as [i s2] eqn:E2. cbn [fst snd].
  apply digits_split in E2. destruct E2 as (it & -> & IT & -> & R2).
  assert (NS : forall x, In x sg -> is_sign x = true).
  { intros x. destruct SG as [[-> _]|[[-> _]|[-> _]]]; simpl; [intros []|intros [<-|[]]; reflexivity|intros [<-|[]]; reflexivity]. }
  assert (ND : forall x, In x it -> digit x) by (apply Forall_forall; exact IT).
  assert (K : forall x, is_sign x = false -> ~ digit x -> ~ In x (sg ++ it)).
  { intros x A B I. apply in_app_iff in I. destruct I as [I|I]; [apply NS in I; congruence|apply ND in I; auto]. }
  destruct s2 as [|c2 s2].
  - cbn [app]. destruct (N.eqb_spec c DOT) as [->|D].
    + intros _ _. left. rewrite app_nil_r. split; [reflexivity|].
      split; [|split]; apply K; try reflexivity; unfold digit, DOT; lia.
    + intros _. rewrite app_nil_r. destruct (map (fun c0 : N => (c0 - 48)%N) it); [discriminate|].
      destruct (N.eqb c 101 || N.eqb c 69) eqn:EE; [|discriminate]. apply is_e in EE.
      intros X. right. split; [exact EE|]. rewrite app_nil_r.
      split; [apply K; [reflexivity|unfold digit; lia]|]. split; [apply K; [reflexivity|unfold digit; lia]|].
      destruct u as [|x u]; [discriminate|]. exists x, u. split; [reflexivity|].
      destruct (is_sign x) eqn:SX; [auto|right]. apply orb_false_iff in SX. destruct SX as [S1 S2].
      cbn [sign] in X. rewrite S1, S2 in X. cbn [digits] in X.
      destruct (is_ascii_digit x) eqn:DX; [apply digit_spec, DX|discriminate].
  - cbn [app]. destruct (N.eqb_spec c2 DOT) as [->|D].
    + rewrite digits_app by exact C. destruct (digits s2) as [f s3] eqn:E3. cbn [fst snd].
      destruct (map (fun c0 : N => (c0 - 48)%N) it ++ f); [discriminate|].
      destruct s3 as [|c3 s3]; cbn [app].
      * intros _ X. destruct (N.eqb c 101 || N.eqb c 69) eqn:EE; [|discriminate]. apply is_e in EE.
        right. split; [exact EE|].
        apply digits_split in E3. destruct E3 as (ft & -> & FT & -> & _).
        assert (K' : forall x, is_sign x = false -> ~ digit x -> x <> DOT -> ~ In x (sg ++ it ++ DOT :: ft ++ [])).
        { intros y A B C' I. rewrite app_nil_r, app_assoc, in_app_iff in I. destruct I as [I|[I|I]]; [revert I; apply K; auto|congruence|].
          rewrite Forall_forall in FT. apply FT in I. auto. }
        split; [apply K'; [reflexivity|unfold digit; lia|discriminate]|]. split; [apply K'; [reflexivity|unfold digit; lia|discriminate]|].
        destruct u as [|x u]; [discriminate|]. exists x, u. split; [reflexivity|].
        destruct (is_sign x) eqn:SX; [auto|right]. apply orb_false_iff in SX. destruct SX as [S1 S2].
        cbn [sign] in X. rewrite S1, S2 in X. cbn [digits] in X.
        destruct (is_ascii_digit x) eqn:DX; [apply digit_spec, DX|discriminate].
      * destruct (N.eqb c3 101 || N.eqb c3 69); [|discriminate].
        destruct s3 as [|x s3].
        { simpl. discriminate. }
        rewrite S by discriminate. destruct (sign (x :: s3)) as [en s4]. cbn [fst snd].
        rewrite digits_app by exact C. destruct (digits s4) as [e s5]. cbn [fst snd].
        destruct e as [|e0 e]; [discriminate|]. destruct s5; [|discriminate]. simpl. discriminate.
    + rewrite app_nil_r. destruct (map (fun c0 : N => (c0 - 48)%N) it); [discriminate|].
      destruct (N.eqb c2 101 || N.eqb c2 69); [|discriminate].
      destruct s2 as [|x s3].
      { simpl. discriminate. }
      change ((x :: s3) ++ c :: u) with ((x :: s3) ++ c :: u).
      rewrite S by discriminate. destruct (sign (x :: s3)) as [en s4]. cbn [fst snd].
      rewrite digits_app by exact C. destruct (digits s4) as [e s5]. cbn [fst snd].
      destruct e as [|e0 e]; [discriminate|]. destruct s5; [|discriminate]. simpl. discriminate.
Qed.
Lemma number_extend t c u : is_number t -> is_number (t ++ c :: u) ->
  digit c \/ (c = DOT /\ ~ In DOT t /\ ~ In 101%N t /\ ~ In 69%N t) \/
  ((c = 101%N \/ c = 69%N) /\ ~ In 101%N t /\ ~ In 69%N t /\ exists x u', u = x :: u' /\ (is_sign x = true \/ digit x)).
Proof.
  intros (n & m & e & H) (n' & m' & e' & H').
  apply rust_f64_complete in H. destruct H as (d & H & _).
  apply rust_f64_complete in H'. destruct H' as (d' & H' & _).
  eapply rust_f64_none_extend; eassumption.
Qed.
