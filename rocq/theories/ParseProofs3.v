From Coq Require Import String List NArith ZArith Bool Arith Lia.
From Verif Require Import Chars ParseModel ParseSpec ParseProofs ParseProofs2.
Import ListNotations.

(** ** Scanning the mantissa *)
Definition mp1 b := take_while is_sign b.
Definition mr1 b := drop_while is_sign b.
Definition mp2 b := take_while is_ascii_digit (mr1 b).
Definition mr2 b := drop_while is_ascii_digit (mr1 b).
Definition mp3 b := take_while (N.eqb DOT) (mr2 b).
Definition mr3 b := drop_while (N.eqb DOT) (mr2 b).
Definition mp4 b := take_while is_ascii_digit (mr3 b).
Definition mant_rest b := drop_while is_ascii_digit (mr3 b).
Definition mant_part b := mp1 b ++ mp2 b ++ mp3 b ++ mp4 b.

Lemma mant_split b : mant_part b ++ mant_rest b = b.
Proof.
  unfold mant_part. rewrite <- !app_assoc. unfold mp4, mant_rest. rewrite take_drop.
  unfold mp3, mr3. rewrite take_drop. unfold mp2, mr2. rewrite take_drop. unfold mp1, mr1. apply take_drop.
Qed.

Lemma skip_mantissa_at a b : ~ ends_in DOT (mr3 b) ->
  skip_mantissa (at_ a b) = Ok tt (at_ (a ++ mant_part b) (mant_rest b)).
Proof.
  intros H. unfold skip_mantissa, bind. rewrite !skip_matches_at.
  rewrite skip_char_at by exact H. rewrite skip_matches_at. unfold mant_part. rewrite !app_assoc. reflexivity.
Qed.

Lemma mant_rest_digit b : match mant_rest b with [] => True | c :: _ => ~ digit c end.
Proof.
  unfold mant_rest. pose proof (drop_while_head is_ascii_digit (mr3 b)) as H.
  destruct (drop_while is_ascii_digit (mr3 b)); auto. apply digit_false, H.
Qed.
Lemma take_while_none f s : match s with [] => True | c :: _ => f c = false end -> take_while f s = [] /\ drop_while f s = s.
Proof. destruct s as [|c s]; simpl; auto. intros ->. auto. Qed.
(** the scanner stops at a dot only after having passed one *)
Lemma mant_rest_dot b r : mant_rest b = DOT :: r -> In DOT (mant_part b).
Proof.
  intros E. destruct (mp3 b) as [|c l] eqn:E3.
  - exfalso. pose proof (take_drop (N.eqb DOT) (mr2 b)) as T. fold (mp3 b) (mr3 b) in T. rewrite E3 in T. simpl in T.
    pose proof (drop_while_head is_ascii_digit (mr1 b)) as H2. fold (mr2 b) in H2.
    pose proof (drop_while_head (N.eqb DOT) (mr2 b)) as H3. fold (mr3 b) in H3.
    unfold mant_rest in E. rewrite T in E, H3. destruct (take_while_none is_ascii_digit (mr2 b) H2) as [_ X].
    rewrite X in E. rewrite E in H3. discriminate.
  - pose proof (take_while_all (N.eqb DOT) (mr2 b)) as A. fold (mp3 b) in A. rewrite E3 in A. inversion A; subst.
    apply N.eqb_eq in H1. subst c. unfold mant_part. rewrite E3. rewrite !in_app_iff. simpl. tauto.
Qed.
(** the mantissa has no letters *)
Lemma mant_part_chars b x : In x (mant_part b) -> is_sign x = true \/ digit x \/ x = DOT.
Proof.
  unfold mant_part. rewrite !in_app_iff.
  assert (A : forall f s x, In x (take_while f s) -> f x = true).
  { intros f s y. pose proof (take_while_all f s) as F. rewrite Forall_forall in F. apply F. }
  intros [I|[I|[I|I]]]; apply A in I.
  - auto.
  - right; left. apply digit_spec, I.
  - right; right. apply N.eqb_eq in I. auto.
  - right; left. apply digit_spec, I.
Qed.
Lemma mant_part_no_e b : ~ In 101%N (mant_part b) /\ ~ In 69%N (mant_part b).
Proof.
  split; intros I; apply mant_part_chars in I; destruct I as [I|[I|I]]; try discriminate; unfold digit in I; lia.
Qed.

(** ** What [skip_exponent] does *)
Definition exp_split (r : text) : text * text :=
  match r with
  | c :: r' => if (N.eqb c 101 || N.eqb c 69) then
                 match r' with
                 | u :: _ => if (N.eqb u 120 || N.eqb u 109) then ([], r) else (c :: mant_part r', mant_rest r')
                 | [] => (c :: mant_part r', mant_rest r')
                 end
               else ([], r)
  | [] => ([], r)
  end.
Lemma exp_split_app r : fst (exp_split r) ++ snd (exp_split r) = r.
Proof.
  unfold exp_split. destruct r as [|c r]; [reflexivity|]. destruct (_ || _); [|reflexivity].
  destruct r as [|u r]; [reflexivity|]. destruct (_ || _); [reflexivity|]. simpl. rewrite mant_split. reflexivity.
Qed.
Lemma not_ends_tail c x (s : text) : ~ ends_in c (x :: s) -> ~ ends_in c s.
Proof. intros H E. apply H. exact (ends_suffix c [x] s E). Qed.
Lemma not_ends_mr3 b : ~ ends_in DOT b -> ~ ends_in DOT (mr3 b).
Proof. intros H. unfold mr3, mr2, mr1. do 3 apply not_ends_drop. exact H. Qed.
Lemma at_inj_len a t t' r r' : t ++ r = t' ++ r' -> blen (a ++ t) = blen (a ++ t') -> blen t = blen t'.
Proof. rewrite !blen_app. lia. Qed.

Lemma skip_exponent_at a r :
  (forall x c, r = c :: x -> ~ ends_in DOT (mr3 x)) ->
  skip_exponent (at_ a r) =
  match fst (exp_split r) with
  | [_] => Fail InvalidNumber (at_ (a ++ fst (exp_split r)) (snd (exp_split r)))
  | _ => Ok tt (at_ (a ++ fst (exp_split r)) (snd (exp_split r)))
  end.
Proof.
  intros H. unfold skip_exponent, bind. rewrite peek_at. unfold exp_split. destruct r as [|c r].
  { cbn [hd_error is_any fst snd]. unfold ret. rewrite app_nil_r. reflexivity. }
  cbn [hd_error]. unfold is_any at 1. change (existsb (N.eqb c) (lit "eE")) with (N.eqb c 101 || (N.eqb c 69 || false)).
  rewrite orb_false_r. destruct (N.eqb c 101 || N.eqb c 69) eqn:E.
  2:{ cbn [fst snd]. unfold ret. rewrite app_nil_r. reflexivity. }
  assert (W : width c = 1) by (apply is_e in E; destruct E as [->| ->]; reflexivity).
  rewrite advance_at by exact W. rewrite peek_at.
  specialize (H r c eq_refl).
  assert (B : forall u r', r = u :: r' -> is_any (lit "xm") (Some u) = (N.eqb u 120 || N.eqb u 109)).
  { intros u r' _. unfold is_any. change (existsb (N.eqb u) (lit "xm")) with (N.eqb u 120 || (N.eqb u 109 || false)). rewrite orb_false_r. reflexivity. }
  assert (REST : (let (_, _) := (0, 0) in (bind cursor (fun e => bind skip_mantissa (fun _ => bind cursor (fun e' => if e =? e' then fail InvalidNumber else ret tt))))) (at_ (a ++ [c]) r) =
     match mant_part r with [] => Fail InvalidNumber (at_ (a ++ c :: mant_part r) (mant_rest r)) | _ => Ok tt (at_ (a ++ c :: mant_part r) (mant_rest r)) end).
  { unfold bind, cursor. rewrite skip_mantissa_at by exact H.
    unfold at_ at 1 2. cbn [p_cursor]. rewrite <- app_assoc. cbn [app].
    destruct (mant_part r) as [|m0 m] eqn:EM.
    - rewrite Nat.eqb_refl. reflexivity.
    - destruct (Nat.eqb_spec (blen (a ++ [c])) (blen (a ++ c :: m0 :: m))) as [X|X]; [|reflexivity].
      exfalso. rewrite !blen_app in X. cbn [blen] in X. pose proof (width_pos m0). lia. }
  destruct r as [|u r'].
  - cbn [hd_error is_any]. etransitivity; [exact REST|]. reflexivity.
  - cbn [hd_error]. rewrite (B u r' eq_refl). destruct (N.eqb u 120 || N.eqb u 109).
    + rewrite rewind_at by exact W. cbn [fst snd]. rewrite app_nil_r. reflexivity.
    + etransitivity; [exact REST|]. cbn [fst snd]. destruct (mant_part (u :: r')); reflexivity.
Qed.

(** ** [parse_f64] as a function of the text after the cursor *)
Definition scan (b : text) : text * text :=
  let (x, r) := exp_split (mant_rest b) in (mant_part b ++ x, r).
Lemma scan_app b : fst (scan b) ++ snd (scan b) = b.
Proof.
  unfold scan. pose proof (exp_split_app (mant_rest b)). destruct (exp_split (mant_rest b)) as [x r].
  cbn [fst snd] in *. rewrite <- app_assoc, H. apply mant_split.
Qed.

Section WithFinite.
Variable finite : dec -> bool.
Definition accept (t : text) : option dec :=
  match rust_f64 t with Some d => if finite d then Some d else None | None => None end.

(** the scanner never panics where [skip_char] is right *)
Definition dots_ok (b : text) : Prop :=
  ~ ends_in DOT (mr3 b) /\ forall x c, mant_rest b = c :: x -> ~ ends_in DOT (mr3 x).
Lemma dots_ok_not_ends b : ~ ends_in DOT b -> dots_ok b.
Proof.
  intros H. split; [apply not_ends_mr3, H|]. intros x c E. apply not_ends_mr3.
  apply not_ends_tail with (x := c). rewrite <- E. unfold mant_rest. apply not_ends_drop, not_ends_mr3, H.
Qed.

Lemma parse_f64_at a b :
  dots_ok (drop_while is_whitespace b) ->
  let w := take_while is_whitespace b in
  let b' := drop_while is_whitespace b in
  (exists q, parse_f64 finite (at_ a b) = Fail InvalidNumber q /\ p_input q = a ++ b) \/
  (exists d, accept (fst (scan b')) = Some d /\
             parse_f64 finite (at_ a b) = Ok d (at_ (a ++ w ++ fst (scan b')) (snd (scan b')))).
Proof.
  intros [H1 H2] w b'. fold b' in H1, H2.
  assert (IN : forall x y z, w ++ x ++ y = z -> z = b -> p_input (at_ (a ++ w ++ x) y) = a ++ b).
  { intros x y z E E'. unfold at_. cbn [p_input]. rewrite <- E', <- E, <- !app_assoc. reflexivity. }
  assert (B : w ++ b' = b) by apply take_drop.
  unfold parse_f64, bind, skip_whitespace, cursor. rewrite skip_matches_at. fold w b'.
  rewrite skip_mantissa_at by exact H1. rewrite skip_exponent_at by exact H2.
  pose proof (scan_app b') as SA. pose proof (exp_split_app (mant_rest b')) as EA.
  unfold scan in SA |- *. destruct (exp_split (mant_rest b')) as [x r]. cbn [fst snd] in SA, EA |- *.
  assert (FIN : match slice_from (p_cursor (at_ (a ++ w) b')) (at_ ((a ++ w) ++ mant_part b' ++ x) r) with
     | Ok a0 p => match rust_f64 a0 with Some d => if finite d then ret d else fail InvalidNumber | None => fail InvalidNumber end p
     | Fail e p => Fail e p | Panic => Panic | Loop => Loop end =
     match accept (mant_part b' ++ x) with
     | Some d => Ok d (at_ (a ++ w ++ mant_part b' ++ x) r)
     | None => Fail InvalidNumber (at_ (a ++ w ++ mant_part b' ++ x) r) end).
  { replace (p_cursor (at_ (a ++ w) b')) with (blen (a ++ w)) by reflexivity. rewrite slice_from_at.
    rewrite <- app_assoc. unfold accept. destruct (rust_f64 (mant_part b' ++ x)) as [d|]; [|reflexivity].
    destruct (finite d); reflexivity. }
  destruct x as [|x0 [|x1 x2]].
  - rewrite app_nil_r in FIN |- *. rewrite app_nil_r. rewrite FIN. destruct (accept (mant_part b')) as [d|] eqn:AC.
    + right. exists d. split; [reflexivity|]. reflexivity.
    + left. eexists. split; [reflexivity|]. eapply IN; [|exact B]. f_equal. rewrite app_nil_r in SA. exact SA.
  - left. eexists. split; [reflexivity|]. replace (((a ++ w) ++ mant_part b') ++ [x0]) with (a ++ w ++ (mant_part b' ++ [x0])) by (rewrite !app_assoc; reflexivity). eapply IN; [|exact B]. f_equal. exact SA.
  - rewrite <- app_assoc. rewrite FIN. destruct (accept (mant_part b' ++ x0 :: x1 :: x2)) as [d|] eqn:AC.
    + right. exists d. split; reflexivity.
    + left. eexists. split; [reflexivity|]. eapply IN; [|exact B]. f_equal. exact SA.
Qed.

Lemma accept_number t d : accept t = Some d -> finite d = true /\ rust_f64 t = Some d.
Proof. unfold accept. destruct (rust_f64 t) as [d'|]; [|discriminate]. destruct (finite d') eqn:F; intros E; inversion E; subst; auto. Qed.

(** the text taken cannot be continued to a longer number *)
Lemma scan_maximal b u v : is_number (fst (scan b)) -> snd (scan b) = u ++ v -> is_number (fst (scan b) ++ u) -> u = [].
Proof.
  intros H1 E H2. destruct u as [|c u]; [reflexivity|exfalso].
  destruct (number_extend _ _ _ H1 H2) as [D|[(-> & N1 & N2 & N3)|(EE & N1 & N2 & x & u' & -> & X)]].
  - unfold scan in *. unfold exp_split in *. destruct (mant_rest b) as [|r0 r] eqn:ER; [discriminate|].
    pose proof (mant_rest_digit b) as DB. rewrite ER in DB.
    destruct (N.eqb r0 101 || N.eqb r0 69) eqn:EB.
    + destruct r as [|r1 r].
      * cbn [snd] in E. pose proof (mant_rest_digit []) as DB'. rewrite E in DB'. contradiction.
      * destruct (N.eqb r1 120 || N.eqb r1 109).
        -- cbn [snd] in E. inversion E; subst. contradiction.
        -- cbn [snd] in E. pose proof (mant_rest_digit (r1 :: r)) as DB'. rewrite E in DB'. contradiction.
    + cbn [snd] in E. inversion E; subst. contradiction.
  - unfold scan in *. unfold exp_split in *. destruct (mant_rest b) as [|r0 r] eqn:ER; [discriminate|].
    assert (NE : forall l, ~ In 101%N (l ++ r0 :: mant_part r) -> ~ In 69%N (l ++ r0 :: mant_part r) -> N.eqb r0 101 || N.eqb r0 69 = true -> False).
    { intros l A B C. apply is_e in C. destruct C as [->| ->]; [apply A|apply B]; rewrite in_app_iff; right; left; reflexivity. }
    destruct (N.eqb r0 101 || N.eqb r0 69) eqn:EB.
    + destruct r as [|r1 r].
      * eapply NE; eauto.
      * destruct (N.eqb r1 120 || N.eqb r1 109).
        -- cbn [snd] in E. inversion E; subst. discriminate.
        -- eapply NE; eauto.
    + cbn [fst snd] in *. inversion E; subst. apply mant_rest_dot in ER. apply N1. rewrite app_nil_r. exact ER.
  - unfold scan in *. unfold exp_split in *. destruct (mant_rest b) as [|r0 r] eqn:ER; [discriminate|].
    assert (NE : forall l, ~ In 101%N (l ++ r0 :: mant_part r) -> ~ In 69%N (l ++ r0 :: mant_part r) -> N.eqb r0 101 || N.eqb r0 69 = true -> False).
    { intros l A B C. apply is_e in C. destruct C as [->| ->]; [apply A|apply B]; rewrite in_app_iff; right; left; reflexivity. }
    destruct (N.eqb r0 101 || N.eqb r0 69) eqn:EB.
    + destruct r as [|r1 r].
      * eapply NE; eauto.
      * destruct (N.eqb r1 120 || N.eqb r1 109) eqn:XM.
        -- cbn [snd] in E. inversion E; subst. apply orb_true_iff in XM. rewrite !N.eqb_eq in XM.
           destruct XM as [->| ->]; (destruct X as [X|X]; [discriminate|unfold digit in X; lia]).
        -- eapply NE; eauto.
    + cbn [snd] in E. inversion E; subst. apply is_e in EE. congruence.
Qed.

(** ** A number followed by something that is not part of it is taken whole *)
Lemma take_while_app f t r : Forall (fun c => f c = true) t -> match r with [] => True | c :: _ => f c = false end ->
  take_while f (t ++ r) = t /\ drop_while f (t ++ r) = r.
Proof.
  intros A R. induction A as [|c t C A IH]; simpl.
  - apply take_while_none, R.
  - rewrite C. destruct IH as [-> ->]. auto.
Qed.
Lemma Forall_digit t : Forall digit t -> Forall (fun c => is_ascii_digit c = true) t.
Proof. apply Forall_impl. intros c. apply digit_spec. Qed.

(** scanning sign, digits, fraction up to a rest that cannot continue them *)
Lemma mant_exact s n i tf f r : sign_text s n -> Forall digit i -> fraction tf f -> i ++ f <> [] ->
  match r with [] => True | c :: _ => ~ digit c /\ (c = DOT -> f <> []) end ->
  mant_part (s ++ i ++ tf ++ r) = s ++ i ++ tf /\ mant_rest (s ++ i ++ tf ++ r) = r /\
  mr3 (s ++ i ++ tf ++ r) = f ++ r.
Proof.
  intros S I FR NE R.
  assert (FD : Forall digit f) by (destruct FR as [[_ ->]|[_ F]]; auto).
  assert (S1 : Forall (fun c => is_sign c = true) s).
  { destruct S as [[-> _]|[[-> _]|[-> _]]]; auto. }
  assert (S2 : match i ++ tf ++ r with [] => True | c :: _ => is_sign c = false end).
  { destruct i as [|c i]; simpl; [|apply digit_not_sign; inversion I; auto].
    destruct FR as [[-> ->]|[-> _]]; simpl; [contradiction|reflexivity]. }
  assert (I2 : match tf ++ r with [] => True | c :: _ => is_ascii_digit c = false end).
  { destruct FR as [[-> _]|[-> _]]; simpl; [|reflexivity]. destruct r; auto. apply digit_false. tauto. }
  assert (R2 : match r with [] => True | c :: _ => is_ascii_digit c = false end).
  { destruct r; auto. apply digit_false. tauto. }
  unfold mant_part, mant_rest, mp4, mr3, mp3, mr2, mp2, mr1, mp1.
  destruct (take_while_app is_sign s (i ++ tf ++ r) S1 S2) as [-> ->].
  destruct (take_while_app is_ascii_digit i (tf ++ r) (Forall_digit _ I) I2) as [-> ->].
  assert (D : (take_while (N.eqb DOT) (tf ++ r) ++ f = tf) /\ drop_while (N.eqb DOT) (tf ++ r) = f ++ r).
  { destruct FR as [[-> ->]|[-> F]].
    - simpl. destruct r as [|c r]; [split; reflexivity|]. destruct R as [_ R].
      destruct (take_while_none (N.eqb DOT) (c :: r)) as [-> ->]; [|split; reflexivity].
      apply N.eqb_neq. intros E0. apply R; auto.
    - change (46%N :: f) with ([DOT] ++ f). rewrite <- app_assoc.
      destruct (take_while_app (N.eqb DOT) [DOT] (f ++ r)) as [-> ->]; [repeat constructor| |split; reflexivity].
      destruct f as [|c f]; cbn [app].
      + destruct r as [|c r]; auto. destruct R as [_ R]. apply N.eqb_neq. intros E0. apply R; auto.
      + inversion F; subst. apply N.eqb_neq. unfold digit, DOT in *. lia. }
  destruct D as [D1 D2]. rewrite D2.
  destruct (take_while_app is_ascii_digit f r (Forall_digit _ FD) R2) as [-> ->].
  rewrite D1. auto.
Qed.

Lemma ends_digits f r : Forall digit f -> ~ ends_in DOT r -> ~ ends_in DOT (f ++ r).
Proof.
  intros F R E. destruct r as [|c r].
  - rewrite app_nil_r in E. destruct E as (t & ->). apply Forall_app in F. destruct F as [_ F]. inversion F; subst.
    unfold digit, DOT in *. lia.
  - rewrite ends_app in E by discriminate. auto.
Qed.
Lemma ends_in_last c t x : ends_in c (t ++ [x]) <-> x = c.
Proof.
  split.
  - intros (u & E). apply app_inj_tail in E. tauto.
  - intros ->. exists t. reflexivity.
Qed.

Lemma scan_exact t r : is_number t -> stops t r -> ~ ends_in DOT r -> scan (t ++ r) = (t, r) /\ dots_ok (t ++ r).
Proof.
  intros (n & m & e & (s & i & tf & f & te & x & -> & SG & I & FR & NE & EX & _ & _)) ST ED.
  assert (FD : Forall digit f) by (destruct FR as [[_ ->]|[_ F]]; auto).
  assert (NI : forall x, is_sign x = false -> ~ digit x -> x <> DOT -> ~ In x (s ++ i ++ tf)).
  { intros y A B C. rewrite !in_app_iff. intros [X|[X|X]].
    - destruct SG as [[-> _]|[[-> _]|[-> _]]]; [destruct X|destruct X as [<-|[]]; discriminate|destruct X as [<-|[]]; discriminate].
    - rewrite Forall_forall in I. apply I in X. auto.
    - destruct FR as [[-> _]|[-> F]]; [destruct X|]. destruct X as [<-|X]; [apply C; reflexivity|].
      rewrite Forall_forall in F. apply F in X. auto. }
  assert (NE1 : ~ In 101%N (s ++ i ++ tf)) by (apply NI; [reflexivity|unfold digit; lia|discriminate]).
  assert (NE2 : ~ In 69%N (s ++ i ++ tf)) by (apply NI; [reflexivity|unfold digit; lia|discriminate]).
  destruct EX as [[-> ->]|(l & s' & n' & ds & -> & L & S' & DN & DS & ->)].
  - rewrite !app_nil_r in *. replace ((s ++ i ++ tf) ++ r) with (s ++ i ++ tf ++ r) by (rewrite <- !app_assoc; reflexivity).
    assert (RR : match r with [] => True | c :: _ => ~ digit c /\ (c = DOT -> f <> []) end).
    { destruct r as [|c r]; auto. destruct ST as (A & B & _). split; [exact A|]. intros -> ->.
      destruct (B eq_refl) as (I1 & I2 & _). destruct FR as [[-> _]|[-> _]].
      - rewrite app_nil_r in I1. apply in_app_iff in I1. destruct I1 as [X|X].
        + destruct SG as [[-> _]|[[-> _]|[-> _]]]; [destruct X|destruct X as [X|[]]; discriminate|destruct X as [X|[]]; discriminate].
        + rewrite Forall_forall in I. apply I in X. unfold digit in X. lia.
      - apply I2. exists (s ++ i). rewrite <- app_assoc. reflexivity. }
    destruct (mant_exact s n i tf f r SG I FR NE RR) as (E1 & E2 & E3).
    split.
    + unfold scan. rewrite E1, E2. unfold exp_split.
      destruct r as [|c r]; [rewrite app_nil_r; reflexivity|]. destruct ST as (_ & _ & C).
      destruct (N.eqb c 101 || N.eqb c 69) eqn:EB; [|rewrite app_nil_r; reflexivity].
      apply is_e in EB. destruct (C EB) as [[X|X]|(u & r'' & -> & U)]; [contradiction|contradiction|].
      assert (N.eqb u 120 || N.eqb u 109 = true) as -> by (rewrite orb_true_iff, !N.eqb_eq; tauto).
      rewrite app_nil_r. reflexivity.
    + split; [rewrite E3; apply ends_digits; auto|]. rewrite E2. intros y c ->. apply not_ends_mr3. apply not_ends_tail with (x := c). exact ED.
  - replace ((s ++ i ++ tf ++ l :: s' ++ ds) ++ r) with (s ++ i ++ tf ++ (l :: s' ++ ds ++ r))
      by (rewrite <- !app_assoc; simpl; rewrite <- !app_assoc; reflexivity).
    assert (RR : match l :: s' ++ ds ++ r with [] => True | c :: _ => ~ digit c /\ (c = DOT -> f <> []) end).
    { destruct L as [->| ->]; split; try discriminate; unfold digit; lia. }
    destruct (mant_exact s n i tf f (l :: s' ++ ds ++ r) SG I FR NE RR) as (E1 & E2 & E3).
    assert (RR' : match r with [] => True | c :: _ => ~ digit c /\ (c = DOT -> @nil N <> []) end).
    { destruct r as [|c r]; auto. destruct ST as (A & B & _). split; [exact A|]. intros ->.
      destruct (B eq_refl) as (_ & _ & B1 & B2). exfalso.
      destruct L as [->| ->]; [apply B1|apply B2]; rewrite !in_app_iff; simpl; tauto. }
    destruct (mant_exact s' n' ds [] [] r S' DS (or_introl (conj eq_refl eq_refl)) ltac:(rewrite app_nil_r; exact DN) RR') as (F1 & F2 & F3).
    cbn [app] in F1, F2, F3. rewrite app_nil_r in F1.
    split.
    + unfold scan. rewrite E1, E2. unfold exp_split. apply is_e in L. rewrite L.
      destruct (s' ++ ds ++ r) as [|u z] eqn:EU.
      { destruct s'; [destruct ds; [contradiction|discriminate]|discriminate]. }
      assert (N.eqb u 120 || N.eqb u 109 = false) as ->.
      { assert (is_sign u = true \/ digit u) as [U|U].
        - destruct S' as [[-> _]|[[-> _]|[-> _]]]; simpl in EU.
          + destruct ds; [contradiction|]. simpl in EU. inversion EU; subst. inversion DS; auto.
          + inversion EU; auto.
          + inversion EU; auto.
        - unfold is_sign in U. apply orb_true_iff in U. rewrite !N.eqb_eq in U. destruct U as [->| ->]; reflexivity.
        - unfold digit in U. apply orb_false_iff. rewrite !N.eqb_neq. lia. }
      rewrite F1, F2. rewrite <- !app_assoc. reflexivity.
    + split.
      * rewrite E3. apply ends_digits; auto. intros E. change (l :: s' ++ ds ++ r) with ([l] ++ s' ++ ds ++ r) in E.
        replace ([l] ++ s' ++ ds ++ r) with (([l] ++ s') ++ ds ++ r) in E by (rewrite <- !app_assoc; reflexivity).
        rewrite ends_app in E by (destruct ds; [contradiction|discriminate]). revert E. apply ends_digits; auto.
      * rewrite E2. intros y c E. inversion E; subst. rewrite F3. exact ED.
Qed.
End WithFinite.
