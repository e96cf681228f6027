From Coq Require Import String List NArith ZArith Bool Arith Lia.
From Verif Require Import Chars ParseModel ParseSpec ParseProofs ParseProofs2 ParseProofs3 ParseProofs4 PathModel PathSpec PathProofs PathProofs2 PathProofs3.
Import ListNotations.

(** ** What the text of a number looks like *)
Definition cp (d : dec) : Prop := canonical d /\ plain d.
Definition num_char (c : N) : Prop := c = 45%N \/ c = DOT \/ digit c.

Lemma shape_number d s i tf f : shape d s i tf f -> is_number (T d).
Proof.
  intros S. exists (neg d && negb (match dig d with [] => true | _ => false end)), (digits_value (i ++ f)), (0 - Z.of_nat (List.length f))%Z.
  exists s, i, tf, f, [], 0%Z. destruct S as [sh_text0 sh_sign0 sh_plus0 sh_int0 sh_frac0 sh_frac_ne0 sh_ne0 sh_read0 sh_small0 sh_whole0]. rewrite app_nil_r. split; [exact sh_text0|]. split; [exact sh_sign0|]. split; [exact sh_int0|]. split; [exact sh_frac0|]. split; [exact sh_ne0|]. split; [left; auto|]. auto.
Qed.
Lemma T_number d : cp d -> is_number (T d).
Proof. intros [C P]. destruct (shape_exists d C P) as (s & i & tf & f & S). eapply shape_number; eauto. Qed.
Lemma T_read d : cp d -> rust_f64 (T d) = Some (norm0 d).
Proof. intros [C P]. destruct (shape_exists d C P) as (s & i & tf & f & S). destruct S as [sh_text0 sh_sign0 sh_plus0 sh_int0 sh_frac0 sh_frac_ne0 sh_ne0 sh_read0 sh_small0 sh_whole0]. rewrite sh_text0. auto. Qed.

Lemma T_chars d x : cp d -> In x (T d) -> num_char x.
Proof.
  intros [C P] I. destruct (shape_exists d C P) as (s & i & tf & f & S). destruct S as [sh_text0 sh_sign0 sh_plus0 sh_int0 sh_frac0 sh_frac_ne0 sh_ne0 sh_read0 sh_small0 sh_whole0].
  rewrite sh_text0 in I. rewrite !in_app_iff in I. unfold num_char. destruct I as [I|[I|I]].
  - destruct sh_sign0 as [[-> _]|[[-> _]|[-> _]]]; [destruct I|contradiction|]. destruct I as [<-|[]]. auto.
  - rewrite Forall_forall in sh_int0. auto.
  - destruct sh_frac0 as [[-> _]|[-> F]]; [destruct I|]. destruct I as [<-|I]; auto. rewrite Forall_forall in F. auto.
Qed.
Lemma T_no_e d : cp d -> ~ In 101%N (T d) /\ ~ In 69%N (T d).
Proof. intros C. split; intros I; apply (T_chars d _ C) in I; unfold num_char, DOT, digit in I; lia. Qed.
Lemma T_ends d : cp d -> exists t x, T d = t ++ [x] /\ digit x.
Proof.
  intros [C P]. destruct (shape_exists d C P) as (s & i & tf & f & S). destruct S as [sh_text0 sh_sign0 sh_plus0 sh_int0 sh_frac0 sh_frac_ne0 sh_ne0 sh_read0 sh_small0 sh_whole0]. rewrite sh_text0.
  assert (Q : forall u : text, u <> [] -> Forall digit u -> forall v, exists t x, v ++ u = t ++ [x] /\ digit x).
  { intros u NE F v. destruct (exists_last NE) as (u' & x & ->). exists (v ++ u'), x. rewrite app_assoc. split; [reflexivity|].
    apply Forall_app in F. destruct F as [_ F]. inversion F; auto. }
  destruct sh_frac0 as [[-> ->]|[-> F]].
  - rewrite app_nil_r in *. apply Q; auto.
  - specialize (sh_frac_ne0 ltac:(discriminate)).
    replace (s ++ i ++ 46%N :: f) with ((s ++ i ++ [46%N]) ++ f) by (rewrite <- !app_assoc; reflexivity). apply Q; auto.
Qed.
Lemma T_head d : cp d -> exists c t, T d = c :: t /\ num_char c.
Proof.
  intros C. destruct (T_ends d C) as (t & x & E & _). destruct (T d) as [|c u] eqn:TE.
  - destruct t; discriminate.
  - exists c, u. split; [reflexivity|]. apply (T_chars d _ C). rewrite TE. left; auto.
Qed.

(** ** Comparisons of decimals *)
Lemma of_digits_nonneg l : (0 <= of_digits l)%Z.
Proof.
  unfold of_digits. assert (H : forall l a, (0 <= a)%Z -> (0 <= fold_left (fun a d => 10 * a + Z.of_N d) l a)%Z).
  { clear. induction l as [|x l IH]; intros a A; [exact A|]. cbn [fold_left]. apply IH. lia. }
  apply H. lia.
Qed.
Lemma of_digits_lower c l : c <> 0%N -> (10 ^ Z.of_nat (List.length l) <= of_digits (c :: l))%Z.
Proof.
  intros C. change (c :: l) with ([c] ++ l). rewrite of_digits_app. pose proof (of_digits_nonneg l).
  assert (1 <= of_digits [c])%Z by (unfold of_digits; cbn [fold_left]; lia).
  assert (0 < 10 ^ Z.of_nat (List.length l))%Z by (apply Z.pow_pos_nonneg; lia). nia.
Qed.
Lemma ge_zero_pos d : neg d = false -> ge d zero = true.
Proof.
  intros N. unfold ge, scaled, mant, zero. cbn [neg dig ex]. rewrite N. apply Z.leb_le.
  change (of_digits []) with 0%Z. rewrite Z.mul_0_l. apply Z.mul_nonneg_nonneg; [apply of_digits_nonneg|apply Z.pow_nonneg; lia].
Qed.
Lemma is_zero_nil d : dig d = [] -> is_zero d = true.
Proof. intros E. unfold is_zero, mant. rewrite E. destruct (neg d); reflexivity. Qed.
Lemma ge_one d : canonical d -> neg d = false -> dig d <> [] -> (0 < pos d)%Z -> ge d one = true.
Proof.
  intros C N NE P. unfold canonical in C. unfold ge, scaled, mant, one, pos in *. cbn [neg dig ex]. rewrite N.
  destruct (dig d) as [|c l]; [contradiction|]. destruct C as (C0 & _ & _). pose proof (of_digits_lower c l C0) as LB.
  apply Z.leb_le. change (of_digits [1%N]) with 1%Z. rewrite Z.mul_1_l. simpl List.length in P.
  destruct (Z.le_ge_cases 0 (ex d)) as [K|K].
  - rewrite (Z.min_r (ex d) 0) by exact K. change (10 ^ (0 - 0))%Z with 1%Z.
    assert (1 <= 10 ^ (ex d - 0))%Z. { change 1%Z with (10 ^ 0)%Z. apply Z.pow_le_mono_r; lia. }
    assert (1 <= of_digits (c :: l))%Z. { assert (0 < 10 ^ Z.of_nat (List.length l))%Z by (apply Z.pow_pos_nonneg; lia). lia. }
    nia.
  - rewrite (Z.min_l (ex d) 0) by exact K. rewrite Z.sub_diag. change (10 ^ 0)%Z with 1%Z. rewrite Z.mul_1_r.
    eapply Z.le_trans; [|exact LB]. apply Z.pow_le_mono_r; lia.
Qed.
Lemma is_whole_false d : is_whole d = false -> (ex d < 0)%Z.
Proof. unfold is_whole. destruct (Z.leb_spec 0 (ex d)); [discriminate|auto]. Qed.

(** ** Where no space is written the reader stops anyway *)
Lemma stops_minus t r : stops t (45%N :: r).
Proof. simpl. unfold digit. split; [lia|]. split; intros; [discriminate|lia]. Qed.
Lemma stops_space t r : stops t (32%N :: r).
Proof. simpl. unfold digit. split; [lia|]. split; intros; [discriminate|lia]. Qed.

Lemma join_core p c r : cp p -> cp c -> dig c <> [] ->
  (neg c = true \/ (neg c = false /\ (pos c <= 0)%Z /\ is_whole p = false)) -> stops (T p) (T c ++ r).
Proof.
  intros CP CC NE H. pose proof CP as [CP1 CP2]. pose proof CC as [CC1 CC2].
  destruct (shape_exists c CC1 CC2) as (s & i & tf & f & S).
  destruct (shape_exists p CP1 CP2) as (s' & i' & tf' & f' & S').
  destruct H as [N|(N & P & W)].
  - destruct S as [sh_text0 sh_sign0 sh_plus0 sh_int0 sh_frac0 sh_frac_ne0 sh_ne0 sh_read0 sh_small0 sh_whole0]. rewrite sh_text0. rewrite N in sh_sign0. destruct (dig c); [contradiction|].
    destruct sh_sign0 as [[_ X]|[[_ X]|[-> _]]]; try discriminate. apply stops_minus.
  - destruct S as [sh_text0 sh_sign0 sh_plus0 sh_int0 sh_frac0 sh_frac_ne0 sh_ne0 sh_read0 sh_small0 sh_whole0]. rewrite sh_text0. rewrite N in sh_sign0. cbn [andb] in sh_sign0.
    destruct sh_sign0 as [[-> _]|[[-> _]|[_ X]]]; [|contradiction|discriminate].
    rewrite (sh_small0 NE P) in *. cbn [app] in *. destruct sh_frac0 as [[-> ->]|[-> F]]; [contradiction|].
    cbn [app stops]. unfold digit at 1. split; [lia|]. split; [|intros [X|X]; discriminate].
    intros _. split; [|split; [|apply T_no_e; auto]].
    + apply is_whole_false in W. destruct S' as [sh_text1 sh_sign1 sh_plus1 sh_int1 sh_frac1 sh_frac_ne1 sh_ne1 sh_read1 sh_small1 sh_whole1]. rewrite sh_text1, !in_app_iff. right. right.
      specialize (sh_whole1 W). destruct sh_frac1 as [[-> _]|[-> _]]; [contradiction|left; reflexivity].
    + destruct (T_ends p CP) as (t & x & E & D). rewrite E. rewrite ends_in_last. unfold digit in D. lia.
Qed.

Lemma raw_small d : cp d -> dig d <> [] -> neg d = false -> (pos d <= 0)%Z -> starts_with (lit "0.") (ryu d) = true.
Proof.
  intros [C PL] NE N P. unfold plain, pos in *. destruct PL as [PL|PL]; [contradiction|].
  unfold ryu. rewrite N. destruct (dig d) as [|c l] eqn:E; [contradiction|]. cbn [app].
  set (L := Z.of_nat (List.length (c :: l))) in *.
  assert (0 < L)%Z by (unfold L; simpl List.length; lia).
  destruct (Z.leb_spec 0 (ex d)) as [K|K]; [lia|]. cbn [andb].
  destruct (Z.ltb_spec 0 (L + ex d)) as [K'|K']; [lia|]. cbn [andb].
  destruct (Z.ltb_spec (-5) (L + ex d)); [|lia]. destruct (Z.leb_spec (L + ex d) 0); [|lia]. cbn [andb].
  unfold starts_with. match goal with |- context [strip_prefix (lit "0.") (lit "0." ++ ?X)] =>
    assert (strip_prefix (lit "0.") (lit "0." ++ X) = Some X) as -> by (apply strip_prefix_spec; reflexivity) end. reflexivity.
Qed.

Lemma orb5 a b c d e : a || b || c || d || e = false -> a = false /\ b = false /\ c = false /\ d = false.
Proof. destruct a, b, c, d, e; intuition discriminate. Qed.
Lemma join_args p c r : cp p -> cp c -> space_between p c = false -> stops (T p) (T c ++ r).
Proof.
  intros CP CC H. unfold space_between in H. apply orb5 in H. destruct H as (H1 & H2 & H3 & H4).
  assert (NE : dig c <> []) by (intros E; apply is_zero_nil in E; congruence).
  apply join_core; auto. destruct (neg c) eqn:N; [left; auto|]. right. split; [reflexivity|].
  assert (P : (pos c <= 0)%Z).
  { destruct (Z.le_gt_cases (pos c) 0) as [|G]; [auto|]. destruct CC as [CC _]. rewrite ge_one in H1 by (auto; lia). discriminate. }
  split; [exact P|]. rewrite (raw_small c CC NE N P), andb_true_r in H4. exact H4.
Qed.
Lemma join_commands p c r : cp p -> cp c -> (is_whole p || ge c one || is_zero c) && ge c zero = false -> stops (T p) (T c ++ r).
Proof.
  intros CP CC H. destruct (neg c) eqn:N.
  - destruct (dig c) as [|x l] eqn:E.
    { exfalso. apply is_zero_nil in E as Z. rewrite Z, orb_true_r in H. cbn [andb] in H.
      unfold ge, scaled, mant in H. rewrite E, N in H. cbn in H. destruct (ex c); discriminate. }
    apply join_core; auto. rewrite E. discriminate.
  - rewrite (ge_zero_pos c N), andb_true_r in H. apply orb_false_iff in H. destruct H as [H H3]. apply orb_false_iff in H. destruct H as [H1 H2].
    assert (NE : dig c <> []) by (intros E; apply is_zero_nil in E; congruence).
    apply join_core; auto. right. split; [auto|]. split; [|auto].
    destruct (Z.le_gt_cases (pos c) 0) as [|G]; [auto|]. destruct CC as [CC _]. rewrite ge_one in H2 by (auto; lia). discriminate.
Qed.

(** ** Reading the arguments back *)
Definition head_ok (r : text) : Prop := match r with [] => True | c :: _ => is_whitespace c = false /\ c <> COMMA end.
Definition is_sp (sp : text) : Prop := sp = [] \/ sp = [32%N].

Lemma num_char_head c r : num_char c -> head_ok (c :: r).
Proof.
  intros H. simpl. assert (E : c = 45%N \/ (46 <= c <= 57)%N) by (unfold num_char, DOT, digit in H; lia).
  split; [|unfold COMMA; lia]. unfold is_whitespace. destruct E as [->|E]; [reflexivity|].
  repeat (apply orb_false_iff; split); try (apply andb_false_iff); try (apply N.eqb_neq; lia); rewrite ?N.leb_gt; lia.
Qed.

Lemma skip_ws_none a r : head_ok r -> skip_whitespace (at_ a r) = Ok tt (at_ a r).
Proof.
  intros H. unfold skip_whitespace. rewrite skip_matches_at.
  assert (take_while is_whitespace r = [] /\ drop_while is_whitespace r = r) as [-> ->].
  { apply take_while_none. destruct r; [auto|]. destruct H; auto. }
  rewrite app_nil_r. reflexivity.
Qed.
Lemma skip_comma_none a r : head_ok r -> ~ ends_in COMMA r -> skip_char COMMA (at_ a r) = Ok tt (at_ a r).
Proof.
  intros H E. rewrite skip_char_at by (apply not_ends_drop, E).
  assert (take_while (N.eqb COMMA) r = [] /\ drop_while (N.eqb COMMA) r = r) as [-> ->].
  { apply take_while_none. destruct r; [auto|]. destruct H as [_ H]. apply N.eqb_neq. auto. }
  rewrite app_nil_r. reflexivity.
Qed.
Lemma skip_separator_at a sp r : is_sp sp -> head_ok r -> not_trailing r -> skip_separator (at_ a (sp ++ r)) = Ok tt (at_ (a ++ sp) r).
Proof.
  intros S H [_ E]. unfold skip_separator, bind.
  assert (W : skip_whitespace (at_ a (sp ++ r)) = Ok tt (at_ (a ++ sp) r)).
  { destruct S as [->| ->]; cbn [app]; [rewrite app_nil_r; apply skip_ws_none, H|].
    unfold skip_whitespace. rewrite skip_matches_at. cbn [take_while drop_while].
    change (is_whitespace 32) with true. cbn iota.
    assert (take_while is_whitespace r = [] /\ drop_while is_whitespace r = r) as [-> ->].
    { apply take_while_none. destruct r; [auto|]. destruct H; auto. }
    reflexivity. }
  rewrite W, (skip_comma_none (a ++ sp) r H E). apply skip_ws_none, H.
Qed.

Lemma not_trailing_nil : not_trailing [].
Proof. split; intros (t & E); destruct t; discriminate. Qed.
Lemma not_trailing_app u x r : u = x -> (exists t y, x = t ++ [y] /\ y <> 46%N /\ y <> 44%N) -> not_trailing r -> not_trailing (u ++ r).
Proof.
  intros -> (t & y & -> & Y1 & Y2) [R1 R2]. destruct r as [|c r].
  - rewrite app_nil_r. split; rewrite ends_in_last; auto.
  - split; rewrite ends_app by discriminate; auto.
Qed.
Lemma nt_T d r : cp d -> not_trailing r -> not_trailing (T d ++ r).
Proof.
  intros C. apply (not_trailing_app (T d) (T d)); [reflexivity|]. destruct (T_ends d C) as (t & x & E & D). exists t, x.
  split; [exact E|]. unfold digit in D. lia.
Qed.
Lemma nt_char c r : c <> 46%N -> c <> 44%N -> not_trailing r -> not_trailing (c :: r).
Proof. intros A B. apply (not_trailing_app [c] [c]); [reflexivity|]. exists [], c. auto. Qed.
Lemma nt_sp sp r : is_sp sp -> not_trailing r -> not_trailing (sp ++ r).
Proof. intros [->| ->] H; [exact H|]. apply nt_char; [discriminate|discriminate|exact H]. Qed.

Definition sp_of (b : bool) : text := if b then [32%N] else [].
Lemma is_sp_of b : is_sp (sp_of b).
Proof. destruct b; [right|left]; reflexivity. Qed.
Lemma nt_rest p l r : Forall cp l -> not_trailing r -> not_trailing (format_rest p l ++ r).
Proof.
  intros F R. revert p. induction F as [|c l C F IH]; intros p; cbn [format_rest app]; [exact R|].
  fold (sp_of (space_between p c)). fold (T c). rewrite <- !app_assoc. apply nt_sp; [apply is_sp_of|]. apply nt_T; auto.
Qed.

Section Read.
  Variable finite : dec -> bool.
  Definition arg_ok (d : dec) : Prop := cp d /\ finite (norm0 d) = true.

  Lemma number_at a d sp r : arg_ok d -> is_sp sp -> stops (T d) (sp ++ r) -> head_ok r -> not_trailing r ->
    parse_number finite (at_ a (T d ++ sp ++ r)) = Ok (norm0 d) (at_ (a ++ T d ++ sp) r).
  Proof.
    intros [C F] SP ST H NT. unfold parse_number, bind.
    pose proof (nt_sp sp r SP NT) as [E1 _].
    pose proof (f64_exact_dec finite a [] (T d) (sp ++ r) (norm0 d) (Forall_nil _) (T_number d C) ST E1 (T_read d C) F) as R.
    cbn [app] in R. rewrite R. rewrite (skip_separator_at _ sp r SP H NT). cbn. rewrite <- app_assoc. reflexivity.
  Qed.
  Lemma flag_at a d sp r : flag d -> is_sp sp -> head_ok r -> not_trailing r ->
    parse_flag (at_ a (T d ++ sp ++ r)) = Ok (norm0 d) (at_ (a ++ T d ++ sp) r).
  Proof.
    intros FL SP H NT. unfold parse_flag, bind.
    assert (E : exists c, T d = [c] /\ (c = 48%N /\ norm0 d = Dec false [] 0 \/ c = 49%N /\ norm0 d = Dec false [1%N] 0)).
    { destruct FL as [->| ->]; [exists 48%N|exists 49%N]; (split; [vm_compute; reflexivity|]); [left|right]; auto. }
    destruct E as (c & -> & E). cbn [app]. rewrite read_at by (destruct E as [[-> _]|[-> _]]; reflexivity).
    rewrite (skip_separator_at _ sp r SP H NT). rewrite <- app_assoc. destruct E as [[-> ->]|[-> ->]]; reflexivity.
  Qed.

  Lemma T_head_ok d r : cp d -> head_ok (T d ++ r).
  Proof. intros C. destruct (T_head d C) as (c & t & -> & N). apply (num_char_head c (t ++ r) N). Qed.

  Lemma args_at l : forall c ks a sp r, Forall2 (fun (k : bool) d => k = true -> flag d) ks (c :: l) -> Forall arg_ok (c :: l) ->
    is_sp sp -> head_ok r -> not_trailing r -> stops (T (last (c :: l) zero)) (sp ++ r) ->
    parse_args finite ks (at_ a (T c ++ format_rest c l ++ sp ++ r)) = Ok (map norm0 (c :: l)) (at_ (a ++ T c ++ format_rest c l ++ sp) r).
  Proof.
    induction l as [|c' l IH]; intros c ks a sp r K F SP H NT ST; inversion K as [|k d ks' l' K1 K2]; subst; inversion F as [|? ? F1 F2]; subst.
    - inversion K2; subst. cbn [format_rest app]. cbn [parse_args]. unfold bind.
      assert (E : (if k then parse_flag else parse_number finite) (at_ a (T c ++ sp ++ r)) = Ok (norm0 c) (at_ (a ++ T c ++ sp) r)).
      { destruct k; [apply flag_at; auto|apply number_at; auto]. }
      rewrite E. reflexivity.
    - cbn [format_rest]. change (if space_between c c' then [32%N] else []) with (sp_of (space_between c c')). fold (T c'). set (s := sp_of (space_between c c')).
      cbn [parse_args]. unfold bind. inversion F2 as [|? ? F3 F4]; subst. pose proof F1 as [C1 _]. pose proof F3 as [C3 _].
      set (R := T c' ++ format_rest c' l ++ sp ++ r).
      assert (HR : head_ok R) by (apply T_head_ok; auto).
      assert (NR : not_trailing R).
      { apply nt_T; auto. apply nt_rest; [|apply nt_sp; auto]. revert F4. apply Forall_impl. intros x [X _]. exact X. }
      assert (SR : stops (T c) (s ++ R)).
      { unfold s. destruct (space_between c c') eqn:SB; [apply stops_space|]. apply join_args; auto. }
      assert (E : (if k then parse_flag else parse_number finite) (at_ a (T c ++ s ++ R)) = Ok (norm0 c) (at_ (a ++ T c ++ s) R)).
      { pose proof (is_sp_of (space_between c c')). destruct k; [apply flag_at; auto|apply number_at; auto]. }
      replace ((s ++ T c' ++ format_rest c' l) ++ sp ++ r) with (s ++ R) by (unfold R; rewrite <- !app_assoc; reflexivity).
      rewrite E. unfold R. rewrite (IH c' ks' _ sp r K2 F2 SP H NT ST). cbn. rewrite <- !app_assoc. reflexivity.
  Qed.

  (** ** Reading the commands back *)
  Definition flags_ok (d : data) : Prop := Forall2 (fun (k : bool) x => k = true -> flag x) (slots (d_id d)) (d_args d).
  Definition cmd_ok (d : data) : Prop := flags_ok d /\ Forall arg_ok (d_args d).
  Fixpoint chain (before : id) (l : list data) : Prop :=
    match l with
    | [] => True
    | d :: l => cmd_ok d /\ (d_implicit d = true -> repeats before (d_id d) /\ d_id d <> ClosePath) /\ chain (d_id d) l
    end.

  Definition lead (prev : list dec) (d : data) : text :=
    sp_of (d_implicit d && (is_space_needed (d_args d) prev && ge (hd zero (d_args d)) zero)).
  Definition body (d : data) (l : list data) : text :=
    (if d_implicit d then [] else [letter (d_id d)]) ++ format_args (d_args d) ++ format_tail (d_args d) l.
  Definition rest_text (prev : list dec) (l : list data) : text := match l with [] => [] | d :: l => body d l end.
  Definition lead_text (prev : list dec) (l : list data) : text := match l with [] => [] | d :: _ => lead prev d end.

  Lemma flags_len d : flags_ok d -> (d_args d = [] <-> d_id d = ClosePath).
  Proof.
    intros F. unfold flags_ok in F. split; intros E.
    - rewrite E in F. inversion F as [X|]. destruct (d_id d); try discriminate. reflexivity.
    - rewrite E in F. inversion F. reflexivity.
  Qed.

  Lemma tail_split before bargs l : (bargs = [] <-> before = ClosePath) -> chain before l ->
    format_tail bargs l = lead_text bargs l ++ rest_text bargs l.
  Proof.
    intros NB C. destruct l as [|d l]; [reflexivity|]. destruct C as ((FL & _) & IM & _).
    cbn [format_tail lead_text rest_text]. unfold format_next, lead, body, id_char. apply flags_len in FL.
    destruct (d_implicit d) eqn:I; cbn [andb].
    - specialize (IM eq_refl). destruct IM as [R NC].
      assert (NA : d_args d <> []) by tauto.
      assert (NP : bargs <> []). { intros E. apply NB in E. subst before. simpl in R. contradiction. }
      destruct (d_args d) as [|c args] eqn:DA; [contradiction|]. destruct bargs as [|x bargs]; [contradiction|].
      rewrite <- app_assoc. fold (sp_of (is_space_needed (c :: args) (x :: bargs) && ge (hd zero (c :: args)) zero)). reflexivity.
    - cbn [sp_of app]. destruct (d_args d) as [|c args] eqn:DA; [reflexivity|]. destruct bargs; rewrite <- app_assoc; reflexivity.
  Qed.

  Lemma letter_ok i : (letter i < 128)%N /\ id_of_char (letter i) = Some i /\ is_whitespace (letter i) = false /\
    letter i <> 44%N /\ letter i <> 46%N /\ ~ digit (letter i) /\ letter i <> 101%N /\ letter i <> 69%N.
  Proof. destruct i; cbn; unfold digit; repeat split; try reflexivity; try discriminate; lia. Qed.
  Lemma num_char_id c : num_char c -> id_of_char c = None.
  Proof.
    intros H. assert (E : In c (map N.of_nat (seq 45 13))).
    { apply in_map_iff. exists (N.to_nat c). split; [apply N2Nat.id|]. apply in_seq. unfold num_char, DOT, digit in H. lia. }
    vm_compute in E. repeat (destruct E as [<-|E]; [reflexivity|]). destruct E.
  Qed.

  Lemma nt_body before l : forall bargs, (bargs = [] <-> before = ClosePath) -> chain before l -> not_trailing (rest_text bargs l).
  Proof.
    revert before. induction l as [|d l IH]; intros before bargs NB C; [exact not_trailing_nil|].
    destruct C as ((FL & AR) & IM & CH). cbn [rest_text]. unfold body.
    pose proof (flags_len d FL) as FLL.
    assert (N1 : not_trailing (format_tail (d_args d) l)).
    { rewrite (tail_split (d_id d) (d_args d) l FLL CH). apply nt_sp; [|apply (IH (d_id d)); auto].
      destruct l as [|e l]; [left; reflexivity|]. cbn [lead_text]. apply is_sp_of. }
    assert (N2 : not_trailing (format_args (d_args d) ++ format_tail (d_args d) l)).
    { unfold format_args. destruct (d_args d) as [|c args]; [exact N1|]. inversion AR as [|? ? A1 A2]; subst.
      rewrite <- app_assoc. fold (T c). apply nt_T; [destruct A1; auto|]. apply nt_rest; [|exact N1].
      revert A2. apply Forall_impl. intros x [X _]. exact X. }
    destruct (d_implicit d); [exact N2|]. cbn [app]. destruct (letter_ok (d_id d)) as (_ & _ & _ & L1 & L2 & _). apply nt_char; auto.
  Qed.

  Lemma head_body before bargs l : chain before l -> (bargs = [] <-> before = ClosePath) -> head_ok (rest_text bargs l).
  Proof.
    intros C NB. destruct l as [|d l]; [exact I|]. destruct C as ((FL & AR) & IM & CH). cbn [rest_text]. unfold body.
    destruct (d_implicit d) eqn:ID.
    - cbn [app]. apply flags_len in FL. destruct (IM eq_refl) as [_ NC]. destruct (d_args d) as [|c args]; [exfalso; tauto|].
      cbn [format_args]. rewrite <- app_assoc. inversion AR as [|? ? A1 A2]; subst. apply T_head_ok. destruct A1; auto.
    - cbn [app head_ok]. destruct (letter_ok (d_id d)) as (_ & _ & W & L1 & _). split; auto.
  Qed.

  Lemma stops_letter t i r : stops t (letter i :: r).
  Proof. destruct (letter_ok i) as (_ & _ & _ & _ & L2 & L3 & L4 & L5). simpl. split; [auto|]. split; intros; [contradiction|tauto]. Qed.

  Lemma stops_body before bargs l : chain before l -> (bargs = [] <-> before = ClosePath) -> bargs <> [] -> Forall arg_ok bargs ->
    stops (T (last bargs zero)) (lead_text bargs l ++ rest_text bargs l).
  Proof.
    intros C NB NE AB. destruct l as [|d l]; [exact I|]. destruct C as ((FL & AR) & IM & CH). cbn [lead_text rest_text]. unfold lead, body.
    destruct (d_implicit d) eqn:ID.
    - cbn [andb app]. apply flags_len in FL. destruct (IM eq_refl) as [_ NC]. destruct (d_args d) as [|c args] eqn:DA; [exfalso; tauto|].
      destruct (is_space_needed (c :: args) bargs && ge (hd zero (c :: args)) zero) eqn:SN; cbn [sp_of app]; [apply stops_space|].
      cbn [format_args]. rewrite <- app_assoc. fold (T c). apply join_commands.
      + assert (I : In (last bargs zero) bargs). { destruct (exists_last NE) as (b' & x & ->). rewrite last_last. apply in_app_iff. right; left; auto. }
        rewrite Forall_forall in AB. apply AB in I. destruct I; auto.
      + inversion AR as [|? ? [A1 _] _]; subst. exact A1.
      + exact SN.
    - cbn [andb sp_of app]. apply stops_letter.
  Qed.

  Lemma data_at d l a imp : cmd_ok d -> chain (d_id d) l ->
    exists a', parse_data finite imp (d_id d) (at_ a (format_args (d_args d) ++ format_tail (d_args d) l)) =
      Ok (D imp (d_id d) (map norm0 (d_args d))) (at_ a' (rest_text (d_args d) l)).
  Proof.
    intros [FL AR] CH. pose proof (flags_len d FL) as FLL. unfold parse_data, bind.
    rewrite (tail_split (d_id d) (d_args d) l FLL CH).
    destruct (d_args d) as [|c args] eqn:DA.
    - assert (E : d_id d = ClosePath) by tauto. rewrite E in *. cbn [slots parse_args format_args app map].
      assert (LT : lead_text [] l = []).
      { destruct l as [|e l]; [reflexivity|]. cbn [lead_text]. unfold lead. destruct CH as (_ & IM & _).
        destruct (d_implicit e); [|reflexivity]. destruct (IM eq_refl) as [R NC]. simpl in R. contradiction. }
      rewrite LT. eexists. reflexivity.
    - cbn [format_args]. rewrite <- app_assoc. fold (T c). eexists. erewrite args_at; [reflexivity| | | | | |].
      + unfold flags_ok in FL. rewrite DA in FL. exact FL.
      + exact AR.
      + destruct l as [|e l]; [left; reflexivity|]. cbn [lead_text]. apply is_sp_of.
      + eapply head_body; eauto.
      + eapply nt_body; eauto.
      + eapply stops_body; eauto. discriminate.
  Qed.

  Lemma step_at d l a acc b : cmd_ok d -> chain (d_id d) l -> hd_error acc = Some b ->
    (d_implicit d = true -> repeats (d_id b) (d_id d) /\ d_id d <> ClosePath) ->
    exists a' imp, step finite acc (at_ a (body d l)) = Ok (D imp (d_id d) (map norm0 (d_args d))) (at_ a' (rest_text (d_args d) l)).
  Proof.
    intros CO CH HB IM. unfold step, body. rewrite HB. destruct (d_implicit d) eqn:ID; cbn [app].
    - destruct (IM eq_refl) as [R NC]. destruct (data_at d l a true CO CH) as (a' & E). exists a', true.
      assert (RI : next_implicit (d_id b) = d_id d). { destruct (d_id b); simpl in *; congruence. }
      pose proof (parse_id_at a (format_args (d_args d) ++ format_tail (d_args d) l)) as PI.
      destruct CO as [FL AR]. pose proof (flags_len d FL) as FLL.
      assert (NF : exists e, try_parse parse_id (at_ a (format_args (d_args d) ++ format_tail (d_args d) l)) = Fail e (at_ a (format_args (d_args d) ++ format_tail (d_args d) l))).
      { destruct (d_args d) as [|c args]; [exfalso; tauto|]. cbn [format_args] in *. fold (T c) in *. inversion AR as [|? ? [A1 _] _]; subst.
        destruct (T_head c A1) as (x & t & ET & NX). rewrite ET in *. cbn [app] in *. rewrite (num_char_id x NX) in PI. exact PI. }
      destruct NF as (e & NF). unfold bind.
      assert (NX : next_command false (Some b) (at_ a (format_args (d_args d) ++ format_tail (d_args d) l)) = Ok (true, d_id d) (at_ a (format_args (d_args d) ++ format_tail (d_args d) l))).
      { unfold next_command, bind. erewrite or_remaining_ok by (rewrite NF; reflexivity). cbn. rewrite RI. reflexivity. }
      rewrite NX. cbn [fst snd]. apply or_remaining_ok. unfold try_parse. rewrite E. reflexivity.
    - destruct (letter_ok (d_id d)) as (LA & LI & _).
      pose proof (parse_id_at a (letter (d_id d) :: format_args (d_args d) ++ format_tail (d_args d) l)) as PI. cbn iota beta in PI. rewrite LI in PI.
      set (imp := id_eqb (next_implicit (d_id b)) (d_id d)).
      destruct (data_at d l (a ++ [letter (d_id d)]) imp CO CH) as (a' & E). exists a', imp. unfold bind.
      assert (NX : next_command false (Some b) (at_ a (letter (d_id d) :: format_args (d_args d) ++ format_tail (d_args d) l)) = Ok (imp, d_id d) (at_ (a ++ [letter (d_id d)]) (format_args (d_args d) ++ format_tail (d_args d) l))).
      { unfold next_command, bind. erewrite or_remaining_ok by (rewrite PI; reflexivity). cbn [fst snd negb andb]. fold imp. destruct imp; reflexivity. }
      rewrite NX. cbn [fst snd]. apply or_remaining_ok. unfold try_parse. rewrite E. reflexivity.
  Qed.

  Lemma pre_at b acc a r : head_ok r -> not_trailing r -> pre (b :: acc) (at_ a r) = Ok tt (at_ a r).
  Proof. intros H [_ E]. unfold pre, bind. rewrite skip_ws_none, skip_comma_none, skip_ws_none by auto. reflexivity. Qed.

  Lemma norm0_args l : Forall2 same_number l (map norm0 l).
  Proof. induction l; constructor; auto. apply norm0_same. Qed.

  Lemma extend_at l : forall fuel b acc bargs a, List.length l <= fuel -> chain (d_id b) l -> (bargs = [] <-> d_id b = ClosePath) ->
    exists l' a', parse_extend finite fuel false (b :: acc) (at_ a (rest_text bargs l)) = Ok (rev (b :: acc) ++ l') (at_ a' []) /\ same_path l l'.
  Proof.
    induction l as [|d l IH]; intros fuel b acc bargs a LE CH NB.
    - exists [], a. split; [|constructor]. rewrite app_nil_r. destruct fuel; cbn [parse_extend rest_text]; unfold bind; rewrite is_empty_at; reflexivity.
    - destruct fuel as [|fuel]; [simpl in LE; lia|]. simpl in LE.
      pose proof (head_body _ bargs _ CH NB) as HO. pose proof (nt_body _ _ bargs NB CH) as NT.
      cbn [parse_extend]. unfold bind at 1. rewrite is_empty_at.
      assert (NE : rest_text bargs (d :: l) <> []).
      { cbn [rest_text]. unfold body. destruct CH as ((FL & AR) & IM & _). destruct (d_implicit d); [|discriminate].
        apply flags_len in FL. destruct (IM eq_refl) as [_ NC]. destruct (d_args d) as [|c args]; [exfalso; tauto|].
        cbn [format_args app]. inversion AR as [|? ? [A1 _] _]; subst. fold (T c). destruct (T_head c A1) as (x & t & -> & _). discriminate. }
      destruct (rest_text bargs (d :: l)) as [|x xs] eqn:EQ; [contradiction|]. rewrite <- EQ in *. clear NE EQ.
      pose proof CH as ((CO1 & CO2) & IM & CH').
      destruct (step_at d l a (b :: acc) b (conj CO1 CO2) CH' eq_refl IM) as (a' & imp & ST).
      unfold bind. rewrite parse_one_eq. unfold bind. rewrite (pre_at b acc a _ HO NT). cbn [rest_text]. rewrite ST.
      set (e := D imp (d_id d) (map norm0 (d_args d))).
      destruct (IH fuel e (b :: acc) (d_args d) a') as (l' & a'' & E & S); [lia|exact CH'|exact (flags_len d CO1)|].
      exists (e :: l'), a''. rewrite E. split.
      + f_equal. cbn [rev]. rewrite <- !app_assoc. reflexivity.
      + constructor; [|exact S]. split; [reflexivity|apply norm0_args].
  Qed.

  Lemma path_at d l : d_implicit d = false -> d_id d = MoveTo \/ d_id d = MoveBy -> cmd_ok d -> chain (d_id d) l ->
    forall fuel, S (List.length l) <= fuel ->
    exists l' q, parse_path finite fuel (format_path (d :: l)) = Ok l' q /\ same_path (d :: l) l'.
  Proof.
    intros ID MV CO CH fuel LE.
    assert (ET : format_path (d :: l) = body d l).
    { unfold format_path, body, format_single, id_char. rewrite ID. destruct l; [cbn [format_tail]; rewrite app_nil_r|]; reflexivity. }
    rewrite ET. destruct fuel as [|fuel]; [lia|].
    pose proof (data_at d l [letter (d_id d)] false CO CH) as (a' & E).
    set (e := D false (d_id d) (map norm0 (d_args d))) in *.
    assert (HO : head_ok (body d l)). { unfold body. rewrite ID. cbn [app head_ok]. destruct (letter_ok (d_id d)) as (_ & _ & W & L1 & _). split; auto. }
    destruct CO as [FL AR].
    destruct (extend_at l fuel e [] (d_args d) a' ltac:(lia) CH (flags_len d FL)) as (l' & a'' & EX & S).
    exists (e :: l'). unfold parse_path, parse_string. change (new (body d l)) with (at_ [] (body d l)).
    unfold bind. rewrite (skip_ws_none [] _ HO).
    assert (PE : parse_extend finite (Datatypes.S fuel) false [] (at_ [] (body d l)) = Ok (e :: l') (at_ a'' [])).
    { cbn [parse_extend]. unfold bind at 1. rewrite is_empty_at.
      assert (NE : body d l <> []) by (unfold body; rewrite ID; discriminate).
      destruct (body d l) as [|x xs] eqn:EQ; [contradiction|]. rewrite <- EQ in *. clear NE EQ.
      unfold bind. rewrite parse_one_eq. unfold bind, pre, bind. rewrite (skip_ws_none [] _ HO). cbn [ret].
      assert (ST : step finite [] (at_ [] (body d l)) = Ok e (at_ a' (rest_text (d_args d) l))).
      { unfold step, body. rewrite ID. cbn [app hd_error].
        destruct (letter_ok (d_id d)) as (LA & LI & _).
        pose proof (parse_id_at [] (letter (d_id d) :: format_args (d_args d) ++ format_tail (d_args d) l)) as PI. cbn iota beta in PI. rewrite LI in PI.
        assert (NX : next_command false None (at_ [] (letter (d_id d) :: format_args (d_args d) ++ format_tail (d_args d) l)) = Ok (false, d_id d) (at_ [letter (d_id d)] (format_args (d_args d) ++ format_tail (d_args d) l))).
        { unfold next_command, bind. erewrite or_remaining_ok by (rewrite PI; reflexivity). cbn [fst snd negb andb app].
          destruct MV as [M|M]; rewrite M; reflexivity. }
        unfold bind. rewrite NX. cbn [fst snd]. apply or_remaining_ok. unfold try_parse. rewrite E. reflexivity. }
      unfold ret. rewrite ST. exact EX. }
    rewrite PE. rewrite (skip_ws_none a'' [] I). unfold expect_done, done. unfold bind.
    eexists. split; [|constructor; [split; [reflexivity|apply norm0_args]|exact S]].
    unfold at_. cbn [p_cursor p_input]. rewrite app_nil_r, Nat.ltb_irrefl. reflexivity.
  Qed.
End Read.

Ltac peel L args :=
  lazymatch type of L with
  | _ = 0 => destruct args; [clear L|discriminate L]
  | _ = S _ => destruct args as [|? args]; [discriminate L|cbn [List.length] in L; apply Nat.succ_inj in L; peel L args]
  end.
Lemma slots_flags i args : List.length args = arity i -> (is_arc i -> flag (nth 3 args zero) /\ flag (nth 4 args zero)) ->
  Forall2 (fun (k : bool) x => k = true -> flag x) (slots i) args.
Proof.
  intros L A. destruct i; cbn [arity slots] in *; peel L args; cbn [nth] in A.
  18,19: destruct A as [A1 A2]; [unfold is_arc; auto|].
  all: repeat (apply Forall2_cons; [intros X; first [discriminate X|assumption]|]); apply Forall2_nil.
Qed.

Lemma round_trip finite l : path_ok l -> l <> [] ->
  Forall (fun d => Forall (fun x => plain x /\ finite x = true) (d_args d)) l -> finite (Dec false [] 0) = true ->
  Forall (fun d => d_implicit d = true -> d_id d <> ClosePath) l ->
  forall fuel, List.length l <= fuel ->
  exists l' q, parse_path finite fuel (format_path l) = Ok l' q /\ same_path l l'.
Proof.
  intros [CO PO] NE PL FZ NC fuel LE. destruct l as [|d l]; [contradiction|]. destruct PO as (ID & MV & FO).
  assert (ALL : forall x, In x (d :: l) -> cmd_ok finite x).
  { intros x X. rewrite Forall_forall in CO, PL. destruct (CO x X) as (C1 & C2 & C3). specialize (PL x X).
    split; [apply slots_flags; auto|]. rewrite Forall_forall in *. intros y Y. specialize (C2 y Y). destruct (PL y Y) as [P F].
    split; [split; auto|]. unfold norm0. destruct (dig y); auto. }
  apply path_at; auto; [apply ALL; left; auto|].
  assert (ALL' : forall x, In x l -> cmd_ok finite x) by (intros; apply ALL; right; auto).
  inversion NC as [|? ? _ NC']; subst. clear - ALL' NC' FO. revert FO. generalize (d_id d) as b.
  induction l as [|e l IH]; intros b FO; [exact I|]. destruct FO as [F1 F2]. inversion NC'; subst.
  split; [apply ALL'; left; auto|]. split; [auto|]. apply IH; auto. intros; apply ALL'; right; auto.
Qed.
