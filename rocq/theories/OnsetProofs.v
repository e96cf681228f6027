From Coq Require Import String List NArith ZArith Bool Arith Lia.
From Verif Require Import Chars ParseModel ParseSpec ParseProofs ParseProofs2 ParseProofs3 ParseProofs4 ListProofs ClockModel ClockSpec ClockProofs OnsetModel OnsetSpec.
Import ListNotations.

(** ** Characters *)
Lemma space_ws c : xml_space c -> is_whitespace c = true.
Proof. intros [-> |[-> |[-> | ->]]]; reflexivity. Qed.
Lemma space_not_name c : xml_space c -> is_name_char c = false.
Proof. intros [-> |[-> |[-> | ->]]]; reflexivity. Qed.
Lemma start_ascii c : plain_start c -> (c < 128)%N.
Proof. unfold plain_start. lia. Qed.
Lemma start_name c : plain_start c -> is_name_start_char c = true.
Proof.
  intros [H|[H|[-> | ->]]]; try reflexivity; unfold is_name_start_char, between.
  - replace ((65 <=? c) && (c <=? 90))%N with true; [reflexivity|]. symmetry. apply andb_true_intro. split; apply N.leb_le; lia.
  - replace ((97 <=? c) && (c <=? 122))%N with true; [apply orb_true_r || (cbn; rewrite ?orb_true_r; reflexivity)|]. symmetry. apply andb_true_intro. split; apply N.leb_le; lia.
Qed.
Lemma start_not_ws c : plain_start c -> is_whitespace c = false.
Proof.
  intros H. assert (L : (58 <= c <= 122)%N) by (unfold plain_start in H; lia).
  assert (X : forall k, 58 <= k <= 122 -> is_whitespace (N.of_nat k) = false).
  { intros k K. do 123 (destruct k as [|k]; [try lia; try reflexivity|]). lia. }
  rewrite <- (N2Nat.id c). apply X. lia.
Qed.
Lemma skip_spaces a w r : spaces w -> match r with [] => True | c :: _ => is_whitespace c = false end ->
  skip_whitespace (at_ a (w ++ r)) = Ok tt (at_ (a ++ w) r).
Proof.
  intros W R. unfold skip_whitespace. rewrite skip_matches_at.
  destruct (take_while_app is_whitespace w r) as [-> ->]; [|exact R|reflexivity].
  revert W. apply Forall_impl, space_ws.
Qed.

(** ** Clocks anywhere, with a sign *)
Section Onset.
  Variable finite : dec -> bool.
  Variable f32 : dec -> dec.
  Variable print : dec -> text.
  Let after := after finite f32.

  Lemma sign_plus a w t d r : spaces w -> spells t d -> parse_sign (at_ a (43%N :: w ++ t ++ r)) = Ok false (at_ (a ++ 43%N :: w) (t ++ r)).
  Proof.
    intros W S. unfold parse_sign, or_else, try_parse, bind. rewrite read_at by lia.
    rewrite skip_spaces; [|exact W|eapply head_not_ws, S]. cbn. rewrite <- app_assoc. reflexivity.
  Qed.
  Lemma sign_dash a w t d r : spaces w -> spells t d -> parse_sign (at_ a (45%N :: w ++ t ++ r)) = Ok true (at_ (a ++ 45%N :: w) (t ++ r)).
  Proof.
    intros W S. unfold parse_sign, or_else, try_parse, bind. rewrite read_at by lia.
    rewrite skip_spaces; [|exact W|eapply head_not_ws, S]. cbn. rewrite <- app_assoc. reflexivity.
  Qed.

  Lemma start_signed a v n w t d r : spaces v -> spaces w -> spells t d -> finite d = true -> f32 d = d ->
    match r with [] => True | c :: _ => unit_start c end -> ~ ends_in 46%N r ->
    parse_clock finite f32 (at_ a (v ++ (if n : bool then 45%N else 43%N) :: w ++ t ++ r)) =
      after (apply_sign n d) (at_ (a ++ v ++ (if n then 45%N else 43%N) :: w ++ t) r).
  Proof.
    intros V W S F R U E. unfold parse_clock. unfold bind.
    rewrite skip_spaces; [|exact V|destruct n; reflexivity].
    assert (SG : parse_sign (at_ (a ++ v) ((if n then 45%N else 43%N) :: w ++ t ++ r)) = Ok n (at_ ((a ++ v) ++ (if n then 45%N else 43%N) :: w) (t ++ r))).
    { destruct n; [apply (sign_dash _ _ _ d)|apply (sign_plus _ _ _ d)]; assumption. }
    rewrite SG. rewrite (f32_at finite f32 _ t r d S F R U E). unfold after, ClockProofs.after.
    rewrite <- !app_assoc. reflexivity.
  Qed.
  Lemma start_plain a t d r : spells t d -> finite d = true -> f32 d = d ->
    match r with [] => True | c :: _ => unit_start c end -> ~ ends_in 46%N r ->
    parse_clock finite f32 (at_ a (t ++ r)) = after (apply_sign false d) (at_ (a ++ t) r).
  Proof.
    intros S F R U E. unfold parse_clock, bind. rewrite skip_ws_head by (eapply head_not_ws, S).
    rewrite (sign_none _ t d r S). rewrite (f32_at finite f32 _ t r d S F R U E). reflexivity.
  Qed.

  Lemma unsigned_spells t d r : spells t d -> unsigned (t ++ r) = t ++ r.
  Proof.
    intros (H & _). destruct t as [|c t]; [destruct H|]. cbn [app unsigned].
    destruct (N.eqb_spec c 45) as [->|]; [unfold digit in H; lia|reflexivity].
  Qed.

  (** A clock is a number and what follows. *)
  Lemma clock_parts c : clock_ok finite f32 print c ->
    exists t d r, unsigned (print_clock print c) = t ++ r /\ spells t d /\ finite d = true /\ f32 d = d /\
      match r with [] => True | c :: _ => unit_start c end /\ ~ ends_in 46%N r /\
      print_clock print c = (if negative c then 45%N :: t ++ r else t ++ r) /\ is_negative c = negative c /\
      forall a, after (apply_sign (negative c) d) (at_ a r) = Ok c (at_ (a ++ r) []).
  Proof.
    intros OK. destruct c as [h m s|m s|t m]; cbn [clock_ok] in OK.
    - destruct OK as (H & M & S & N). destruct (pad_int_spells finite f32 h H) as (dh & SH & FH & RH & IH & _ & NH).
      destruct (pad_int_spells finite f32 m M) as (dm & SM & FM & RM & IM & ZM & _). destruct (pad_number_spells finite f32 print s S N) as (SS & FS & RS).
      exists (pad_int h), dh, (58%N :: pad_int m ++ 58%N :: pad_number print s). cbn [print_clock negative is_negative].
      split; [apply (unsigned_spells _ dh), SH|]. split; [exact SH|]. split; [exact FH|]. split; [exact RH|].
      split; [left; reflexivity|]. split.
      { intros X. apply (ends_no_dot _ _ (58%N :: pad_int m ++ [58%N]) SS). cbn [app]. rewrite <- app_assoc. exact X. }
      split; [reflexivity|]. split; [apply Z.ltb_ge; destruct H as [[? ?] _]; lia|].
      intros a. rewrite (apply_sign_false dh NH). unfold after. rewrite (after_full finite f32 a dh dm _ s _ SM FM RM ZM SS FS RS).
      rewrite IH, IM. reflexivity.
    - destruct OK as (M & S & N). destruct (pad_int_spells finite f32 m M) as (dm & SM & FM & RM & IM & ZM & NM). destruct (pad_number_spells finite f32 print s S N) as (SS & FS & RS).
      exists (pad_int m), dm, (58%N :: pad_number print s). cbn [print_clock negative is_negative].
      split; [apply (unsigned_spells _ dm), SM|]. split; [exact SM|]. split; [exact FM|]. split; [exact RM|].
      split; [left; reflexivity|]. split; [intros X; exact (ends_no_dot _ _ [58%N] SS X)|].
      split; [reflexivity|]. split; [apply Z.ltb_ge; destruct M as [[? ?] _]; lia|].
      intros a. rewrite (apply_sign_false dm NM). unfold after. rewrite (after_partial finite f32 a dm s _ SS FS RS).
      rewrite IM. reflexivity.
    - destruct OK as (F & R & u & S & E). exists u, (Dec false (dig t) (ex t)), (print_metric m).
      rewrite timecount_text. rewrite E. cbn [negative is_negative].
      split; [destruct (neg t); [reflexivity|apply (unsigned_spells _ _ _ S)]|].
      split; [exact S|]. split; [exact F|]. split; [exact R|].
      split; [destruct m; cbn; unfold unit_start; auto|].
      split; [intros (x & X); destruct m; cbn in X; repeat (destruct x as [|? x]; try discriminate)|].
      split; [destruct (neg t); reflexivity|]. split; [reflexivity|].
      intros a. rewrite apply_sign_same. apply after_metric.
  Qed.

  Lemma clock_signed a v c s : spaces v -> clock_ok finite f32 print c -> signed print c s ->
    parse_clock finite f32 (at_ a (v ++ s)) = Ok c (at_ (a ++ v ++ s) []).
  Proof.
    intros V OK (w & W & ->). destruct (clock_parts c OK) as (t & d & r & -> & S & F & R & U & E & _ & _ & A).
    rewrite (start_signed a v (negative c) w t d r V W S F R U E). rewrite A. f_equal. f_equal.
    repeat (rewrite <- ?app_assoc; cbn [app]). reflexivity.
  Qed.
  Lemma clock_plain a c : clock_ok finite f32 print c -> negative c = false ->
    parse_clock finite f32 (at_ a (print_clock print c)) = Ok c (at_ (a ++ print_clock print c) []).
  Proof.
    intros OK NG. destruct (clock_parts c OK) as (t & d & r & _ & S & F & R & U & E & -> & _ & A). rewrite NG in *.
    rewrite (start_plain a t d r S F R U E). rewrite A, <- app_assoc. reflexivity.
  Qed.
  Lemma clock_no_dot c : clock_ok finite f32 print c -> ~ ends_in 46%N (unsigned (print_clock print c)) /\ unsigned (print_clock print c) <> [].
  Proof.
    intros OK. destruct (clock_parts c OK) as (t & d & r & -> & S & _ & _ & _ & E & _). split.
    - destruct r as [|x r]; [rewrite app_nil_r; apply S|]. rewrite ends_app by discriminate. exact E.
    - destruct S as [H _]. destruct t; [destruct H|discriminate].
  Qed.

  (** ** At the end of the text *)
  Lemma f64_end a : parse_f64 finite (at_ a []) = Fail InvalidNumber (at_ a []).
  Proof.
    unfold parse_f64, bind, skip_whitespace. rewrite skip_matches_at. cbn [take_while drop_while]. rewrite app_nil_r.
    assert (M : skip_mantissa (at_ a []) = Ok tt (at_ a [])).
    { unfold skip_mantissa, bind. rewrite !skip_matches_at. cbn [take_while drop_while]. rewrite app_nil_r.
      rewrite skip_char_at by (intros (x & X); destruct x; discriminate). cbn [take_while drop_while]. rewrite app_nil_r.
      rewrite !skip_matches_at. cbn [take_while drop_while]. rewrite !app_nil_r. reflexivity. }
    unfold cursor. rewrite M.
    assert (X : skip_exponent (at_ a []) = Ok tt (at_ a [])).
    { unfold skip_exponent, bind. rewrite peek_at. reflexivity. }
    rewrite X. pose proof (slice_from_at a [] []) as SL. rewrite app_nil_r in SL.
    change (p_cursor (at_ a [])) with (blen a). rewrite SL. reflexivity.
  Qed.
  Lemma clock_end a : parse_clock finite f32 (at_ a []) = Fail InvalidNumber (at_ a []).
  Proof.
    unfold parse_clock, bind. rewrite skip_ws_head by exact I.
    assert (S : parse_sign (at_ a []) = Ok false (at_ a [])).
    { unfold parse_sign, or_else, try_parse, bind. rewrite read_end. unfold ret, at_. cbn [p_input p_cursor]. rewrite app_nil_r. reflexivity. }
    rewrite S. unfold parse_f32, bind. rewrite f64_end. reflexivity.
  Qed.
  Lemma offset_at a o u : offset_ok finite f32 print o -> offset_text print o u ->
    offset finite f32 (at_ a u) = Ok o (at_ (a ++ u) []).
  Proof.
    intros OK T. unfold offset, ok, try_parse. destruct o as [c|]; cbn in OK, T.
    - destruct T as (w & s & W & S & ->). rewrite (clock_signed a w c s W OK S). reflexivity.
    - subst u. rewrite clock_end, app_nil_r. unfold at_. cbn [p_input p_cursor]. rewrite app_nil_r. reflexivity.
  Qed.
  Lemma offset_at' a o u : offset_ok finite f32 print o -> offset_text print o u ->
    ok (parse_clock finite f32) (at_ a u) = Ok o (at_ (a ++ u) []).
  Proof.
    intros OK T. unfold ok. destruct o as [c|]; cbn in OK, T.
    - destruct T as (w & s & W & S & ->). rewrite (clock_signed a w c s W OK S). reflexivity.
    - subst u. rewrite clock_end, app_nil_r. reflexivity.
  Qed.
  (** After an event. *)
  Lemma offset_after a o u : offset_ok finite f32 print o -> offset_text print o u ->
    bind skip_whitespace (fun _ => offset finite f32) (at_ a u) = Ok o (at_ (a ++ u) []).
  Proof.
    intros OK T. unfold bind. destruct o as [c|]; cbn in OK, T.
    - destruct T as (w & s & W & S & ->). rewrite skip_spaces; [|exact W|destruct S as (w' & _ & ->); destruct (negative c); reflexivity].
      rewrite (offset_at (a ++ w) (Some c) s OK); [rewrite <- app_assoc; reflexivity|]. exists [], s. split; [constructor|]. split; [exact S|reflexivity].
    - subst u. rewrite skip_ws_head by exact I. apply (offset_at a None [] I eq_refl).
  Qed.
  Lemma offset_dot o u x : offset_ok finite f32 print o -> offset_text print o u -> x <> [] -> ~ ends_in 46%N x -> ~ ends_in 46%N (x ++ u).
  Proof.
    intros OK T NE D. destruct o as [c|]; cbn in OK, T.
    - destruct T as (w & s & W & (w' & _ & ->) & ->). destruct (clock_no_dot c OK) as [E NE'].
      match goal with |- ~ ends_in _ (x ++ w ++ ?k :: w' ++ ?m) => replace (x ++ w ++ k :: w' ++ m) with ((x ++ w ++ k :: w') ++ m) by (repeat (rewrite <- ?app_assoc; cbn [app]); reflexivity) end.
      rewrite ends_app by exact NE'. exact E.
    - subst u. rewrite app_nil_r. exact D.
  Qed.

  (** ** The alternatives before *)
  Lemma clock_fails a c r : plain_start c -> ~ ends_in 46%N (c :: r) ->
    exists e q, parse_clock finite f32 (at_ a (c :: r)) = Fail e q /\ p_input q = a ++ c :: r.
  Proof.
    intros P D. unfold parse_clock, bind. rewrite skip_ws_head by (apply start_not_ws, P).
    assert (S : parse_sign (at_ a (c :: r)) = Ok false (at_ a (c :: r))).
    { unfold parse_sign, or_else, try_parse, bind. rewrite read_at by (apply start_ascii, P). unfold skip_whitespace. rewrite skip_matches_at.
      destruct (N.eqb_spec c 43) as [->|_]; [unfold plain_start in P; lia|]. destruct (N.eqb_spec c 45) as [->|_]; [unfold plain_start in P; lia|].
      unfold fail, ret. cbn [p_input p_cursor]. f_equal. unfold at_. cbn [p_input p_cursor]. rewrite <- !app_assoc, take_drop. reflexivity. }
    rewrite S. unfold parse_f32, bind. destruct (f64_no_panic finite a (c :: r) D) as [(d & t & r' & E & NE & H)|(e & q & H & I)].
    - exfalso. destruct (f64_sound finite a (c :: r) d _ D H) as (w & t' & r'' & n & m & e & E' & W & N & _).
      destruct w as [|x w]; [|injection E' as <- _; inversion W as [|? ? X]; rewrite (start_not_ws c P) in X; discriminate].
      destruct N as (s & i & tf & f & te & x & -> & SG & I & FR & NE' & _). cbn [app] in E'.
      destruct SG as [[-> _]|[[-> _]|[-> _]]]; try (injection E' as -> _; unfold plain_start in P; lia).
      cbn [app] in E'. destruct i as [|i1 i]; [|injection E' as -> _; inversion I; unfold plain_start, digit in *; lia].
      destruct FR as [[-> ->]|[-> _]]; [cbn in NE'; congruence|]. injection E' as -> _. unfold plain_start in P; lia.
    - rewrite H. eauto.
  Qed.
  Lemma matching_fails {A} (k : unit -> parser -> out A) kw a c r : plain_start c -> c :: take_while is_name_char r <> kw ->
    exists e q, bind (expect_ident_matching kw) k (at_ a (c :: r)) = Fail e q /\ p_input q = a ++ c :: r.
  Proof.
    intros P NE. unfold expect_ident_matching, bind. rewrite expect_ident_at by (apply start_ascii, P || apply start_name, P).
    destruct (text_eqb _ kw) eqn:E; [apply text_eqb_spec in E; contradiction|].
    eexists; eexists. split; [reflexivity|]. cbn [at_ p_input]. rewrite <- app_assoc. cbn [app]. rewrite take_drop. reflexivity.
  Qed.
  Lemma no_paren_fails {A} (k : text -> parser -> out A) kw a c r : plain_start c ->
    match drop_while is_name_char r with [] => True | x :: _ => (x < 128)%N /\ x <> 40%N end ->
    exists e q, bind (expect_ident_matching kw) (fun _ => bind parenthesised k) (at_ a (c :: r)) = Fail e q /\ p_input q = a ++ c :: r.
  Proof.
    intros P D. unfold expect_ident_matching, bind. rewrite expect_ident_at by (apply start_ascii, P || apply start_name, P).
    assert (I : a ++ c :: r = (a ++ c :: take_while is_name_char r) ++ drop_while is_name_char r).
    { rewrite <- app_assoc. cbn [app]. rewrite take_drop. reflexivity. }
    destruct (text_eqb _ kw).
    - unfold ret. unfold parenthesised, bind. pose proof (expect_char_at 40 (a ++ c :: take_while is_name_char r) (drop_while is_name_char r)) as X.
      rewrite I. destruct (drop_while is_name_char r) as [|x l].
      + rewrite X by lia. eauto.
      + destruct D as [L NE]. rewrite X by (exact L || lia). destruct (N.eqb_spec x 40) as [|_]; [contradiction|].
        eexists; eexists. split; [reflexivity|]. cbn [at_ p_input]. rewrite <- !app_assoc. reflexivity.
    - rewrite I. eexists; eexists. split; reflexivity.
  Qed.

  (** ** Names *)
  Lemma last_none f s : Forall (fun c => f c = false) s -> before_last f s = None.
  Proof. induction 1 as [|c s C _ IH]; [reflexivity|]. cbn. rewrite IH, C. reflexivity. Qed.
  Lemma last_some f a c b : f c = true -> Forall (fun c => f c = false) b -> before_last f (a ++ c :: b) = Some a.
  Proof.
    intros C B. induction a as [|x a IH]; cbn.
    - rewrite (last_none f b B), C. reflexivity.
    - rewrite IH. reflexivity.
  Qed.
  Definition base (id : option text) (e : text) : text := match id with Some i => i ++ 46%N :: e | None => e end.
  Definition stops_name (u : text) : Prop :=
    match take_while is_name_char u with [] => True | c :: x => c = 45%N /\ ~ In 45%N x end.
  Lemma plus_not_name c : is_name_char c = true -> c <> 43%N.
  Proof. intros H ->. discriminate H. Qed.
  Lemma name_char_of c : plain_char c -> is_name_char c = true.
  Proof. intros [H _]. exact H. Qed.
  Lemma take_name b u : Forall plain_char b -> take_while is_name_char (b ++ u) = b ++ take_while is_name_char u /\
    drop_while is_name_char (b ++ u) = drop_while is_name_char u.
  Proof. induction 1 as [|c b [C _] _ [IH1 IH2]]; [auto|]. cbn. rewrite C, IH1, IH2. auto. Qed.

  Lemma rewind_back a b x r : rewind (blen (b ++ x) - blen b) (at_ (a ++ b ++ x) r) = Ok tt (at_ (a ++ b) (x ++ r)).
  Proof.
    unfold rewind, at_. cbn [p_input p_cursor]. rewrite !blen_app. destruct (Nat.leb_spec (blen b + blen x - blen b) (blen a + (blen b + blen x))); [|lia].
    rewrite <- !app_assoc. replace (blen a + (blen b + blen x) - (blen b + blen x - blen b)) with (blen a + blen b) by lia. reflexivity.
  Qed.

  Lemma target_at a id e u : plain_name (base id e) -> ~ In 46%N e -> stops_name u ->
    parse_target (at_ a (base id e ++ u)) = Ok (id, e) (at_ (a ++ base id e) u).
  Proof.
    intros (B & c & r & EB & P) ND SN.
    assert (FIN : forall p, bind (fun p => Ok (base id e) p) (fun i => ret match before_last (N.eqb 46) i with Some id => (Some id, skipn (S (List.length id)) i) | None => (None, i) end) p = Ok (id, e) p).
    { intros p. unfold bind, ret. destruct id as [i|]; cbn [base].
      - rewrite last_some; [|reflexivity|apply Forall_forall; intros x X; destruct (N.eqb_spec 46 x) as [<-|]; [contradiction|reflexivity]].
        replace (S (List.length i)) with (List.length (i ++ [46%N])) by (rewrite app_length; cbn; lia).
        replace (i ++ 46%N :: e) with ((i ++ [46%N]) ++ e) by (rewrite <- app_assoc; reflexivity). rewrite skipn_app, skipn_all, Nat.sub_diag. reflexivity.
      - rewrite last_none; [reflexivity|]. apply Forall_forall; intros x X; destruct (N.eqb_spec 46 x) as [<-|]; [contradiction|reflexivity]. }
    assert (SIGN : Forall (fun c => N.eqb c 45 || N.eqb c 43 = false) (base id e)).
    { revert B. apply Forall_impl. intros x [X NX]. destruct (N.eqb_spec x 45); [contradiction|]. destruct (N.eqb_spec x 43) as [->|]; [discriminate X|reflexivity]. }
    unfold parse_target. unfold bind at 1. 
    destruct (take_name (base id e) u B) as [T D]. rewrite EB in T, D. cbn [app take_while drop_while] in T, D.
    assert (CN : is_name_char c = true) by (unfold is_name_char; rewrite (start_name c P); reflexivity).
    rewrite CN in T, D. rewrite EB. cbn [app]. rewrite expect_ident_at by (apply start_ascii, P || apply start_name, P).
    rewrite T, D. change (c :: r ++ take_while is_name_char u) with ((c :: r) ++ take_while is_name_char u). rewrite <- EB.
    unfold stops_name in SN. unfold bind at 1. destruct (take_while is_name_char u) as [|x y] eqn:TU.
    - rewrite app_nil_r, (last_none _ _ SIGN). unfold ret at 1.
      pose proof (take_drop is_name_char u) as TD. rewrite TU in TD. cbn [app] in TD. rewrite TD. apply FIN.
    - destruct SN as [-> NX]. rewrite last_some; [|reflexivity|].
      2:{ apply Forall_forall. intros z Z. pose proof (take_while_all is_name_char u) as A. rewrite TU in A. inversion A as [|? ? _ A']. subst.
          rewrite Forall_forall in A'. specialize (A' z Z). destruct (N.eqb_spec z 45) as [->|]; [contradiction|].
          destruct (N.eqb_spec z 43) as [->|]; [discriminate A'|reflexivity]. }
      unfold bind at 1. rewrite rewind_back. unfold ret at 1.
      pose proof (take_drop is_name_char u) as TD. rewrite TU in TD. rewrite TD. apply FIN.
  Qed.

  Lemma offset_stops o u : offset_plain print o -> offset_text print o u -> stops_name u /\
    match drop_while is_name_char u with [] => True | _ => take_while is_name_char u = [] -> match u with [] => True | x :: _ => (x < 128)%N /\ x <> 40%N end end.
  Proof.
    intros OP T. unfold stops_name. destruct o as [c|]; cbn in OP, T.
    - destruct T as (w & s & W & (w' & W' & ->) & ->). destruct w as [|x w].
      + cbn [app]. destruct (negative c) eqn:NC.
        * cbn [take_while drop_while]. change (is_name_char 45) with true. cbn iota. split.
          { split; [reflexivity|]. intros X. specialize (OP eq_refl). assert (X' : In 45%N (w' ++ unsigned (print_clock print c))).
            { rewrite <- (take_drop is_name_char (w' ++ unsigned (print_clock print c))). apply in_or_app. left. exact X. }
            apply in_app_or in X'. destruct X' as [X'|X']; [|contradiction]. unfold spaces in W'. rewrite Forall_forall in W'. specialize (W' _ X').
            destruct W' as [W'|[W'|[W'|W']]]; discriminate. }
          { destruct (drop_while _ _); [exact I|discriminate]. }
        * cbn [take_while drop_while]. change (is_name_char 43) with false. cbn iota. split; [exact I|]. intros _. split; [reflexivity|discriminate].
      + inversion W as [|? ? X _]. subst. cbn [app take_while drop_while]. rewrite (space_not_name x X). split; [exact I|]. intros _.
        destruct X as [-> |[-> |[-> | ->]]]; split; try reflexivity; discriminate.
    - subst u. cbn. auto.
  Qed.
End Onset.
