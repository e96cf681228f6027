From Coq Require Import String List NArith ZArith Bool Arith Lia.
From Verif Require Import Chars ParseModel ParseSpec ParseProofs ParseProofs2 ParseProofs3 ParseProofs4 ListProofs ClockModel ClockSpec ClockProofs OnsetModel OnsetSpec OnsetProofs.
Import ListNotations.

Lemma not_in_kw c kw : existsb (N.eqb c) kw = false -> ~ In c kw.
Proof. intros E H. assert (X : existsb (N.eqb c) kw = true) by (apply existsb_exists; exists c; split; [exact H|apply N.eqb_refl]). congruence. Qed.
Lemma has_dot i e : In 46%N (base (Some i) e).
Proof. cbn. apply in_or_app. right. left. reflexivity. Qed.
Lemma eqb_no a b : a <> b -> text_eqb a b = false.
Proof. intros H. destruct (text_eqb a b) eqn:E; [apply text_eqb_spec in E; contradiction|reflexivity]. Qed.
Lemma eqb_yes a : text_eqb a a = true.
Proof. apply text_eqb_spec. reflexivity. Qed.

(** ** Integers *)
Lemma digits_all ds : Forall digit ds -> digits ds = (map (fun c => (c - 48)%N) ds, []).
Proof.
  induction 1 as [|c ds C _ IH]; [reflexivity|]. cbn [digits map]. rewrite IH.
  replace (is_ascii_digit c) with true; [reflexivity|]. symmetry. unfold is_ascii_digit, digit in *. apply andb_true_intro. split; apply N.leb_le; lia.
Qed.
Lemma of_digits_map ds : Forall digit ds -> of_digits (map (fun c => (c - 48)%N) ds) = digits_value ds.
Proof.
  unfold of_digits, digits_value. generalize 0%Z. intros z H. revert z. induction H as [|c ds C _ IH]; intros z; [reflexivity|].
  cbn [map fold_left]. rewrite IH. f_equal. unfold digit in C. lia.
Qed.
Lemma i64_text z t : integer_text z t -> (- 2147483648 <= z <= 2147483647)%Z -> rust_i64 t = Some z.
Proof.
  intros (s & n & ds & -> & S & D & NE & ->) B. unfold rust_i64.
  assert (SG : sign (s ++ ds) = (n, ds)).
  { destruct S as [[-> ->]|[[-> ->]|[-> ->]]]; try reflexivity. destruct ds as [|c ds]; [contradiction|]. inversion D as [|? ? C]. subst.
    cbn [app sign]. unfold digit in C. destruct (N.eqb_spec c 45); [lia|]. destruct (N.eqb_spec c 43); [lia|reflexivity]. }
  rewrite SG, (digits_all ds D). destruct ds as [|c ds]; [contradiction|]. cbn [map]. change ((c - 48)%N :: map (fun c => (c - 48)%N) ds) with (map (fun c => (c - 48)%N) (c :: ds)).
  rewrite (of_digits_map _ D). cbv zeta.
  match goal with |- (if ?b then _ else _) = _ => replace b with true; [reflexivity|] end.
  symmetry. apply andb_true_intro. split; apply Z.leb_le; lia.
Qed.
Lemma wrap_small z : (- 2147483648 <= z <= 2147483647)%Z -> wrap32 z = z.
Proof. intros B. unfold wrap32. rewrite Z.mod_small by lia. lia. Qed.
Lemma digit_facts c : digit c -> is_ascii_digit c = true /\ is_sign c = false /\ is_whitespace c = false.
Proof.
  intros H. assert (X : forall k, 48 <= k <= 57 -> is_ascii_digit (N.of_nat k) = true /\ is_sign (N.of_nat k) = false /\ is_whitespace (N.of_nat k) = false).
  { intros k K. do 58 (destruct k as [|k]; [try lia; try (split; [|split]; reflexivity)|]). lia. }
  rewrite <- (N2Nat.id c). apply X. unfold digit in H. lia.
Qed.
Lemma i32_at a w t z r : spaces w -> integer_text z t -> (- 2147483648 <= z <= 2147483647)%Z ->
  parse_i32 (at_ a (w ++ t ++ 41%N :: r)) = Ok z (at_ (a ++ w ++ t) (41%N :: r)).
Proof.
  intros W T B. pose proof (i64_text z t T B) as R. destruct T as (s & n & ds & -> & S & D & NE & _).
  unfold parse_i32, bind.
  assert (HD : match ds ++ 41%N :: r with [] => True | c :: _ => is_sign c = false end).
  { destruct ds as [|c ds]; [contradiction|]. inversion D as [|? ? C]. apply (digit_facts c C). }
  rewrite skip_spaces; [|exact W|].
  2:{ destruct S as [[-> _]|[[-> _]|[-> _]]]; try reflexivity. destruct ds as [|c ds]; [contradiction|]. inversion D as [|? ? C]. apply (digit_facts c C). }
  unfold cursor. rewrite skip_matches_at. rewrite <- (app_assoc s ds).
  destruct (take_while_app is_sign s (ds ++ 41%N :: r)) as [-> ->]; [|exact HD|].
  { destruct S as [[-> _]|[[-> _]|[-> _]]]; repeat constructor. }
  rewrite skip_matches_at. destruct (take_while_app is_ascii_digit ds (41%N :: r)) as [-> ->]; [revert D; apply Forall_impl; intros c C; apply (digit_facts c C)|reflexivity|].
  change (p_cursor (at_ (a ++ w) (s ++ ds ++ 41%N :: r))) with (blen (a ++ w)).
  replace (((a ++ w) ++ s) ++ ds) with ((a ++ w) ++ (s ++ ds)) by (rewrite !app_assoc; reflexivity).
  rewrite slice_from_at, R, (wrap_small z B), <- !app_assoc. reflexivity.
Qed.
Lemma print_int_text z : integer_text z (print_int z).
Proof.
  unfold print_int. destruct (Z.ltb_spec z 0) as [L|L].
  - exists [45%N], true, (print_uint (N.to_uint (Z.abs_N z))). split; [reflexivity|]. split; [right; right; auto|].
    split; [apply print_uint_digits|]. split; [apply print_uint_nonempty|]. rewrite uint_value, DecimalN.Unsigned.of_to. lia.
  - exists [], false, (print_uint (N.to_uint (Z.abs_N z))). split; [reflexivity|]. split; [left; auto|].
    split; [apply print_uint_digits|]. split; [apply print_uint_nonempty|]. rewrite uint_value, DecimalN.Unsigned.of_to. lia.
Qed.

Section Onset.
  Variable finite : dec -> bool.
  Variable f32 : dec -> dec.
  Variable print : dec -> text.

  Lemma skip_alts b u : plain_name b -> ~ ends_in 46%N (b ++ u) -> stops_name u -> b <> lit "indefinite" ->
    (take_while is_name_char u = [] -> (b <> lit "accessKey" /\ b <> lit "wallclock") \/ match u with [] => True | x :: _ => (x < 128)%N /\ x <> 40%N end) ->
    parse_begin finite f32 (at_ [] (b ++ u)) = parse_event finite f32 (at_ [] (b ++ u)).
  Proof.
    intros (B & c & r & -> & P) ND SN NI ALT.
    assert (CN : is_name_char c = true) by (unfold is_name_char; rewrite (start_name c P); reflexivity).
    destruct (take_name (c :: r) u B) as [T D]. cbn [app take_while drop_while] in T, D. rewrite CN in T, D.
    assert (FAR : forall kw, existsb (N.eqb 45) kw = false -> take_while is_name_char u <> [] -> c :: take_while is_name_char (r ++ u) <> kw).
    { intros kw K NE E. apply (not_in_kw 45 kw K). rewrite <- E, T. unfold stops_name in SN. destruct (take_while is_name_char u) as [|x y]; [contradiction|].
      destruct SN as [-> _]. cbn [app]. right. apply in_or_app. right. left. reflexivity. }
    assert (HERE : take_while is_name_char u = [] -> c :: take_while is_name_char (r ++ u) = c :: r) by (intros E; rewrite T, E, app_nil_r; reflexivity).
    cbn [app] in *. unfold parse_begin.
    assert (A1 : exists e q, bind (expect_ident_matching (lit "indefinite")) (fun _ => ret Indefinite) (at_ [] (c :: r ++ u)) = Fail e q /\ p_input q = [] ++ c :: r ++ u).
    { apply matching_fails; [exact P|]. destruct (take_while is_name_char u) as [|x y] eqn:TU; [rewrite HERE by reflexivity; exact NI|].
      apply FAR; [reflexivity|discriminate]. }
    destruct A1 as (e1 & q1 & E1 & I1). rewrite (or_else_fail _ _ _ _ _ _ E1 I1).
    destruct (clock_fails finite f32 [] c (r ++ u) P ND) as (e2 & q2 & E2 & I2).
    assert (E2' : bind (parse_clock finite f32) (fun c => ret (OffsetValue c)) (at_ [] (c :: r ++ u)) = Fail e2 q2) by (unfold bind; rewrite E2; reflexivity).
    rewrite (or_else_fail _ _ _ _ _ _ E2' I2).
    assert (A3 : forall (A : Type) (k : text -> parser -> out A) kw, kw = lit "accessKey" \/ kw = lit "wallclock" ->
      exists e q, bind (expect_ident_matching kw) (fun _ => bind parenthesised k) (at_ [] (c :: r ++ u)) = Fail e q /\ p_input q = [] ++ c :: r ++ u).
    { intros A k kw KW. destruct (take_while is_name_char u) as [|x y] eqn:TU.
      - destruct (ALT eq_refl) as [[N1 N2]|HD].
        + apply matching_fails; [exact P|]. rewrite HERE by reflexivity. destruct KW as [-> | ->]; assumption.
        + apply no_paren_fails; [exact P|]. rewrite D. destruct u as [|x u]; [exact I|]. cbn [take_while] in TU.
          cbn [drop_while]. destruct (is_name_char x); [discriminate|exact HD].
      - apply matching_fails; [exact P|]. apply FAR; [destruct KW as [-> | ->]; reflexivity|discriminate]. }
    destruct (A3 _ (fun t => bind (offset finite f32) (fun o => ret (AccessKeyValue t o))) (lit "accessKey") (or_introl eq_refl)) as (e3 & q3 & E3 & I3).
    rewrite (or_else_fail _ _ _ _ _ _ E3 I3).
    destruct (A3 _ (fun t => ret (WallclockSyncValue t)) (lit "wallclock") (or_intror eq_refl)) as (e4 & q4 & E4 & I4).
    rewrite (or_else_fail _ _ _ _ _ _ E4 I4). reflexivity.
  Qed.

  Lemma event_at id e o u : plain_name (base id e) -> ~ In 46%N e -> e <> [] -> base id e <> lit "indefinite" -> e <> lit "repeat" ->
    offset_ok finite f32 print o -> offset_plain print o -> offset_text print o u ->
    parse_begin finite f32 (at_ [] (base id e ++ u)) =
      Ok (match id with Some i => if text_eqb e (lit "begin") || text_eqb e (lit "end") then SyncbaseValue i (text_eqb e (lit "begin")) o else EventValue (Some i) e o
          | None => EventValue None e o end) (at_ (base id e ++ u) []).
  Proof.
    intros PN ND NE NI NR OK OP T. destruct (offset_stops print o u OP T) as [SN HD].
    rewrite skip_alts; auto.
    - unfold parse_event. unfold bind at 1. rewrite (target_at [] id e u PN ND SN). rewrite (eqb_no _ _ NR).
      pose proof (offset_after finite f32 print ([] ++ base id e) o u OK T) as OA. unfold bind in OA |- *.
      destruct (skip_whitespace (at_ ([] ++ base id e) u)) as [v p|? ?| |]; try discriminate OA. rewrite OA. reflexivity.
    - apply (offset_dot finite f32 print o u); auto.
      + destruct id as [i|]; cbn; [destruct i; discriminate|exact NE].
      + destruct id as [i|]; cbn [base]; [rewrite ends_app by discriminate; intros X; apply ends_cons in X; [|exact NE]|intros X];
          destruct X as (x & X); apply ND; rewrite X; apply in_or_app; right; left; reflexivity.
    - intros E. right. destruct u as [|x u]; [exact I|]. cbn [take_while] in E. destruct (is_name_char x) eqn:NX; [discriminate|].
      cbn [drop_while take_while] in HD. rewrite NX in HD. apply HD. reflexivity.
  Qed.

  Lemma base_name i e : plain_name i -> Forall plain_char e -> plain_name (base (Some i) e).
  Proof.
    intros (F & c & r & -> & P) E. split.
    - cbn [base]. apply Forall_app. split; [exact F|]. constructor; [split; [reflexivity|discriminate]|exact E].
    - exists c, (r ++ 46%N :: e). auto.
  Qed.
  Lemma base_not_kw i e kw : existsb (N.eqb 46) kw = false -> base (Some i) e <> kw.
  Proof. intros K E. apply (not_in_kw 46 kw K). rewrite <- E. apply has_dot. Qed.
  Lemma plain_list kw : forallb (fun c => is_name_char c && negb (N.eqb c 45)) kw = true -> Forall plain_char kw.
  Proof.
    intros H. rewrite forallb_forall in H. apply Forall_forall. intros x X. specialize (H x X). apply andb_prop in H. destruct H as [A B].
    split; [exact A|]. destruct (N.eqb_spec x 45); [discriminate|assumption].
  Qed.
  Lemma id_base id e u : (match id with Some i => i ++ lit "." | None => [] end) ++ e ++ u = base id e ++ u.
  Proof. destruct id as [i|]; cbn [base app]; [|reflexivity]. rewrite <- !app_assoc. reflexivity. Qed.

  Lemma parens_at a k u : ~ In 41%N k -> parenthesised (at_ a (40%N :: k ++ 41%N :: u)) = Ok k (at_ (a ++ 40%N :: k ++ [41%N]) u).
  Proof.
    intros K. unfold parenthesised, bind. pose proof (expect_char_at 40 a (40%N :: k ++ 41%N :: u)) as E. cbn iota in E. rewrite E by lia. clear E.
    change (N.eqb 40 40) with true. cbn iota. rewrite take_matches_at.
    destruct (take_while_app (fun c => negb (N.eqb c 41)) k (41%N :: u)) as [-> ->]; [|reflexivity|].
    { apply Forall_forall. intros x X. destruct (N.eqb_spec x 41) as [->|]; [contradiction|reflexivity]. }
    pose proof (expect_char_at 41 ((a ++ [40%N]) ++ k) (41%N :: u)) as E. cbn iota in E. rewrite E by lia.
    change (N.eqb 41 41) with true. cbn iota. unfold ret. repeat (rewrite <- ?app_assoc; cbn [app]). reflexivity.
  Qed.
  (** A keyword before a parenthesis. *)
  Lemma kw_at a kw k r : text_eqb kw [] = false -> forallb (fun c => is_name_char c && negb (N.eqb c 45)) kw = true ->
    match kw with c :: _ => plain_start c | [] => False end ->
    bind (expect_ident_matching k) (fun _ p => Ok tt p) (at_ a (kw ++ 40%N :: r)) =
    (if text_eqb kw k then Ok tt (at_ (a ++ kw) (40%N :: r)) else Fail ExpectedIdent (at_ (a ++ kw) (40%N :: r))).
  Proof.
    intros NE PL ST. destruct kw as [|c kw]; [discriminate|]. apply plain_list in PL.
    unfold expect_ident_matching, bind. cbn [app]. rewrite expect_ident_at by (apply start_ascii, ST || apply start_name, ST).
    inversion PL as [|? ? _ PL']. subst. destruct (take_name kw (40%N :: r) PL') as [-> ->]. cbn [take_while drop_while]. change (is_name_char 40) with false. cbn iota.
    rewrite app_nil_r. destruct (text_eqb (c :: kw) k); reflexivity.
  Qed.

  Theorem read_begin b t : begin_ok finite f32 print b -> begin_text print b t -> exists q, parse_string (parse_begin finite f32) t = Ok b q.
  Proof.
    intros OK T. destruct b as [c|id b o|id e o|id n o|k o|k|].
    - cbn in OK, T. assert (E : parse_clock finite f32 (at_ [] t) = Ok c (at_ t []) /\ match t with [] => False | x :: _ => is_whitespace x = false /\ (x < 128)%N /\ is_name_start_char x = (58 =? x)%N /\ (x <> 58)%N end).
      { destruct T as [[NC ->]|S].
        - split; [exact (clock_plain finite f32 print [] c OK NC)|]. destruct (clock_parts finite f32 print c OK) as (t & d & r & _ & S & _ & _ & _ & _ & -> & _).
          rewrite NC. pose proof (head_not_ws _ _ r S) as W. destruct S as [H _]. destruct t as [|x t]; [destruct H|]. cbn [app] in *.
          split; [exact W|]. split; [unfold digit in H; lia|]. split; [|unfold digit in H; lia].
          assert (L : (46 <= x <= 57)%N) by (unfold digit in H; lia).
          assert (X : forall k, 46 <= k <= 57 -> is_name_start_char (N.of_nat k) = (58 =? N.of_nat k)%N).
          { intros k K. do 58 (destruct k as [|k]; [try lia; try reflexivity|]). lia. }
          rewrite <- (N2Nat.id x). apply X. lia.
        - split; [apply (clock_signed finite f32 print [] [] c t (Forall_nil _) OK S)|]. destruct S as (w & _ & ->). destruct (negative c); repeat split; discriminate. }
      destruct E as [E H]. apply parse_string_full; [destruct t; [exact H|apply H]|].
      unfold parse_begin.
      assert (A1 : exists e q, bind (expect_ident_matching (lit "indefinite")) (fun _ => ret Indefinite) (at_ [] t) = Fail e q /\ p_input q = [] ++ t).
      { destruct t as [|x t]; [destruct H|]. destruct H as (_ & L & NS & N58). unfold expect_ident_matching, expect_ident, bind, cursor.
        rewrite read_at by exact L. rewrite NS. destruct (N.eqb_spec 58 x) as [<-|_]; [congruence|].
        pose proof (slice_from_at [] [x] t) as SL. cbn [app blen] in SL. change (p_cursor (at_ [] (x :: t))) with 0. cbn [app]. rewrite SL. eexists; eexists. split; reflexivity. }
      destruct A1 as (e1 & q1 & E1 & I1). rewrite (or_else_fail _ _ _ _ _ _ E1 I1). apply or_else_ok. unfold bind. rewrite E. reflexivity.
    - destruct OK as (PN & OK & OP). destruct T as (u & TU & ->).
      set (e := if b then lit "begin" else lit "end").
      assert (EV : Forall plain_char e) by (apply plain_list; destruct b; reflexivity).
      assert (TE : id ++ lit "." ++ (if b then lit "begin" else lit "end") ++ u = base (Some id) e ++ u) by (cbn [base]; rewrite <- app_assoc; reflexivity).
      match goal with |- context [parse_string _ ?t] => change t with (id ++ lit "." ++ (if b then lit "begin" else lit "end") ++ u) end. rewrite TE.
      pose proof (event_at (Some id) e o u (base_name id e PN EV)) as H. cbn iota in H.
      apply parse_string_full.
      { destruct PN as (_ & x & r & -> & P). cbn. apply start_not_ws, P. }
      rewrite H; [destruct b; reflexivity|destruct b; apply not_in_kw; reflexivity|destruct b; discriminate|apply base_not_kw; reflexivity|destruct b; discriminate|exact OK|exact OP|exact TU].
    - destruct T as (u & TU & ->). rewrite id_base. destruct id as [i|].
      + destruct OK as (PN & (EC & ND & NE) & NB & NEN & NR & OK & OP).
        pose proof (event_at (Some i) e o u (base_name i e PN EC) ND NE (base_not_kw i e (lit "indefinite") eq_refl) NR OK OP TU) as H.
        rewrite (eqb_no _ _ NB), (eqb_no _ _ NEN) in H. cbn iota in H.
        apply parse_string_full; [destruct PN as (_ & x & r & -> & P); cbn; apply start_not_ws, P|exact H].
      + destruct OK as (PN & (EC & ND & NE) & NI & NR & OK & OP).
        apply parse_string_full; [destruct PN as (_ & x & r & -> & P); cbn; apply start_not_ws, P|].
        exact (event_at None e o u PN ND NE NI NR OK OP TU).
    - destruct T as (w & i & u & W & IT & TU & ->). destruct OK as (PN & B & OK).
      replace ((match id with Some i => i ++ lit "." | None => [] end) ++ lit "repeat(" ++ w ++ i ++ lit ")" ++ u)
        with (base id (lit "repeat") ++ 40%N :: w ++ i ++ 41%N :: u) by (rewrite <- id_base; reflexivity).
      assert (PB : plain_name (base id (lit "repeat"))).
      { destruct id as [j|]; [apply base_name; [exact PN|apply plain_list; reflexivity]|]. split; [apply plain_list; reflexivity|].
        exists 114%N, (lit "epeat"). split; [reflexivity|right; left; split; discriminate]. }
      apply parse_string_full; [destruct PB as (_ & x & r & -> & P); cbn; apply start_not_ws, P|].
      assert (KW : forall kw, existsb (N.eqb 46) kw = false -> lit "repeat" <> kw -> base id (lit "repeat") <> kw).
      { intros kw K NK. destruct id; [apply base_not_kw; exact K|exact NK]. }
      rewrite skip_alts; [|exact PB| |exact I|apply KW; [reflexivity|discriminate]|intros _; left; split; apply KW; try reflexivity; discriminate].
      2:{ replace (base id (lit "repeat") ++ 40%N :: w ++ i ++ 41%N :: u) with ((base id (lit "repeat") ++ 40%N :: w ++ i ++ [41%N]) ++ u) by (repeat (rewrite <- ?app_assoc; cbn [app]); reflexivity).
          apply (offset_dot finite f32 print o u); auto; [destruct id as [[|]|]; discriminate|].
          replace (base id (lit "repeat") ++ 40%N :: w ++ i ++ [41%N]) with ((base id (lit "repeat") ++ 40%N :: w ++ i) ++ [41%N]) by (repeat (rewrite <- ?app_assoc; cbn [app]); reflexivity).
          intros (x & X). apply app_inj_tail in X. destruct X; discriminate. }
      unfold parse_event. unfold bind at 1. rewrite (target_at [] id (lit "repeat") _ PB); [|apply not_in_kw; reflexivity|exact I].
      rewrite eqb_yes. cbn [app]. unfold bind.
      pose proof (expect_char_at 40 (base id (lit "repeat")) (40%N :: w ++ i ++ 41%N :: u)) as E. cbn iota in E. rewrite E by lia. clear E.
      change (N.eqb 40 40) with true. cbn iota. rewrite (i32_at _ w i n u W IT B).
      pose proof (expect_char_at 41 ((base id (lit "repeat") ++ [40%N]) ++ w ++ i) (41%N :: u)) as E. cbn iota in E. rewrite E by lia. clear E.
      change (N.eqb 41 41) with true. cbn iota. rewrite (offset_at' finite f32 print _ o u OK TU). unfold ret.
      repeat (rewrite <- ?app_assoc; cbn [app]). reflexivity.
    - destruct T as (u & TU & ->). destruct OK as (NK & OK).
      change (lit "accessKey(" ++ k ++ lit ")" ++ u) with (lit "accessKey" ++ 40%N :: k ++ 41%N :: u).
      apply parse_string_full; [reflexivity|]. unfold parse_begin.
      assert (KA : forall (A : Type) (f : parser -> out A) kw, bind (expect_ident_matching kw) (fun _ => f) (at_ [] (lit "accessKey" ++ 40%N :: k ++ 41%N :: u)) =
        if text_eqb (lit "accessKey") kw then f (at_ (lit "accessKey") (40%N :: k ++ 41%N :: u)) else Fail ExpectedIdent (at_ (lit "accessKey") (40%N :: k ++ 41%N :: u))).
      { intros A f kw. pose proof (kw_at [] (lit "accessKey") kw (k ++ 41%N :: u) eq_refl eq_refl) as X. specialize (X ltac:(right; left; split; discriminate)).
        unfold bind in X |- *. destruct (expect_ident_matching kw _) as [? p|? p| |]; destruct (text_eqb _ kw); try discriminate X; injection X; intros; subst; reflexivity. }
      rewrite (or_else_fail _ _ _ _ _ _ (KA _ _ (lit "indefinite"))) by reflexivity.
      destruct (clock_fails finite f32 [] 97 (lit "ccessKey" ++ 40%N :: k ++ 41%N :: u)) as (e2 & q2 & E2 & I2); [right; left; split; discriminate| |].
      { change (97%N :: lit "ccessKey" ++ 40%N :: k ++ 41%N :: u) with (lit "accessKey" ++ 40%N :: k ++ 41%N :: u).
        replace (lit "accessKey" ++ 40%N :: k ++ 41%N :: u) with ((lit "accessKey" ++ 40%N :: k ++ [41%N]) ++ u) by (repeat (rewrite <- ?app_assoc; cbn [app]); reflexivity).
        apply (offset_dot finite f32 print o u); auto; [discriminate|].
        replace (lit "accessKey" ++ 40%N :: k ++ [41%N]) with ((lit "accessKey" ++ 40%N :: k) ++ [41%N]) by (repeat (rewrite <- ?app_assoc; cbn [app]); reflexivity).
        intros (x & X). apply app_inj_tail in X. destruct X; discriminate. }
      change (97%N :: lit "ccessKey" ++ 40%N :: k ++ 41%N :: u) with (lit "accessKey" ++ 40%N :: k ++ 41%N :: u) in E2, I2.
      assert (E2' : bind (parse_clock finite f32) (fun c => ret (OffsetValue c)) (at_ [] (lit "accessKey" ++ 40%N :: k ++ 41%N :: u)) = Fail e2 q2) by (unfold bind; rewrite E2; reflexivity).
      rewrite (or_else_fail _ _ _ _ _ _ E2' I2). apply or_else_ok. rewrite KA, eqb_yes. unfold bind. rewrite (parens_at _ k u NK).
      rewrite (offset_at finite f32 print _ o u OK TU). unfold ret. repeat (rewrite <- ?app_assoc; cbn [app]). reflexivity.
    - cbn in OK, T. subst t.
      change (lit "wallclock(" ++ k ++ lit ")") with (lit "wallclock" ++ 40%N :: k ++ 41%N :: []).
      apply parse_string_full; [reflexivity|]. unfold parse_begin.
      assert (KA : forall (A : Type) (f : parser -> out A) kw, bind (expect_ident_matching kw) (fun _ => f) (at_ [] (lit "wallclock" ++ 40%N :: k ++ 41%N :: [])) =
        if text_eqb (lit "wallclock") kw then f (at_ (lit "wallclock") (40%N :: k ++ 41%N :: [])) else Fail ExpectedIdent (at_ (lit "wallclock") (40%N :: k ++ 41%N :: []))).
      { intros A f kw. pose proof (kw_at [] (lit "wallclock") kw (k ++ 41%N :: []) eq_refl eq_refl) as X. specialize (X ltac:(right; left; split; discriminate)).
        unfold bind in X |- *. destruct (expect_ident_matching kw _) as [? p|? p| |]; destruct (text_eqb _ kw); try discriminate X; injection X; intros; subst; reflexivity. }
      rewrite (or_else_fail _ _ _ _ _ _ (KA _ _ (lit "indefinite"))) by reflexivity.
      destruct (clock_fails finite f32 [] 119 (lit "allclock" ++ 40%N :: k ++ 41%N :: [])) as (e2 & q2 & E2 & I2); [right; left; split; discriminate| |].
      { replace (119%N :: lit "allclock" ++ 40%N :: k ++ [41%N]) with ((lit "wallclock" ++ 40%N :: k) ++ [41%N]) by (repeat (rewrite <- ?app_assoc; cbn [app]); reflexivity).
        intros (x & X). apply app_inj_tail in X. destruct X; discriminate. }
      change (119%N :: lit "allclock" ++ 40%N :: k ++ 41%N :: []) with (lit "wallclock" ++ 40%N :: k ++ 41%N :: []) in E2, I2.
      assert (E2' : bind (parse_clock finite f32) (fun c => ret (OffsetValue c)) (at_ [] (lit "wallclock" ++ 40%N :: k ++ 41%N :: [])) = Fail e2 q2) by (unfold bind; rewrite E2; reflexivity).
      rewrite (or_else_fail _ _ _ _ _ _ E2' I2). rewrite (or_else_fail _ _ _ _ _ _ (KA _ _ (lit "accessKey"))) by reflexivity.
      apply or_else_ok. rewrite KA, eqb_yes. unfold bind. rewrite (parens_at _ k [] OK). reflexivity.
    - cbn in T. subst t. eexists. vm_compute. reflexivity.
  Qed.

  (** ** Printing *)
  Lemma print_offset_text o : offset_ok finite f32 print o -> offset_text print o (print_offset print o).
  Proof.
    destruct o as [c|]; [|reflexivity]. intros OK. cbn in OK. cbn [print_offset offset_text].
    destruct (clock_parts finite f32 print c OK) as (t & d & r & U & _ & _ & _ & _ & _ & PR & NG & _).
    exists [], ((if is_negative c then [] else [43%N]) ++ print_clock print c). split; [constructor|]. split; [|reflexivity].
    exists []. split; [constructor|]. rewrite U, NG, PR. destruct (negative c); reflexivity.
  Qed.
  Theorem print_begin_text b : begin_ok finite f32 print b -> begin_text print b (print_begin print b).
  Proof.
    intros OK. destruct b as [c|id b o|id e o|id n o|k o|k|]; cbn [begin_text print_begin].
    - cbn in OK. destruct (clock_parts finite f32 print c OK) as (t & d & r & U & _ & _ & _ & _ & _ & PR & NG & _).
      destruct (negative c) eqn:NC; [right|left; auto]. exists []. split; [constructor|]. rewrite NC, U, PR. reflexivity.
    - destruct OK as (_ & OK & _). exists (print_offset print o). split; [apply print_offset_text, OK|reflexivity].
    - assert (OK' : offset_ok finite f32 print o) by (destruct id; apply OK). exists (print_offset print o). split; [apply print_offset_text, OK'|].
      destruct id; reflexivity.
    - destruct OK as (_ & _ & OK). exists [], (print_int n), (print_offset print o). split; [constructor|]. split; [apply print_int_text|].
      split; [apply print_offset_text, OK|]. destruct id; reflexivity.
    - destruct OK as (_ & OK). exists (print_offset print o). split; [apply print_offset_text, OK|reflexivity].
    - reflexivity.
    - reflexivity.
  Qed.
  Theorem begin_round_trip b : begin_ok finite f32 print b -> exists q, parse_string (parse_begin finite f32) (print_begin print b) = Ok b q.
  Proof. intros OK. apply read_begin; [exact OK|apply print_begin_text, OK]. Qed.

  (** ** Durations *)
  Lemma clock_at_full c : clock_ok finite f32 print c -> parse_clock finite f32 (at_ [] (print_clock print c)) = Ok c (at_ (print_clock print c) []) /\
    match print_clock print c with [] => False | x :: _ => is_whitespace x = false end /\
    expect_ident (at_ [] (print_clock print c)) = Fail ExpectedIdent (at_ (firstn 1 (print_clock print c)) (skipn 1 (print_clock print c))).
  Proof.
    intros OK. destruct (clock_parts finite f32 print c OK) as (t & d & r & U & S & _ & _ & _ & _ & PR & _).
    assert (X : forall k, 45 <= k <= 57 -> is_name_start_char (N.of_nat k) = false /\ is_whitespace (N.of_nat k) = false).
    { intros k K. do 58 (destruct k as [|k]; [try lia; try (split; reflexivity)|]). lia. }
    assert (H : exists x y, print_clock print c = x :: y /\ (45 <= x <= 57)%N).
    { rewrite PR. destruct (negative c); [exists 45%N, (t ++ r); split; [reflexivity|lia]|]. destruct S as [H _]. destruct t as [|x t]; [destruct H|].
      exists x, (t ++ r). split; [reflexivity|unfold digit in H; lia]. }
    split.
    - destruct (negative c) eqn:NC; [|apply (clock_plain finite f32 print [] c OK NC)].
      apply (clock_signed finite f32 print [] [] c (print_clock print c) (Forall_nil _) OK). exists []. split; [constructor|]. rewrite NC, U, PR. reflexivity.
    - destruct H as (x & y & -> & B). rewrite <- (N2Nat.id x). destruct (X (N.to_nat x)) as [X1 X2]; [lia|]. split; [exact X2|].
      rewrite N2Nat.id in *. unfold expect_ident, bind, cursor. rewrite read_at by lia. rewrite X1. change (p_cursor (at_ [] (x :: y))) with (blen []).
      pose proof (slice_from_at [] [x] y) as SL. cbn [app] in SL |- *. rewrite SL. reflexivity.
  Qed.
  Theorem dur_round_trip d : match d with DurClock c => clock_ok finite f32 print c | _ => True end ->
    exists q, parse_string (parse_dur finite f32) (print_dur print d) = Ok d q.
  Proof.
    intros OK. destruct d as [c| |]; [|eexists; vm_compute; reflexivity|eexists; vm_compute; reflexivity]. cbn [print_dur].
    destruct (clock_at_full c OK) as (E & W & ID). apply parse_string_full; [exact W|]. unfold parse_dur.
    erewrite or_else_fail; [|unfold bind at 1; rewrite ID; reflexivity|cbn [at_ p_input app]; apply firstn_skipn].
    unfold bind. rewrite E. reflexivity.
  Qed.
  Theorem min_max_round_trip d : match d with DurClock c => clock_ok finite f32 print c | Media => True | DurIndefinite => False end ->
    exists q, parse_string (parse_min_max finite f32) (print_dur print d) = Ok d q.
  Proof.
    intros OK. destruct d as [c| |]; [|eexists; vm_compute; reflexivity|destruct OK]. cbn [print_dur].
    destruct (clock_at_full c OK) as (E & W & ID). apply parse_string_full; [exact W|]. unfold parse_min_max.
    erewrite or_else_fail; [|unfold expect_ident_matching, bind at 1 2; rewrite ID; reflexivity|cbn [at_ p_input app]; apply firstn_skipn].
    unfold bind. rewrite E. reflexivity.
  Qed.
End Onset.

Lemma reference_seen finite f32 print b id t : begin_ok finite f32 print b -> begin_text print b t ->
  (exists first offset, b = SyncbaseValue id first offset) \/ (exists event offset, b = EventValue (Some id) event offset) \/ (exists count offset, b = RepeatValue (Some id) count offset) ->
  exists b' q, parse_string (parse_begin finite f32) t = Ok b' q /\ onset_reference b' = Some id.
Proof.
  intros K T H. destruct (read_begin finite f32 print b t K T) as (q & E). exists b, q. split; [exact E|].
  destruct H as [(x & o & ->)|[(x & o & ->)|(x & o & ->)]]; reflexivity.
Qed.
