From Coq Require Import String List NArith Bool Arith Lia.
From Verif Require Import Chars ParseModel ParseSpec ParseProofs ParseProofs2 ParseProofs3 ParseProofs4 ListModel ListSpec.
Import ListNotations.

Lemma separates_spec s c : sep_matches s c = true <-> separates s c.
Proof. destruct s; cbn; rewrite ?orb_true_iff, ?N.eqb_eq; reflexivity. Qed.
Lemma separates_false s c : sep_matches s c = false <-> ~ separates s c.
Proof. rewrite <- separates_spec. destruct (sep_matches s c); split; congruence. Qed.
Lemma sep_char_matches s : sep_matches s (sep_char s) = true.
Proof. destruct s; reflexivity. Qed.

Definition tail_text (s : separator) (ts : list text) : text := flat_map (fun b => sep_char s :: b) ts.

Lemma skip_ws_head a r : match r with [] => True | c :: _ => is_whitespace c = false end ->
  skip_whitespace (at_ a r) = Ok tt (at_ a r).
Proof.
  intros H. unfold skip_whitespace. rewrite skip_matches_at. destruct (take_while_none is_whitespace r H) as [-> ->].
  rewrite app_nil_r. reflexivity.
Qed.

Section Read.
  Context {A : Type}.
  Variable parse : parser -> out A.
  Variable parse_str : text -> out A.

  Lemma plain_head s t r : plain s t -> match t ++ r with [] => True | c :: _ => is_whitespace c = false end.
  Proof. intros [H _]. destruct t as [|c t]; [destruct H|]. apply H. Qed.
  Lemma plain_quote s t r a : plain s t -> quote_at (at_ a (t ++ r)) = Ok None (at_ a (t ++ r)).
  Proof.
    intros [H _]. unfold quote_at, bind. rewrite slice_at. destruct t as [|c t]; [destruct H|]. destruct H as (_ & Q & Q').
    cbn [app]. unfold ret. apply N.eqb_neq in Q, Q'. rewrite Q, Q'. reflexivity.
  Qed.
  Lemma plain_take s t ts a : plain s t ->
    take_item s None (at_ a (t ++ tail_text s ts)) = Ok t (at_ (a ++ t) (tail_text s ts)).
  Proof.
    intros [_ F]. unfold take_item. rewrite take_matches_at.
    destruct (take_while_app (fun c => negb (sep_matches s c)) t (tail_text s ts)) as [-> ->]; [| |reflexivity].
    - revert F. apply Forall_impl. intros c C. apply separates_false in C. rewrite C. reflexivity.
    - destruct ts; cbn; [exact I|]. rewrite sep_char_matches. reflexivity.
  Qed.
  Lemma plain_not_ends s c t r : plain s t -> separates s c -> ~ ends_in c r -> ~ ends_in c (t ++ r).
  Proof.
    intros [H F] S E. destruct r as [|x r].
    - rewrite app_nil_r. intros (u & ->). rewrite Forall_app in F. destruct F as [_ F]. inversion F; subst. contradiction.
    - rewrite ends_app by discriminate. exact E.
  Qed.
  Lemma tail_not_ends s c ts : Forall (plain s) ts -> separates s c -> ~ ends_in c (tail_text s ts).
  Proof.
    induction 1 as [|t ts P F IH]; intros S; [intros (u & E); destruct u; discriminate|].
    cbn [tail_text flat_map]. fold (tail_text s ts). specialize (IH S).
    change (sep_char s :: t) with ([sep_char s] ++ t). rewrite <- app_assoc. rewrite ends_app; [apply (plain_not_ends s); auto|].
    destruct P as [P _]. destruct t; [destruct P|discriminate].
  Qed.

  Lemma take_one f c t r : f c = true -> match t ++ r with [] => True | x :: _ => f x = false end ->
    take_while f (c :: t ++ r) = [c] /\ drop_while f (c :: t ++ r) = t ++ r.
  Proof. intros F H. apply (take_while_app f [c] (t ++ r)); [constructor; auto|exact H]. Qed.

  (** After a separator the cursor stands at the next item. *)
  Lemma sep_at s t ts a : plain s t -> Forall (plain s) ts ->
    sep_parse s (at_ a (sep_char s :: t ++ tail_text s ts)) = Ok tt (at_ (a ++ [sep_char s]) (t ++ tail_text s ts)).
  Proof.
    intros PT F. pose proof (plain_head s t (tail_text s ts) PT) as W.
    assert (NE : t ++ tail_text s ts <> []) by (destruct PT as [PT _]; destruct t; [destruct PT|discriminate]).
    assert (N : match t ++ tail_text s ts with [] => True | x :: _ => sep_matches s x = false end).
    { destruct PT as [H F']. destruct t as [|c t]; [destruct H|]. cbn [app]. inversion F'; subst. apply separates_false. auto. }
    assert (D : default_sep_parse s (at_ a (sep_char s :: t ++ tail_text s ts)) = Ok tt (at_ (a ++ [sep_char s]) (t ++ tail_text s ts))).
    { unfold default_sep_parse, bind. rewrite expect_matches_at.
      destruct (take_one (sep_matches s) (sep_char s) t (tail_text s ts) (sep_char_matches s) N) as [-> ->]. reflexivity. }
    destruct s; try exact D. clear D. unfold sep_parse, try_parse. unfold expect_whitespace, bind. cbn [sep_char] in *.
    rewrite expect_matches_at. destruct (take_one is_whitespace 32%N t (tail_text SpaceOrComma ts) eq_refl W) as [-> ->]. cbn [ret].
    rewrite (skip_ws_head _ _ W).
    rewrite skip_char_at.
    - assert (take_while (N.eqb 44) (t ++ tail_text SpaceOrComma ts) = [] /\ drop_while (N.eqb 44) (t ++ tail_text SpaceOrComma ts) = t ++ tail_text SpaceOrComma ts) as [-> ->].
      { apply take_while_none. destruct (t ++ tail_text SpaceOrComma ts) as [|c r]; [exact I|]. cbn in N. rewrite orb_false_iff in N. rewrite N.eqb_sym. apply N. }
      rewrite app_nil_r. apply (skip_ws_head _ _ W).
    - apply not_ends_drop. apply (plain_not_ends SpaceOrComma); [exact PT|right; reflexivity|]. apply tail_not_ends; [exact F|right; reflexivity].
  Qed.

  Lemma skip_maybe s a r : match r with [] => True | c :: _ => is_whitespace c = false end ->
    maybe_skip_whitespace s (at_ a r) = Ok tt (at_ a r).
  Proof. intros H. destruct s; try reflexivity; apply skip_ws_head, H. Qed.
  Lemma tail_head s ts : match tail_text s ts with [] => True | c :: _ => c = sep_char s end.
  Proof. destruct ts; cbn; auto. Qed.

  Lemma next_at s t ts a x c : plain s t -> reads parse parse_str t x ->
    next_item parse_str s c (at_ a (t ++ tail_text s ts)) = Ok (Some x) (at_ (a ++ t) (tail_text s ts)).
  Proof.
    intros PT [_ (q & E)]. unfold next_item, bind.
    rewrite skip_maybe by (apply (plain_head s), PT). rewrite is_empty_at.
    destruct (t ++ tail_text s ts) as [|y r] eqn:EQ; [destruct PT as [PT _]; destruct t; [destruct PT|discriminate]|].
    rewrite <- EQ. clear y r EQ. rewrite (plain_quote s) by exact PT. rewrite plain_take by exact PT. rewrite E.
    assert (G : maybe_skip_whitespace s (at_ (a ++ t) (tail_text s ts)) = Ok tt (at_ (a ++ t) (tail_text s ts))).
    { pose proof (tail_head s ts) as T. destruct s; try reflexivity; apply skip_ws_head; destruct (tail_text _ ts) as [|y r]; auto; subst y; reflexivity. }
    rewrite G. reflexivity.
  Qed.

  Lemma more_at s ts xs : Forall2 (reads parse parse_str) ts xs -> Forall (plain s) ts -> forall fuel a acc,
    List.length ts < fuel ->
    more_items parse_str fuel s acc (at_ a (tail_text s ts)) = Ok (rev acc ++ xs) (at_ (a ++ tail_text s ts) []).
  Proof.
    induction 1 as [|t x ts xs R RS IH]; intros F fuel a acc L.
    - destruct fuel; [lia|]. cbn [more_items tail_text flat_map]. rewrite !app_nil_r.
      assert (E : exists e, sep_parse s (at_ a []) = Fail e (at_ a [])).
      { destruct s; cbn [sep_parse]; unfold default_sep_parse, try_parse, expect_whitespace, bind; rewrite expect_matches_at; cbn [take_while]; eauto.
        cbn [p_input p_cursor at_]. change (P (a ++ []) (blen a)) with (at_ a []). rewrite expect_matches_at. cbn [take_while]. eauto. }
      destruct E as (e & ->). reflexivity.
    - inversion F as [|? ? PT F']; subst. destruct fuel; [cbn in L; lia|]. cbn [more_items]. cbn [tail_text flat_map]. fold (tail_text s ts).
      cbn [app]. rewrite sep_at by auto. cbn [p_cursor]. rewrite (next_at s t ts _ x) by auto.
      cbn [List.length] in L. rewrite IH by (auto; lia). cbn [rev]. rewrite <- !app_assoc. reflexivity.
  Qed.

  Lemma blen_tail s ts : List.length ts <= blen (tail_text s ts).
  Proof.
    induction ts as [|t ts IH]; cbn [tail_text flat_map List.length]; [lia|]. fold (tail_text s ts). cbn [app]. cbn [blen].
    rewrite blen_app. pose proof (width_pos (sep_char s)). lia.
  Qed.
  Lemma read_list s t x ts xs : Forall (plain s) (t :: ts) -> Forall2 (reads parse parse_str) (t :: ts) (x :: xs) ->
    parse_string (parse_list parse parse_str s) (t ++ tail_text s ts) = Ok (x :: xs) (at_ (t ++ tail_text s ts) []).
  Proof.
    intros F R. inversion F as [|? ? PT F']; subst. inversion R as [|? ? ? ? R1 RS]; subst.
    unfold parse_string. change (new (t ++ tail_text s ts)) with (at_ [] (t ++ tail_text s ts)). unfold bind.
    rewrite skip_ws_head by (apply (plain_head s), PT).
    assert (PL : parse_list parse parse_str s (at_ [] (t ++ tail_text s ts)) = Ok (x :: xs) (at_ (t ++ tail_text s ts) [])).
    { unfold parse_list, first_item, bind. rewrite (plain_quote s) by exact PT. rewrite plain_take by exact PT.
      destruct R1 as [R1 _]. rewrite R1. cbn [app].
      assert (E : is_empty (P t (blen t)) = Ok true (P t (blen t))).
      { pose proof (is_empty_at t []) as E. unfold at_ in E. rewrite app_nil_r in E. exact E. }
      rewrite E. rewrite (more_at s ts xs RS F'); [reflexivity|].
      pose proof (blen_tail s ts). cbn [p_input]. cbn [at_ app p_input]. rewrite blen_app. lia. }
    rewrite PL. rewrite skip_ws_head by exact I. unfold expect_done. cbn [at_ p_cursor p_input]. rewrite app_nil_r, Nat.ltb_irrefl. reflexivity.
  Qed.
End Read.

Lemma joined_tail s t ts : joined (sep_char s) (t :: ts) (t ++ tail_text s ts).
Proof.
  revert t. induction ts as [|u ts IH]; intros t; cbn [tail_text flat_map]; [rewrite app_nil_r; constructor|].
  fold (tail_text s ts). cbn [app]. constructor. apply IH.
Qed.
Lemma joined_unique sep ts r : joined sep ts r -> forall r', joined sep ts r' -> r = r'.
Proof.
  induction 1 as [t|t ts r J IH]; intros r' J'; inversion J'; subst.
  - reflexivity.
  - inversion H2.
  - inversion J.
  - f_equal. f_equal. apply IH. assumption.
Qed.
Lemma joined_eq s t ts r : joined (sep_char s) (t :: ts) r -> r = t ++ tail_text s ts.
Proof. intros J. apply (joined_unique _ _ _ J). apply joined_tail. Qed.

Lemma print_tail {A} (print : A -> text) s l : flat_map (fun b => sep_char s :: print b) l = tail_text s (map print l).
Proof. induction l as [|a l IH]; cbn; [reflexivity|]. rewrite IH. reflexivity. Qed.

Lemma printed_joined {A} (print : A -> text) s l : l <> [] -> joined (sep_char s) (map print l) (print_list print s l).
Proof. intros NE. destruct l as [|a l]; [contradiction|]. cbn [print_list map]. rewrite print_tail. apply joined_tail. Qed.

Lemma read_joined {A} (parse : parser -> out A) parse_str s ts xs r :
  joined (sep_char s) ts r -> Forall (plain s) ts -> Forall2 (reads parse parse_str) ts xs ->
  exists q, parse_string (parse_list parse parse_str s) r = Ok xs q.
Proof.
  intros J F R. destruct ts as [|t ts]; [inversion J|]. apply joined_eq in J. subst r.
  inversion R; subst. eexists. apply read_list; auto.
Qed.
Lemma list_round_trip {A} (parse : parser -> out A) parse_str (print : A -> text) s l :
  l <> [] -> Forall (fun a => plain s (print a) /\ reads parse parse_str (print a) a) l ->
  exists q, parse_string (parse_list parse parse_str s) (print_list print s l) = Ok l q.
Proof.
  intros NE F. eapply read_joined; [apply printed_joined, NE| |].
  - apply Forall_map. revert F. apply Forall_impl. tauto.
  - clear NE. induction F as [|a l [_ R] F IH]; constructor; auto.
Qed.
Lemma empty_round_trip {A} (parse : parser -> out A) parse_str s e p :
  parse (new []) = Fail e p -> p = new [] ->
  exists q, parse_string (parse_list parse parse_str s) [] = Ok [] q.
Proof.
  intros E ->. unfold parse_string, bind. change (new []) with (at_ [] []) in *. rewrite skip_ws_head by exact I.
  unfold parse_list, first_item, bind.
  assert (Q : quote_at (at_ [] []) = Ok None (at_ [] [])) by reflexivity. rewrite Q.
  unfold take_item. rewrite take_matches_at. cbn [take_while drop_while app]. change (new []) with (at_ [] []). rewrite E, is_empty_at. cbn iota. unfold ret.
  rewrite skip_ws_head by exact I. eexists. reflexivity.
Qed.

(** ** Termination *)
Lemma is_empty_input p b q : is_empty p = Ok b q -> q = p.
Proof. unfold is_empty, bind, len. destruct (_ <=? _); [|discriminate]. cbn. intros E. inversion E. reflexivity. Qed.

(** A primitive that only moves the cursor forward within the input. *)
Definition forward {A} (m : parser -> out A) : Prop := forall p,
  match m p with
  | Ok _ q | Fail _ q => p_input q = p_input p /\ p_cursor p <= p_cursor q
  | Panic => True
  | Loop => False
  end.
Lemma forward_bind {A B} (m : parser -> out A) (k : A -> parser -> out B) : forward m -> (forall a, forward (k a)) -> forward (bind m k).
Proof.
  intros M K p. unfold bind. specialize (M p). destruct (m p) as [a q|e q| |]; auto. destruct M as [I C].
  specialize (K a q). destruct (k a q) as [b r|e r| |]; auto; destruct K; split; congruence || lia.
Qed.
Lemma forward_ret {A} (a : A) : forward (ret a).
Proof. intros p. cbn. auto. Qed.
Lemma forward_fail {A} e : forward (@fail A e).
Proof. intros p. cbn. auto. Qed.
Lemma forward_slice : forward slice.
Proof. intros p. unfold slice. destruct (drop_bytes _ _); auto. Qed.
Lemma forward_slice_from n : forward (slice_from n).
Proof. intros p. unfold slice_from. destruct (_ <=? _); [|exact I]. destruct (drop_bytes _ _); [|exact I]. destruct (take_bytes _ _); auto. Qed.
Lemma forward_len : forward len.
Proof. intros p. unfold len. destruct (_ <=? _); auto. Qed.
Lemma forward_skip n : forward (skip_internal n).
Proof. apply forward_bind; [apply forward_len|]. intros m. destruct (_ <=? _); intros p; cbn; auto. split; [reflexivity|lia]. Qed.
Lemma forward_skip_matches f : forward (skip_matches f).
Proof. apply forward_bind; [apply forward_slice|]. intros; apply forward_skip. Qed.
Lemma forward_skip_char c : forward (skip_char c).
Proof. apply forward_bind; [apply forward_slice|]. intros; apply forward_skip. Qed.
Lemma forward_cursor : forward cursor.
Proof. intros p. cbn. auto. Qed.
Lemma forward_take_matches f : forward (take_matches f).
Proof. apply forward_bind; [apply forward_cursor|]. intros c. apply forward_bind; [apply forward_skip_matches|]. intros. apply forward_slice_from. Qed.
Lemma forward_is_empty : forward is_empty.
Proof. apply forward_bind; [apply forward_len|]. intros. apply forward_ret. Qed.
Lemma forward_expect_matches f : forward (expect_matches f).
Proof.
  apply forward_bind; [apply forward_cursor|]. intros c. apply forward_bind; [apply forward_skip_matches|]. intros _.
  apply forward_bind; [apply forward_slice_from|]. intros [|]; [apply forward_fail|apply forward_ret].
Qed.
Lemma slice_from_width n p t q : slice_from n p = Ok t q -> t <> [] -> n < p_cursor p /\ p_cursor p <= p_cursor q /\ n < blen (p_input p).
Proof.
  unfold slice_from. destruct (Nat.leb_spec n (Nat.min (p_cursor p) (blen (p_input p)))) as [L|]; [|discriminate].
  destruct (drop_bytes n (p_input p)) as [r|] eqn:D; [|discriminate]. destruct (take_bytes _ r) as [u|] eqn:T; [|discriminate].
  intros E NE. injection E as <- <-.
  destruct (Nat.eq_dec n (Nat.min (p_cursor p) (blen (p_input p)))) as [->|]; [|lia].
  rewrite Nat.sub_diag in T. destruct r; cbn in T; injection T as <-; contradiction.
Qed.
Lemma expect_matches_moves f p t q : expect_matches f p = Ok t q -> p_cursor p < p_cursor q /\ p_cursor p < blen (p_input p) /\ p_input q = p_input p.
Proof.
  unfold expect_matches, bind, cursor. pose proof (forward_skip_matches f p) as F. destruct (skip_matches f p) as [u p1|e p1| |]; try discriminate.
  destruct F as [FI FC]. pose proof (forward_slice_from (p_cursor p) p1) as F2.
  destruct (slice_from (p_cursor p) p1) as [s p2|e p2| |] eqn:S; try discriminate. destruct F2 as [FI2 FC2].
  destruct s as [|c s]; [discriminate|]. intros E. cbn in E. injection E as <- <-.
  apply slice_from_width in S; [|discriminate]. rewrite FI in S. split; [lia|]. split; [lia|congruence].
Qed.
Lemma sep_parse_moves s p q u : sep_parse s p = Ok u q -> p_cursor p < p_cursor q /\ p_cursor p < blen (p_input p) /\ p_input q = p_input p.
Proof.
  assert (D : forall s q u, default_sep_parse s p = Ok u q -> p_cursor p < p_cursor q /\ p_cursor p < blen (p_input p) /\ p_input q = p_input p).
  { intros s' q' u' E. unfold default_sep_parse, bind in E. destruct (expect_matches (sep_matches s') p) as [t p1|e p1| |] eqn:M; try discriminate.
    cbn in E. injection E as _ <-. eapply expect_matches_moves, M. }
  destruct s; try apply D. cbn [sep_parse]. unfold try_parse, expect_whitespace.
  unfold bind at 1. destruct (expect_matches is_whitespace p) as [t p1|e p1| |] eqn:M; try discriminate.
  - cbn [ret]. apply expect_matches_moves in M.
    assert (F : forward (bind skip_whitespace (fun _ => bind (skip_char 44) (fun _ => skip_whitespace)))).
    { apply forward_bind; [apply forward_skip_matches|]. intros _. apply forward_bind; [apply forward_skip_char|]. intros _. apply forward_skip_matches. }
    intros E. specialize (F p1). rewrite E in F. destruct M as (M1 & M2 & M3), F as [F1 F2]. split; [lia|]. split; [lia|congruence].
  - intros E. pose proof (forward_expect_matches is_whitespace p) as F. rewrite M in F. destruct F as [F _].
    assert (EP : P (p_input p1) (p_cursor p) = p) by (rewrite F; destruct p; reflexivity). rewrite EP in E.
    unfold bind in E. destruct (default_sep_parse Comma p) as [v p2|e' p2| |] eqn:D2; try discriminate.
    apply D in D2. pose proof (forward_skip_matches is_whitespace p2) as F2. unfold skip_whitespace in E. rewrite E in F2.
    destruct D2 as (M1 & M2 & M3), F2 as [F1 F2]. split; [lia|]. split; [lia|congruence].
Qed.
Lemma sep_parse_no_loop s p : sep_parse s p <> Loop.
Proof.
  assert (D : forall s p, default_sep_parse s p <> Loop).
  { intros s' p'. unfold default_sep_parse, bind. pose proof (forward_expect_matches (sep_matches s') p') as F. destruct (expect_matches _ p'); cbn; try discriminate. destruct F. }
  destruct s; try apply D. cbn [sep_parse]. unfold try_parse, expect_whitespace. unfold bind at 1.
  pose proof (forward_expect_matches is_whitespace p) as F. destruct (expect_matches is_whitespace p) as [t p1|e p1| |]; try discriminate; [| |destruct F].
  - cbn [ret]. assert (G : forward (bind skip_whitespace (fun _ => bind (skip_char 44) (fun _ => skip_whitespace)))).
    { apply forward_bind; [apply forward_skip_matches|]. intros _. apply forward_bind; [apply forward_skip_char|]. intros _. apply forward_skip_matches. }
    specialize (G p1). destruct (bind _ _ p1); try discriminate. destruct G.
  - unfold bind. destruct (default_sep_parse Comma _) as [v p2|e' p2| |] eqn:E; try discriminate; [|exfalso; exact (D _ _ E)].
    pose proof (forward_skip_matches is_whitespace p2) as G. unfold skip_whitespace. destruct (skip_matches is_whitespace p2); try discriminate. destruct G.
Qed.
Lemma forward_maybe s : forward (maybe_skip_whitespace s).
Proof. destruct s; try apply forward_ret; apply forward_skip_matches. Qed.
Lemma forward_quote : forward quote_at.
Proof. apply forward_bind; [apply forward_slice|]. intros. apply forward_ret. Qed.
Lemma forward_take_item s q : forward (take_item s q).
Proof.
  destruct q as [q|]; cbn [take_item]; [|apply forward_take_matches]. apply forward_bind; [apply forward_cursor|]. intros c.
  apply forward_bind; [apply forward_slice|]. intros r. apply forward_bind; [apply forward_skip|]. intros _. apply forward_slice_from.
Qed.

Section Ends.
  Context {A : Type}.
  Variable parse : parser -> out A.
  Variable parse_str : text -> out A.
  Hypothesis parse_ends : forall t, parse (new t) <> Loop.
  Hypothesis parse_str_ends : forall t, parse_str t <> Loop.

  Lemma next_item_moves s c p :
    match next_item parse_str s c p with
    | Ok (Some _) q => p_input q = p_input p /\ p_cursor p <= p_cursor q
    | Loop => False
    | _ => True
    end.
  Proof.
    unfold next_item, bind. pose proof (forward_maybe s p) as F. destruct (maybe_skip_whitespace s p) as [u p1|e p1| |]; auto. destruct F as [F1 F2].
    pose proof (forward_is_empty p1) as G. destruct (is_empty p1) as [b p2|e p2| |]; auto. destruct G as [G1 G2]. destruct b; [exact I|].
    pose proof (forward_quote p2) as H. destruct (quote_at p2) as [o p3|e p3| |]; auto. destruct H as [H1 H2].
    pose proof (forward_take_item s o p3) as K. destruct (take_item s o p3) as [t p4|e p4| |]; auto. destruct K as [K1 K2].
    pose proof (parse_str_ends t) as PE. destruct (parse_str t); auto.
    pose proof (forward_maybe s p4) as L. destruct (maybe_skip_whitespace s p4) as [v p5|e p5| |]; auto. destruct L as [L1 L2]. cbn. split; [congruence|lia].
  Qed.
  Lemma more_ends s : forall fuel acc p, blen (p_input p) < fuel + p_cursor p -> 0 < fuel -> more_items parse_str fuel s acc p <> Loop.
  Proof.
    induction fuel as [|fuel IH]; intros acc p L P0; [lia|]. cbn [more_items].
    destruct (sep_parse s p) as [u p1|e p1| |] eqn:S; try discriminate; [|exfalso; exact (sep_parse_no_loop _ _ S)].
    apply sep_parse_moves in S. destruct S as (S1 & S2 & S3).
    pose proof (next_item_moves s (p_cursor p) p1) as N. destruct (next_item parse_str s (p_cursor p) p1) as [[a|] p2|e p2| |]; try discriminate; [|destruct N].
    destruct N as [N1 N2]. apply IH; [rewrite N1, S3; lia|lia].
  Qed.
  Lemma list_ends s p : parse_list parse parse_str s p <> Loop.
  Proof.
    unfold parse_list, first_item, bind.
    pose proof (forward_quote p) as H. destruct (quote_at p) as [o p1|e p1| |]; try discriminate; [|destruct H]. destruct H as [H1 H2].
    pose proof (forward_take_item s o p1) as K. destruct (take_item s o p1) as [t p2|e p2| |]; try discriminate; [|destruct K]. destruct K as [K1 K2].
    pose proof (parse_ends t) as PE. destruct (parse (new t)) as [a st|e st| |]; try discriminate; [| |contradiction].
    - pose proof (forward_is_empty st) as G. destruct (is_empty st) as [[]| | |]; try discriminate; [|destruct G].
      apply more_ends; [rewrite K1, H1; lia|lia].
    - pose proof (forward_is_empty st) as G. destruct (is_empty st) as [[]| | |]; try discriminate. destruct G.
  Qed.
End Ends.

(** ** The two item types *)
Lemma anything_reads t : reads anything anything_string t t.
Proof. split; [|eexists; reflexivity]. unfold anything, take_slice, bind. change (new t) with (at_ [] t). rewrite slice_at. reflexivity. Qed.
Lemma non_whitespace_reads t : t <> [] -> Forall (fun c => is_whitespace c = false) t ->
  reads non_whitespace (parse_string non_whitespace) t t.
Proof.
  intros NE F. assert (E : non_whitespace (at_ [] t) = Ok t (at_ t [])).
  { unfold non_whitespace, bind. rewrite skip_ws_head by (destruct F; auto). rewrite take_matches_at.
    destruct (take_while_app (fun c => negb (is_whitespace c)) t []) as [E1 E2]; [|exact I|].
    - revert F. apply Forall_impl. intros c ->. reflexivity.
    - rewrite app_nil_r in E1, E2. rewrite E1, E2. destruct t; [contradiction|]. reflexivity. }
  split.
  - change (new t) with (at_ [] t). rewrite E. unfold at_. rewrite app_nil_r. reflexivity.
  - unfold parse_string, bind. change (new t) with (at_ [] t). rewrite skip_ws_head by (destruct F; auto). rewrite E.
    rewrite skip_ws_head by exact I. unfold expect_done. cbn [at_ p_cursor p_input]. rewrite app_nil_r, Nat.ltb_irrefl. eexists. reflexivity.
Qed.
Lemma class_round_trip (l : list text) :
  Forall (fun t => t <> [] /\ Forall (fun c => is_whitespace c = false) t /\ hd_error t <> Some 34%N /\ hd_error t <> Some 39%N) l ->
  exists q, parse_string (parse_list non_whitespace (parse_string non_whitespace) Space) (print_list (fun t => t) Space l) = Ok l q.
Proof.
  intros F. destruct l as [|t l].
  - apply (empty_round_trip non_whitespace (parse_string non_whitespace) Space ExpectedMatch (new [])); reflexivity.
  - apply list_round_trip; [discriminate|]. revert F. apply Forall_impl. intros u (NE & W & Q & Q').
    split; [|apply non_whitespace_reads; auto]. split.
    + destruct u as [|c u]; [contradiction|]. cbn in Q, Q'. inversion W; subst. split; [auto|]. split; congruence.
    + revert W. apply Forall_impl. intros c C. cbn. congruence.
Qed.
