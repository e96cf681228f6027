(** C22, C23: the cursor primitives and number scanning. *)
From Coq Require Import String List NArith ZArith Bool Arith Lia.
From Verif Require Import Chars ParseModel ParseSpec ParseProofs ParseProofs2 ParseProofs3 ParseProofs4.
Import ListNotations.

(** C23: skipping and taking by predicate consume exactly the longest matching beginning, on a
    character boundary, for every text, position and predicate. *)
Theorem C23_matches : forall (f : N -> bool) (a b : text), exists t r,
  span f b t r /\
  take_matches f (at_ a b) = Ok t (at_ (a ++ t) r) /\
  skip_matches f (at_ a b) = Ok tt (at_ (a ++ t) r).
Proof. exact matches_at. Qed.
Print Assumptions C23_matches.
Example C23_matches_example : take_matches is_ascii_digit (at_ [233%N] (lit "12" ++ [233%N])) = Ok (lit "12") (at_ (233%N :: lit "12") [233%N]).
Proof. vm_compute. reflexivity. Qed.

(** C23: expecting at least one matching character either takes the longest matching beginning or
    fails without moving. *)
Theorem C23_expect_matches : forall (f : N -> bool) (a b : text),
  (exists t r, span f b t r /\ t <> [] /\ expect_matches f (at_ a b) = Ok t (at_ (a ++ t) r)) \/
  (expect_matches f (at_ a b) = Fail ExpectedMatch (at_ a b) /\
   match b with [] => True | c :: _ => f c = false end).
Proof. exact expect_matches_spec. Qed.
Print Assumptions C23_expect_matches.

(** C23: a failed attempt leaves the cursor where it was; a successful one is unaffected. *)
Theorem C23_try_parse : forall (A : Type) (f : parser -> out A) (p : parser),
  (forall e q, try_parse f p = Fail e q -> p_cursor q = p_cursor p) /\
  (forall v q, try_parse f p = Ok v q <-> f p = Ok v q).
Proof. exact @try_parse_spec. Qed.
Print Assumptions C23_try_parse.
Example C23_try_parse_example :
  try_parse (expect_char 98) (at_ (lit "x") (lit "abc")) = Fail ExpectedChar (at_ (lit "x") (lit "abc")).
Proof. vm_compute. reflexivity. Qed.

(** C23, the part of [skip_char] that holds: when the rest of the input does not end in the
    character, exactly the leading run is skipped. *)
Theorem C23_skip_char_partial : forall (c : N) (a b : text), ~ ends_in c b -> exists t r,
  span (N.eqb c) b t r /\ skip_char c (at_ a b) = Ok tt (at_ (a ++ t) r).
Proof. exact skip_char_partial. Qed.
Print Assumptions C23_skip_char_partial.
Example C23_skip_char_example : skip_char 44 (at_ (lit "1") (lit ",,2")) = Ok tt (at_ (lit "1,,") (lit "2")).
Proof. vm_compute. reflexivity. Qed.

(** C23, the part of [read] that holds: an ASCII character. *)
Theorem C23_read_partial : forall (a b : text),
  match b with
  | [] => read (at_ a b) = Fail EndOfInput (at_ a b)
  | c :: r => (c < 128)%N -> read (at_ a b) = Ok c (at_ (a ++ [c]) r)
  end.
Proof. exact read_spec. Qed.
Print Assumptions C23_read_partial.

(** C23: an expected string that is there is consumed exactly. *)
Theorem C23_expect_str_partial : forall (e a r : text), expect_str e (at_ a (e ++ r)) = Ok tt (at_ (a ++ e) r).
Proof. exact expect_str_at. Qed.
Print Assumptions C23_expect_str_partial.

(** C23 fails: [skip_char] moves over characters that are not the one to skip when the input also
    ends in that character. *)
Theorem C23_skip_char_refuted : exists (c : N) (b t r : text) (q : parser),
  span (N.eqb c) b t r /\ t = [] /\ skip_char c (at_ [] b) = Ok tt q /\ p_cursor q = 2.
Proof.
  exists 44%N, (lit "1 2,,"), [], (lit "1 2,,"), (P (lit "1 2,,") 2).
  split; [split; [reflexivity|split; [constructor|reflexivity]]|]. split; [reflexivity|]. split; vm_compute; reflexivity.
Qed.
Print Assumptions C23_skip_char_refuted.

(** C23 fails: reading a character of more than one byte leaves the cursor inside it, and the next
    look at the input panics; so does reading an identifier that begins with such a letter. *)
Theorem C23_boundary_refuted : exists (b : text) (c : N) (q : parser),
  read (at_ [] b) = Ok c q /\ slice q = Panic /\ expect_ident (at_ [] b) = Panic /\
  is_name_start_char c = true.
Proof. exists [233%N], 233%N, (P [233%N] 1). repeat split; vm_compute; reflexivity. Qed.
Print Assumptions C23_boundary_refuted.

(** C23 fails: an expected string that is not there can leave the cursor past the end of the input
    (the next length computation overflows), or panic on a multi-byte character. *)
Theorem C23_expect_str_refuted : exists (e b b' : text) (q : parser),
  expect_str e (at_ [] b) = Fail ExpectedString q /\ blen b < p_cursor q /\ is_empty q = Panic /\
  expect_str e (at_ [] b') = Panic.
Proof.
  exists (lit "ab"), (lit "x"), [97%N; 233%N], (P (lit "x") 2).
  split; [vm_compute; reflexivity|]. split; [vm_compute; lia|]. split; vm_compute; reflexivity.
Qed.
Print Assumptions C23_expect_str_refuted.

(** C22: a number that was scanned is a number of the grammar with that value, directly after white
    space, and no longer beginning of the input is a number; the cursor is right behind it. Missing:
    inputs that end in a dot. *)
Theorem C22_sound_partial : forall (finite : dec -> bool) (a b : text) (d : dec) (q : parser),
  ~ ends_in DOT b -> parse_f64 finite (at_ a b) = Ok d q ->
  exists w t r n m e, b = w ++ t ++ r /\ Forall (fun c => is_whitespace c = true) w /\
    number t n m e /\ value_is d n m e /\ q = at_ (a ++ w ++ t) r /\
    forall u v, r = u ++ v -> is_number (t ++ u) -> u = [].
Proof. exact f64_sound. Qed.
Print Assumptions C22_sound_partial.

(** C22: a number followed by something that does not continue it is scanned whole, whatever comes
    before and after. *)
Theorem C22_takes_partial : forall (finite : dec -> bool) (a w t r : text) (n : bool) (m e : Z),
  Forall (fun c => is_whitespace c = true) w -> number t n m e -> stops t r -> ~ ends_in DOT r ->
  exists d, value_is d n m e /\
    (finite d = true -> parse_f64 finite (at_ a (w ++ t ++ r)) = Ok d (at_ (a ++ w ++ t) r)).
Proof. exact f64_takes. Qed.
Print Assumptions C22_takes_partial.
Example C22_takes_example :
  number (lit "-1.50e2") true 150 0 /\ stops (lit "-1.50e2") (lit "em") /\ stops (lit "1.5") (lit ".5") /\
  parse_f64 (fun _ => true) (at_ (lit "M") (lit " -1.50e2em")) = Ok (Dec true [1;5]%N 1) (at_ (lit "M -1.50e2") (lit "em")) /\
  parse_f64 (fun _ => true) (at_ [] (lit "1.5.5")) = Ok (Dec false [1;5]%N (-1)) (at_ (lit "1.5") (lit ".5")).
Proof.
  split.
  - exists (lit "-"), (lit "1"), (lit ".50"), (lit "50"), (lit "e2"), 2%Z.
    assert (D : forall l, forallb is_ascii_digit l = true -> Forall digit l).
    { intros l H. rewrite forallb_forall in H. apply Forall_forall. intros x X. apply digit_spec, H, X. }
    split; [reflexivity|]. split; [right; right; auto|]. split; [apply D; reflexivity|].
    split; [right; split; [reflexivity|apply D; reflexivity]|]. split; [discriminate|].
    split; [|split; reflexivity].
    right. exists 101%N, [], false, (lit "2"). split; [reflexivity|]. split; [auto|]. split; [left; auto|]. split; [discriminate|].
    split; [apply D; reflexivity|reflexivity].
  - split; [|split; [|split; vm_compute; reflexivity]].
    + simpl. unfold digit. split; [lia|]. split; [discriminate|]. intros _. left. left. tauto.
    + simpl. unfold digit. split; [lia|]. split; [|lia]. intros _. split; [tauto|].
      split; [|split; intros H; repeat destruct H as [H|H]; try discriminate; exact H].
      intros (t & E). apply (f_equal (@rev N)) in E. rewrite rev_app_distr in E. discriminate.
Qed.

(** C22: the scanner never panics, and a failure can be undone, when the input does not end in a
    dot. *)
Theorem C22_no_panic_partial : forall (finite : dec -> bool) (a b : text), ~ ends_in DOT b ->
  (exists d t r, b = t ++ r /\ t <> [] /\ parse_f64 finite (at_ a b) = Ok d (at_ (a ++ t) r)) \/
  (exists e q, parse_f64 finite (at_ a b) = Fail e q /\ p_input q = a ++ b).
Proof. exact f64_no_panic. Qed.
Print Assumptions C22_no_panic_partial.

(** C22 fails: a dot at the very end of the input makes the scanner fail on a number elsewhere in
    it, *)
Theorem C22_trailing_dot_refuted : exists (t r : text) (q : parser),
  is_number t /\ stops t r /\ parse_f64 (fun _ => true) (at_ [] (t ++ r)) = Fail InvalidNumber q.
Proof.
  exists (lit "1"), (lit " 2."). eexists. split.
  - exists false, 1%Z, 0%Z. exists [], (lit "1"), [], [], [], 0%Z. split; [reflexivity|]. split; [left; auto|].
    split; [constructor; [unfold digit; simpl; lia|constructor]|]. split; [left; auto|]. split; [discriminate|].
    split; [left; auto|]. split; reflexivity.
  - split; [simpl; unfold digit; lia|]. vm_compute. reflexivity.
Qed.
Print Assumptions C22_trailing_dot_refuted.

(** C22 fails: or panic on text that is no number at all. *)
Theorem C22_panic_refuted : exists b : text, parse_f64 (fun _ => true) (at_ [] b) = Panic.
Proof. exists [233%N; 46%N]. vm_compute. reflexivity. Qed.
Print Assumptions C22_panic_refuted.

(** C22 fails: a number followed by a second dot, or by a letter [e] that begins neither an exponent
    nor [em]/[ex], is rejected instead of being taken up to there. *)
Theorem C22_continuation_refuted : exists (t r r' : text) (q q' : parser),
  is_number t /\ (forall u v, r = u ++ v -> u <> [] -> is_number (t ++ u) -> u = lit ".") /\
  parse_f64 (fun _ => true) (at_ [] (t ++ r)) = Fail InvalidNumber q /\
  parse_f64 (fun _ => true) (at_ [] (t ++ r')) = Fail InvalidNumber q'.
Proof.
  exists (lit "1"), (lit "..5"), (lit "e q"). eexists. eexists. split.
  - exists false, 1%Z, 0%Z. exists [], (lit "1"), [], [], [], 0%Z. split; [reflexivity|]. split; [left; auto|].
    split; [constructor; [unfold digit; simpl; lia|constructor]|]. split; [left; auto|]. split; [discriminate|].
    split; [left; auto|]. split; reflexivity.
  - split; [|split; [vm_compute; reflexivity|vm_compute; reflexivity]].
    intros u v E NE (n & m & e & H). apply rust_f64_complete in H. destruct H as (d & H & _).
    destruct u as [|u0 [|u1 [|u2 [|u3 u]]]]; try contradiction; inversion E; subst; try reflexivity; vm_compute in H; discriminate.
Qed.
Print Assumptions C22_continuation_refuted.
