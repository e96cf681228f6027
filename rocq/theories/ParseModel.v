(** Model of the value parser's cursor and primitives (crates/oxvg_parse/src/lib.rs) and of number
    scanning (crates/oxvg_parse/src/types/number.rs).

    Simplifications: a Rust [&str] is its list of code points, with byte positions computed from
    the UTF-8 width of each code point, so that "slicing inside a character" is visible; error
    payloads are dropped, the error kind is kept; a panic of the Rust code is the explicit outcome
    [Panic]; running out of fuel (used only by the path parser's loop) is the outcome [Loop]. *)
From Coq Require Import String List NArith ZArith Bool Arith Lia.
From Verif Require Import Chars.
Import ListNotations.

(** UTF-8 width of a code point: what [char::len_utf8] returns, used by every byte offset in
    lib.rs:72,77,84-85,90. *)
Definition width (c : N) : nat :=
  if (c <? 128)%N then 1 else if (c <? 2048)%N then 2 else if (c <? 65536)%N then 3 else 4.

(** [str::len], the byte length (lib.rs:53,84,90,119,124). *)
Fixpoint blen (s : text) : nat := match s with [] => 0 | c :: s => width c + blen s end.

(** [&s[n..]] (lib.rs:72): [None] is the panic for an offset past the end or inside a character. *)
Fixpoint drop_bytes (n : nat) (s : text) : option text :=
  match n, s with
  | 0, _ => Some s
  | _, [] => None
  | n, c :: s => if width c <=? n then drop_bytes (n - width c) s else None
  end.

(** [&s[..n]]: the first [n] bytes, [None] when that is not a character boundary (lib.rs:85). *)
Fixpoint take_bytes (n : nat) (s : text) : option text :=
  match n, s with
  | 0, _ => Some []
  | _, [] => None
  | n, c :: s => if width c <=? n
                 then match take_bytes (n - width c) s with Some t => Some (c :: t) | None => None end
                 else None
  end.

(** [trim_start_matches] (lib.rs:119). *)
Fixpoint drop_while (f : N -> bool) (s : text) : text :=
  match s with
  | [] => []
  | c :: s' => if f c then drop_while f s' else s
  end.

(** [trim_matches] with a character: both ends are trimmed (lib.rs:124). *)
Definition trim_both (c : N) (s : text) : text :=
  rev (drop_while (N.eqb c) (rev (drop_while (N.eqb c) s))).

(** The error kinds of crates/oxvg_parse/src/error.rs:5-14,30-95 that the modelled code returns. *)
Inductive err := EndOfInput | InvalidNumber | ExpectedDone | ExpectedString | ExpectedMatch
               | ExpectedChar | ExpectedIdent | NoCommand | InvalidArcFlag.

(** The parser (lib.rs:9-12). *)
Record parser := P { p_input : text; p_cursor : nat }.

(** Outcome of running parser code: a [Result] together with the parser's state after the call,
    or a panic, or no result within the fuel (lib.rs:9-20, error.rs:20-45). *)
Inductive out (A : Type) := Ok (a : A) (p : parser) | Fail (e : err) (p : parser) | Panic | Loop.
Arguments Ok {A}. Arguments Fail {A}. Arguments Panic {A}. Arguments Loop {A}.

(** Sequencing with [?] (lib.rs:280-287). *)
Definition bind {A B} (m : parser -> out A) (k : A -> parser -> out B) (p : parser) : out B :=
  match m p with
  | Ok a p => k a p
  | Fail e p => Fail e p
  | Panic => Panic
  | Loop => Loop
  end.
(** [Ok] (lib.rs:280-287). *)
Definition ret {A} (a : A) (p : parser) : out A := Ok a p.
(** [Err] (error.rs:30-45). *)
Definition fail {A} (e : err) (p : parser) : out A := Fail e p.
Declare Scope parse_scope.
Delimit Scope parse_scope with parse.
Notation "x <- m ;; k" := (bind m (fun x => k)) (at level 61, m at next level, right associativity) : parse_scope.
Notation "m ;;; k" := (bind m (fun _ => k)) (at level 61, right associativity) : parse_scope.
Open Scope parse_scope.

(** [Parser::new] (lib.rs:16-18). *)
Definition new (s : text) : parser := P s 0.
(** [Parser::cursor] (lib.rs:21-23). *)
Definition cursor (p : parser) : out nat := Ok (p_cursor p) p.
(** [Parser::advance] (lib.rs:42-44): one byte, whatever the character. *)
Definition advance (p : parser) : out unit := Ok tt (P (p_input p) (p_cursor p + 1)).
(** [Parser::rewind] (lib.rs:47-49): unsigned subtraction, overflow is a panic. *)
Definition rewind (n : nat) (p : parser) : out unit :=
  if n <=? p_cursor p then Ok tt (P (p_input p) (p_cursor p - n)) else Panic.
(** [Parser::done] (lib.rs:52-54). *)
Definition done (p : parser) : out unit := Ok tt (P (p_input p) (blen (p_input p))).
(** [Parser::try_parse] (lib.rs:61-68). *)
Definition try_parse {A} (f : parser -> out A) (p : parser) : out A :=
  match f p with
  | Fail e q => Fail e (P (p_input q) (p_cursor p))
  | r => r
  end.
(** [Parser::slice] (lib.rs:71-73). *)
Definition slice (p : parser) : out text :=
  match drop_bytes (p_cursor p) (p_input p) with Some r => Ok r p | None => Panic end.
(** [Parser::take_slice] (lib.rs:76-80). *)
Definition take_slice : parser -> out text := (s <- slice ;; done ;;; ret s).
(** [Parser::slice_from] (lib.rs:83-86). *)
Definition slice_from (start : nat) (p : parser) : out text :=
  let stop := Nat.min (p_cursor p) (blen (p_input p)) in
  if start <=? stop then
    match drop_bytes start (p_input p) with
    | Some r => match take_bytes (stop - start) r with Some t => Ok t p | None => Panic end
    | None => Panic
    end
  else Panic.
(** [Parser::len] (lib.rs:89-91): unsigned subtraction. *)
Definition len (p : parser) : out nat :=
  if p_cursor p <=? blen (p_input p) then Ok (blen (p_input p) - p_cursor p) p else Panic.
(** [Parser::is_empty] (lib.rs:94-96). *)
Definition is_empty : parser -> out bool := (n <- len ;; ret (n =? 0)).
(** [Parser::current] (lib.rs:103-105). *)
Definition current : parser -> out N :=
  (s <- slice ;; match s with [] => fail EndOfInput | c :: _ => ret c end).
(** [Parser::read] (lib.rs:35-39). *)
Definition read : parser -> out N := (c <- current ;; advance ;;; ret c).
(** [Parser::skip_internal] (lib.rs:132-135). *)
Definition skip_internal (trim : nat) : parser -> out unit :=
  (n <- len ;;
   if trim <=? n then (fun p => Ok tt (P (p_input p) (p_cursor p + (n - trim)))) else (fun _ => Panic)).
(** [Parser::skip_matches] (lib.rs:118-120). *)
Definition skip_matches (f : N -> bool) : parser -> out unit :=
  (s <- slice ;; skip_internal (blen (drop_while f s))).
(** [Parser::skip_char] (lib.rs:123-125). *)
Definition skip_char (c : N) : parser -> out unit :=
  (s <- slice ;; skip_internal (blen (trim_both c s))).
(** [Parser::skip_whitespace] (lib.rs:128-130). *)
Definition skip_whitespace : parser -> out unit := skip_matches is_whitespace.
(** [Parser::take_matches] (lib.rs:110-115). *)
Definition take_matches (f : N -> bool) : parser -> out text :=
  (c <- cursor ;; skip_matches f ;;; slice_from c).
(** [Parser::expect_done] (lib.rs:142-148). *)
Definition expect_done (p : parser) : out unit :=
  if p_cursor p <? blen (p_input p) then Fail ExpectedDone p else Ok tt p.
(** [Parser::expect_char] (lib.rs:155-162). *)
Definition expect_char (c : N) : parser -> out unit :=
  (r <- read ;; if N.eqb r c then ret tt else fail ExpectedChar).
(** [Parser::expect_matches] (lib.rs:171-198), for predicates that never return an error (the only
    kind used by [expect_whitespace], lib.rs:206). *)
Definition expect_matches (f : N -> bool) : parser -> out text :=
  (c <- cursor ;; skip_matches f ;;; s <- slice_from c ;;
   match s with [] => fail ExpectedMatch | _ => ret s end).
(** [Parser::expect_whitespace] (lib.rs:205-208). *)
Definition expect_whitespace : parser -> out unit := (expect_matches is_whitespace ;;; ret tt).
(** [Parser::expect_str] (lib.rs:215-224). *)
Definition expect_str (e : text) : parser -> out unit :=
  (c <- cursor ;; (fun p => Ok tt (P (p_input p) (p_cursor p + blen e))) ;;;
   s <- slice_from c ;; if text_eqb s e then ret tt else fail ExpectedString).

(** A range of characters (lib.rs:258-270). *)
Definition between (a b c : N) : bool := ((a <=? c) && (c <=? b))%N.
(** [is_name_start_char] (lib.rs:258-261); the first range excludes U+D6. *)
Definition is_name_start_char (c : N) : bool :=
  between 65 90 c || between 97 122 c || N.eqb c 58 || N.eqb c 95 || between 192 213 c ||
  between 216 246 c || between 248 767 c || between 880 893 c || between 895 8191 c ||
  between 8204 8205 c || between 8304 8591 c || between 11264 12271 c || between 12289 55295 c ||
  between 63744 64975 c || between 65008 65533 c || between 65536 983039 c.
(** [is_name_char] (lib.rs:262-266). *)
Definition is_name_char (c : N) : bool :=
  is_name_start_char c || is_ascii_digit c || N.eqb c 45 || N.eqb c 46 || N.eqb c 183 ||
  between 768 879 c || between 8255 8256 c.
(** [Parser::expect_ident] (lib.rs:231-242). *)
Definition expect_ident : parser -> out text :=
  (c <- cursor ;; r <- read ;;
   if is_name_start_char r then skip_matches is_name_char ;;; slice_from c
   else slice_from c ;;; fail ExpectedIdent).

(** [Parse::parse_string] (lib.rs:280-287). *)
Definition parse_string {A} (parse : parser -> out A) (s : text) : out A :=
  (skip_whitespace ;;; r <- parse ;; skip_whitespace ;;; expect_done ;;; ret r) (new s).

(** ** Numbers *)

(** A decimal number: sign, digits (most significant first) and a power of ten. Stands for the
    [f64] nearest to it; simplification: no rounding takes place in the model. *)
Record dec := Dec { neg : bool; dig : list N; ex : Z }.

(** Characters as used in number.rs:9-13. *)
Definition is_sign (c : N) : bool := N.eqb c 45 || N.eqb c 43.
(** number.rs:11. *)
Definition DOT : N := 46.

(** The longest prefix of digits, as digit values, and the rest (Part of [str::parse] (number.rs:30-33)). *)
Fixpoint digits (s : text) : list N * text :=
  match s with
  | c :: s' => if is_ascii_digit c then let (d, r) := digits s' in ((c - 48)%N :: d, r) else ([], s)
  | [] => ([], [])
  end.
(** The optional single sign (Part of [str::parse] (number.rs:30-33)). *)
Definition sign (s : text) : bool * text :=
  match s with
  | c :: s' => if N.eqb c 45 then (true, s') else if N.eqb c 43 then (false, s') else (false, s)
  | [] => (false, s)
  end.
(** The number digits stand for (number.rs:30-33). *)
Definition of_digits (d : list N) : Z := fold_left (fun a c => (10 * a + Z.of_N c)%Z) d 0%Z.

(** The same number with the fewest digits: no leading or trailing zeros. Part of the
    representation (a double is identified with its shortest decimal), not of the code (number.rs:30-33). *)
Definition shortest (n : bool) (ds : list N) (e : Z) : dec :=
  let ds := drop_while (N.eqb 0) ds in
  let r := drop_while (N.eqb 0) (rev ds) in
  match r with
  | [] => Dec n [] 0
  | _ => Dec n (rev r) (e + (Z.of_nat (List.length ds) - Z.of_nat (List.length r)))
  end.

(** [str::parse::<f64>] of the standard library (number.rs:30-33): sign, digits with at most one
    dot and at least one digit, optional exponent, nothing else. Simplification: the spellings
    [inf], [infinity] and [nan] are rejected here; the code rejects them too, one step later, by
    [is_finite] (number.rs:34). *)
Definition rust_f64 (s : text) : option dec :=
  let (n, s) := sign s in
  let (i, s) := digits s in
  let (f, s) := match s with
                | c :: s' => if N.eqb c DOT then digits s' else ([], s)
                | [] => ([], s)
                end in
  match i ++ f with
  | [] => None
  | m =>
    match s with
    | [] => Some (shortest n m (- Z.of_nat (List.length f)))
    | c :: s =>
      if N.eqb c 101 || N.eqb c 69 then
        let (en, s) := sign s in
        let (e, s) := digits s in
        match e, s with
        | _ :: _, [] => Some (shortest n m ((if en then - of_digits e else of_digits e) - Z.of_nat (List.length f)))
        | _, _ => None
        end
      else None
    end
  end.

Section Number.
  (** [f64::is_finite] of the nearest double (number.rs:34). The theorems hold for every choice. *)
  Variable finite : dec -> bool.

  (** Signs, digits, dots, digits (number.rs:9-12 and again 20-23). *)
  Definition skip_mantissa : parser -> out unit :=
    (skip_matches is_sign ;;; skip_matches is_ascii_digit ;;; skip_char DOT ;;; skip_matches is_ascii_digit).

  (** [if let Ok(..) = input.current()]: the look-ahead, whose error is ignored (number.rs:14,16). *)
  Definition peek (p : parser) : out (option N) :=
    match current p with
    | Ok c q => Ok (Some c) q
    | Fail _ q => Ok None q
    | Panic => Panic
    | Loop => Loop
    end.
  (** The patterns of characters (number.rs:14, 16). *)
  Definition is_any (cs : text) (o : option N) : bool :=
    match o with Some c => existsb (N.eqb c) cs | None => false end.

  (** The exponent part (number.rs:14-28). *)
  Definition skip_exponent : parser -> out unit :=
    (c <- peek ;;
     if is_any (lit "eE") c then
       advance ;;;
       c <- peek ;;
       if is_any (lit "xm") c then rewind 1
       else
         e <- cursor ;;
         skip_mantissa ;;;
         e' <- cursor ;;
         if e =? e' then fail InvalidNumber else ret tt
     else ret tt).

  (** [f64::parse] (number.rs:5-39). *)
  Definition parse_f64 : parser -> out dec :=
    (skip_whitespace ;;;
     c <- cursor ;;
     skip_mantissa ;;;
     skip_exponent ;;;
     s <- slice_from c ;;
     match rust_f64 s with
     | Some d => if finite d then ret d else fail InvalidNumber
     | None => fail InvalidNumber
     end).
End Number.
