(** Model of when an animation begins and ends (crates/oxvg_collections/src/attribute/animation.rs:29-217) and of how long it
    lasts (crates/oxvg_collections/src/attribute/animation_timing.rs:208-300). *)
From Coq Require Import String List NArith ZArith Bool Arith.
From Verif Require Import Chars ParseModel ClockModel.
Import ListNotations.
Open Scope parse_scope.

(** [BeginEnd] (animation.rs:29-72). *)
Inductive begin_end :=
| OffsetValue (c : clock)
| SyncbaseValue (id : text) (begin : bool) (offset : option clock)
| EventValue (id : option text) (event : text) (offset : option clock)
| RepeatValue (id : option text) (repeat : Z) (offset : option clock)
| AccessKeyValue (character : text) (offset : option clock)
| WallclockSyncValue (t : text)
| Indefinite.

(** [Parser::expect_ident_matching] (crates/oxvg_parse/src/lib.rs:249-256). *)
Definition expect_ident_matching (e : text) : parser -> out unit :=
  (i <- expect_ident ;; if text_eqb i e then ret tt else fail ExpectedIdent).

(** [.ok()] on a result (animation.rs:89, 119, 127): an error is forgotten, the cursor stays where the closure left it. *)
Definition ok {A} (f : parser -> out A) (p : parser) : out (option A) :=
  match f p with
  | Ok a q => Ok (Some a) q
  | Fail _ q => Ok None q
  | Panic => Panic
  | Loop => Loop
  end.

(** What is before the last character satisfying [f]: [str::rfind] (animation.rs:104), [str::rsplit_once] (animation.rs:111). *)
Fixpoint before_last (f : N -> bool) (s : text) : option text :=
  match s with
  | [] => None
  | c :: s' => match before_last f s' with
               | Some t => Some (c :: t)
               | None => if f c then Some [] else None
               end
  end.

(** [str::parse::<i64>] (crates/oxvg_parse/src/types/number.rs:56-59): one sign, digits, in range. *)
Definition rust_i64 (s : text) : option Z :=
  let (n, s) := sign s in
  let (ds, r) := digits s in
  match ds, r with
  | _ :: _, [] =>
    let z := if n then (- of_digits ds)%Z else of_digits ds in
    if ((- 9223372036854775808 <=? z) && (z <=? 9223372036854775807))%Z then Some z else None
  | _, _ => None
  end.
(** [as i32] (number.rs:65): the low 32 bits. *)
Definition wrap32 (z : Z) : Z := ((z + 2147483648) mod 4294967296 - 2147483648)%Z.
(** [i32::parse] (number.rs:48-67). *)
Definition parse_i32 : parser -> out Z :=
  (skip_whitespace ;;;
   c <- cursor ;; skip_matches is_sign ;;; skip_matches is_ascii_digit ;;;
   s <- slice_from c ;;
   match rust_i64 s with Some z => ret (wrap32 z) | None => fail InvalidNumber end).

(** [ClockValue::is_negative] (animation_timing.rs:42-48). *)
Definition is_negative (c : clock) : bool :=
  match c with
  | FullClockValue h _ _ => (h <? 0)%Z
  | PartialClockValue m _ => (m <? 0)%Z
  | TimecountValue t _ => neg t
  end.

Section Onset.
  (** As in ClockModel (number.rs:42-46). *)
  Variable finite : dec -> bool.
  Variable f32 : dec -> dec.
  Variable print : dec -> text.

  (** [try_parse(ClockValue::parse).ok()] (animation.rs:89, 127). *)
  Definition offset : parser -> out (option clock) := ok (try_parse (parse_clock finite f32)).

  (** What is between parentheses (animation.rs:86-88, 96-98). *)
  Definition parenthesised : parser -> out text :=
    (expect_char 40 ;;; t <- take_matches (fun c => negb (N.eqb c 41)) ;; expect_char 41 ;;; ret t).

  (** Identifier and event (animation.rs:103-114). *)
  Definition parse_target : parser -> out (option text * text) :=
    (i <- expect_ident ;;
     i <- match before_last (fun c => N.eqb c 45 || N.eqb c 43) i with
          | Some t => (rewind (blen i - blen t) ;;; ret t)
          | None => ret i
          end ;;
     ret match before_last (N.eqb 46) i with
         | Some id => (Some id, skipn (S (List.length id)) i)
         | None => (None, i)
         end).

  (** The last alternative (animation.rs:102-141). *)
  Definition parse_event : parser -> out begin_end :=
    (t <- parse_target ;;
     let (id, event) := t in
     if text_eqb event (lit "repeat") then
       expect_char 40 ;;; n <- parse_i32 ;; expect_char 41 ;;;
       o <- ok (parse_clock finite f32) ;; ret (RepeatValue id n o)
     else
       skip_whitespace ;;; o <- offset ;;
       ret match id with
           | Some i => if text_eqb event (lit "begin") || text_eqb event (lit "end")
                       then SyncbaseValue i (text_eqb event (lit "begin")) o
                       else EventValue (Some i) event o
           | None => EventValue None event o
           end).

  (** [BeginEnd::parse] (animation.rs:75-142). *)
  Definition parse_begin : parser -> out begin_end :=
    or_else (expect_ident_matching (lit "indefinite") ;;; ret Indefinite)
    (or_else (c <- parse_clock finite f32 ;; ret (OffsetValue c))
    (or_else (expect_ident_matching (lit "accessKey") ;;; t <- parenthesised ;; o <- offset ;; ret (AccessKeyValue t o))
    (or_else (expect_ident_matching (lit "wallclock") ;;; t <- parenthesised ;; ret (WallclockSyncValue t))
     parse_event))).

  (** The offset after an event (animation.rs:160-165, 174-179, 190-195, 202-207). *)
  Definition print_offset (o : option clock) : text :=
    match o with
    | Some c => (if is_negative c then [] else [43%N]) ++ print_clock print c
    | None => []
    end.
  (** The identifier before an event (animation.rs:169-172, 183-186). *)
  Definition print_id (id : option text) : text := match id with Some i => i ++ [46%N] | None => [] end.
  (** [BeginEnd::write_value] (animation.rs:146-217). *)
  Definition print_begin (b : begin_end) : text :=
    match b with
    | OffsetValue c => print_clock print c
    | SyncbaseValue id b o => id ++ 46%N :: (if b then lit "begin" else lit "end") ++ print_offset o
    | EventValue id e o => print_id id ++ e ++ print_offset o
    | RepeatValue id n o => print_id id ++ lit "repeat(" ++ print_int n ++ 41%N :: print_offset o
    | AccessKeyValue t o => lit "accessKey(" ++ t ++ 41%N :: print_offset o
    | WallclockSyncValue t => lit "wallclock(" ++ t ++ [41%N]
    | Indefinite => lit "indefinite"
    end.

  (** [Dur] and [MinMax] (animation_timing.rs:207-214, 266-271): the latter has no [DurIndefinite]. *)
  Inductive dur := DurClock (c : clock) | Media | DurIndefinite.
  (** [Dur::parse] (animation_timing.rs:217-229). *)
  Definition parse_dur : parser -> out dur :=
    or_else (i <- expect_ident ;;
             if text_eqb i (lit "media") then ret Media
             else if text_eqb i (lit "indefinite") then ret DurIndefinite
             else fail ExpectedIdent)
            (c <- parse_clock finite f32 ;; ret (DurClock c)).
  (** [MinMax::parse] (animation_timing.rs:274-280). *)
  Definition parse_min_max : parser -> out dur :=
    or_else (expect_ident_matching (lit "media") ;;; ret Media)
            (c <- parse_clock finite f32 ;; ret (DurClock c)).
  (** [Dur::write_value], [MinMax::write_value] (animation_timing.rs:233-242, 284-292). *)
  Definition print_dur (d : dur) : text :=
    match d with DurClock c => print_clock print c | Media => lit "media" | DurIndefinite => lit "indefinite" end.
End Onset.

(** The references a value holds, as shown to the visitors of identifiers
    (crates/oxvg_collections/src/content_type.rs:344-349). *)
Definition onset_reference (b : begin_end) : option text :=
  match b with
  | SyncbaseValue id _ _ => Some id
  | EventValue id _ _ | RepeatValue id _ _ => id
  | _ => None
  end.
