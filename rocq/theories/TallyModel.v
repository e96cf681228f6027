(** Model of frequencies (crates/oxvg_collections/src/attribute/core_attrs.rs:204-246), of the number of repetitions
    (attribute/animation_timing.rs:290-328) and of the adjustment of sizes of fonts (attribute/presentation.rs:449-478).

    Simplification: the error for an invalid range (animation_timing.rs:310-313) is another one here; only that it is an error matters. *)
From Coq Require Import String List NArith ZArith Bool Arith.
From Verif Require Import Chars ParseModel ClockModel OnsetModel.
Import ListNotations.
Open Scope parse_scope.

(** [Frequency] (core_attrs.rs:204-211). *)
Inductive frequency := Hz (d : dec) | KHz (d : dec).
(** [RepeatCount] (animation_timing.rs:294-299). *)
Inductive count := Times (d : dec) | Indefinite.
(** [FontSizeAdjust] (presentation.rs:453-458). *)
Inductive adjust := Aspect (d : dec) | NoAdjust.

Section Tally.
  (** As in ClockModel (crates/oxvg_parse/src/types/number.rs:42-46). *)
  Variable finite : dec -> bool.
  Variable f32 : dec -> dec.
  Variable print : dec -> text.
  Local Notation num := (parse_f32 finite f32).

  (** [Frequency::parse] (core_attrs.rs:213-228). *)
  Definition parse_frequency : parser -> out frequency :=
    (d <- num ;; i <- expect_ident ;;
     if text_eqb i (lit "Hz") then ret (Hz d) else if text_eqb i (lit "KHz") then ret (KHz d) else fail ExpectedIdent).
  (** [Frequency::write_value] (core_attrs.rs:230-246). *)
  Definition print_frequency (x : frequency) : text :=
    match x with Hz d => print d ++ lit "Hz" | KHz d => print d ++ lit "KHz" end.

  (** [number <= 0.0] (animation_timing.rs:311). *)
  Definition at_most_zero (d : dec) : bool := neg d || forallb (N.eqb 0) (dig d).
  (** [RepeatCount::parse] (animation_timing.rs:301-316). *)
  Definition parse_count : parser -> out count :=
    (r <- or_else (expect_ident_matching (lit "indefinite") ;;; ret Indefinite) (d <- num ;; ret (Times d)) ;;
     match r with
     | Times d => if at_most_zero d then fail InvalidNumber else ret r
     | Indefinite => ret r
     end).
  (** [RepeatCount::write_value] (animation_timing.rs:318-328). *)
  Definition print_count (x : count) : text := match x with Times d => print d | Indefinite => lit "indefinite" end.

  (** [FontSizeAdjust::parse] (presentation.rs:460-466). *)
  Definition parse_adjust : parser -> out adjust :=
    or_else (expect_ident_matching (lit "none") ;;; ret NoAdjust) (d <- num ;; ret (Aspect d)).
  (** [FontSizeAdjust::write_value] (presentation.rs:468-478). *)
  Definition print_adjust (x : adjust) : text := match x with Aspect d => print d | NoAdjust => lit "none" end.
End Tally.
