(** Model of clock values (crates/oxvg_collections/src/attribute/animation_timing.rs:13-200). *)
From Coq Require Import String List NArith ZArith Bool Arith.
From Verif Require Import Chars ParseModel.
Import ListNotations.
Open Scope parse_scope.

(** [Metric] (animation_timing.rs:159-169). *)
Inductive metric := Hour | Min | Second | MilliSecond.
(** [ClockValue] (animation_timing.rs:15-39). [Integer] is [i32]; the [f32] values are represented by
    decimals (see [dec] in ParseModel). *)
Inductive clock :=
| FullClockValue (hours minutes : Z) (seconds : dec)
| PartialClockValue (minutes : Z) (seconds : dec)
| TimecountValue (timecount : dec) (m : metric).

(** The size of a decimal: [of_digits (dig d)] times ten to the [ex d], rounded towards zero (animation_timing.rs:78, 90). *)
Definition magnitude (d : dec) : Z :=
  if (0 <=? ex d)%Z then (of_digits (dig d) * 10 ^ ex d)%Z else (of_digits (dig d) / 10 ^ (- ex d))%Z.
(** [as Integer] (animation_timing.rs:78, 90): towards zero, saturating. *)
Definition to_int (d : dec) : Z :=
  let z := if neg d then (- magnitude d)%Z else magnitude d in
  Z.max (- 2147483648) (Z.min 2147483647 z).
(** [x.trunc() == x] (animation_timing.rs:87). *)
Definition is_integer (d : dec) : bool :=
  (0 <=? ex d)%Z || (of_digits (dig d) mod 10 ^ (- ex d) =? 0)%Z.
(** [x < 10.0] (animation_timing.rs:126, 147). *)
Definition less_than_10 (d : dec) : bool := neg d || (magnitude d <? 10)%Z.
(** [* sign] (animation_timing.rs:68). *)
Definition apply_sign (n : bool) (d : dec) : dec := Dec (xorb n (neg d)) (dig d) (ex d).

(** [or_else] on [try_parse] results: the second alternative runs from the restored state (animation_timing.rs:52-104). *)
Definition or_else {A} (f g : parser -> out A) (p : parser) : out A :=
  match try_parse f p with Fail _ p => g p | r => r end.

(** [Metric::parse] (animation_timing.rs:172-185). *)
Definition parse_metric : parser -> out metric :=
  or_else
    (i <- expect_ident ;;
     if text_eqb i (lit "h") then ret Hour
     else if text_eqb i (lit "min") then ret Min
     else if text_eqb i (lit "s") then ret Second
     else if text_eqb i (lit "ms") then ret MilliSecond
     else fail ExpectedIdent)
    (ret Second).

(** The sign, with white space after it (animation_timing.rs:57-67). [true] is negative. *)
Definition parse_sign : parser -> out bool :=
  or_else
    (c <- read ;; skip_whitespace ;;;
     if N.eqb c 43 then ret false else if N.eqb c 45 then ret true else fail ExpectedChar)
    (ret false).

(** Text of an [i32]: plain decimal digits, with a minus sign when negative (lightningcss's [CSSInteger] printer,
    external). *)
Fixpoint print_uint (u : Decimal.uint) : text :=
  match u with
  | Decimal.Nil => []
  | Decimal.D0 u => 48%N :: print_uint u
  | Decimal.D1 u => 49%N :: print_uint u
  | Decimal.D2 u => 50%N :: print_uint u
  | Decimal.D3 u => 51%N :: print_uint u
  | Decimal.D4 u => 52%N :: print_uint u
  | Decimal.D5 u => 53%N :: print_uint u
  | Decimal.D6 u => 54%N :: print_uint u
  | Decimal.D7 u => 55%N :: print_uint u
  | Decimal.D8 u => 56%N :: print_uint u
  | Decimal.D9 u => 57%N :: print_uint u
  end.
(** animation_timing.rs:108-154, where an integer is written. *)
Definition print_int (z : Z) : text :=
  if (z <? 0)%Z then 45%N :: print_uint (N.to_uint (Z.abs_N z)) else print_uint (N.to_uint (Z.abs_N z)).

(** [Metric::write_value] (animation_timing.rs:189-199). *)
Definition print_metric (m : metric) : text :=
  match m with Hour => lit "h" | Min => lit "min" | Second => [] | MilliSecond => lit "ms" end.

Section Clock.
  (** [f64::is_finite]; the rounding of a decimal to [f32] (number.rs:42-46); lightningcss's printer for [CSSNumber]. *)
  Variable finite : dec -> bool.
  Variable f32 : dec -> dec.
  Variable print_number : dec -> text.

  (** [f32::parse] (crates/oxvg_parse/src/types/number.rs:42-46). *)
  Definition parse_f32 : parser -> out dec := (d <- parse_f64 finite ;; ret (f32 d)).

  (** The closure reading [:] and what follows (animation_timing.rs:77-97). *)
  Definition parse_colon (timecount : dec) : parser -> out clock :=
    (expect_char 58 ;;;
     m <- parse_f32 ;;
     fun p =>
       match try_parse (expect_char 58) p with
       | Fail _ p => Ok (PartialClockValue (to_int timecount) m) p
       | Ok _ p =>
         (if is_integer m then s <- parse_f32 ;; ret (FullClockValue (to_int timecount) (to_int m) s)
          else fail InvalidNumber) p
       | Panic => Panic
       | Loop => Loop
       end).
  (** The closure reading the metric (animation_timing.rs:70-75). *)
  Definition parse_unit (timecount : dec) : parser -> out clock :=
    (i <- expect_ident ;;
     fun p => match parse_string parse_metric i with
              | Ok m _ => Ok (TimecountValue timecount m) p
              | Fail e _ => Fail e p
              | Panic => Panic
              | Loop => Loop
              end).
  (** [ClockValue::parse] (animation_timing.rs:52-103). *)
  Definition parse_clock : parser -> out clock :=
    (skip_whitespace ;;;
     n <- parse_sign ;;
     t <- parse_f32 ;;
     let timecount := apply_sign n t in
     or_else (parse_unit timecount) (or_else (parse_colon timecount) (ret (TimecountValue timecount Second)))).

  (** [ClockValue::write_value] (animation_timing.rs:108-154). *)
  Definition pad_int (z : Z) : text := if (z <? 10)%Z then 48%N :: print_int z else print_int z.
  (** Two digits before the point (animation_timing.rs:108-154). *)
  Definition pad_number (d : dec) : text := if less_than_10 d then 48%N :: print_number d else print_number d.
  (** [ClockValue::write_value] (animation_timing.rs:108-154). *)
  Definition print_clock (c : clock) : text :=
    match c with
    | TimecountValue t m => print_number t ++ (match m with Second => [] | _ => print_metric m end)
    | PartialClockValue m s => pad_int m ++ 58%N :: pad_number s
    | FullClockValue h m s => pad_int h ++ 58%N :: pad_int m ++ 58%N :: pad_number s
    end.
End Clock.
