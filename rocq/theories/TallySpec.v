(** How frequencies, numbers of repetitions and adjustments of sizes are written, independently of how they are read. *)
From Coq Require Import String List NArith ZArith Bool Arith.
From Verif Require Import Chars ParseModel ParseSpec KeywordSpec TallyModel.
Import ListNotations.

(** The value of a decimal is more than zero: no sign, and a digit that is not zero. *)
Definition positive (d : dec) : Prop := neg d = false /\ exists c, In c (dig d) /\ c <> 0%N.

Section Spec.
  Variable finite : dec -> bool.
  Variable f32 : dec -> dec.
  Variable print : dec -> text.

  (** SVG 1.1, 4.2: [frequency ::= number ("Hz" | "kHz")]. *)
  Definition frequency_text (x : frequency) (t : text) : Prop :=
    match x with
    | Hz d => exists n, num_text finite f32 d n /\ t = n ++ lit "Hz"
    | KHz d => exists n, num_text finite f32 d n /\ t = n ++ lit "kHz"
    end.
  (** SMIL Animation, 3.3.1: a number greater than zero, or [indefinite]. *)
  Definition count_text (x : count) (t : text) : Prop :=
    match x with Times d => num_text finite f32 d t /\ positive d | Indefinite => t = lit "indefinite" end.
  (** SVG 1.1, 10.10: a number, or [none]. *)
  Definition adjust_text (x : adjust) (t : text) : Prop :=
    match x with Aspect d => num_text finite f32 d t | NoAdjust => t = lit "none" end.
  (** The number in a frequency. *)
  Definition amount (x : frequency) : dec := match x with Hz d => d | KHz d => d end.
End Spec.
