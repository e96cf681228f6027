(** What a user of the value parser can rely on, in terms of the text before and after the cursor. *)
From Coq Require Import String List NArith ZArith Bool Arith.
From Verif Require Import Chars ParseModel.
Import ListNotations.

(** The parser standing between [a] (already read) and [b] (still to read). *)
Definition at_ (a b : text) : parser := P (a ++ b) (blen a).

Definition ascii (s : text) : Prop := Forall (fun c => (c < 128)%N) s.
Definition ends_in (c : N) (s : text) : Prop := exists t, s = t ++ [c].

(** [t] is the longest beginning of [b] whose characters all satisfy [f], and [r] is the rest. *)
Definition span (f : N -> bool) (b t r : text) : Prop :=
  b = t ++ r /\ Forall (fun c => f c = true) t /\ match r with [] => True | c :: _ => f c = false end.

(** ** The number grammar: sign, digits with an optional fraction, optional exponent. *)
Definition digit (c : N) : Prop := (48 <= c <= 57)%N.
Definition digits_value (t : text) : Z := fold_left (fun a c => (10 * a + (Z.of_N c - 48))%Z) t 0%Z.
Definition sign_text (t : text) (n : bool) : Prop := (t = [] /\ n = false) \/ (t = [43%N] /\ n = false) \/ (t = [45%N] /\ n = true).
Definition fraction (t : text) (f : text) : Prop := (t = [] /\ f = []) \/ (t = 46%N :: f /\ Forall digit f).
Definition exponent (t : text) (e : Z) : Prop :=
  (t = [] /\ e = 0%Z) \/
  exists l s n ds, t = l :: s ++ ds /\ (l = 101%N \/ l = 69%N) /\ sign_text s n /\ ds <> [] /\
                   Forall digit ds /\ e = (if n then - digits_value ds else digits_value ds)%Z.

(** [t] is a number: negative or not, digits [m] scaled by ten to the [e]. *)
Definition number (t : text) (n : bool) (m e : Z) : Prop :=
  exists s i tf f te x, t = s ++ i ++ tf ++ te /\ sign_text s n /\ Forall digit i /\ fraction tf f /\
    i ++ f <> [] /\ exponent te x /\ m = digits_value (i ++ f) /\ e = (x - Z.of_nat (List.length f))%Z.
Definition is_number (t : text) : Prop := exists n m e, number t n m e.

(** The decimal [d] is [m] times ten to the [e], with sign [n]. *)
Definition value_is (d : dec) (n : bool) (m e : Z) : Prop :=
  neg d = n /\
  let k := Z.min (ex d) e in (of_digits (dig d) * 10 ^ (ex d - k) = m * 10 ^ (e - k))%Z.

(** The digits are the shortest possible: how a finite double is represented. *)
Definition canonical (d : dec) : Prop :=
  match dig d with
  | [] => ex d = 0%Z
  | c :: _ => c <> 0%N /\ last (dig d) 0%N <> 0%N /\ Forall (fun c => (c < 10)%N) (dig d)
  end.

(** What may follow a number so that the scanner stops at its end: not a digit, not a second dot
    unless the number already has its fraction, not an exponent mark unless it begins the unit
    [em] or [ex]. *)
Definition stops (t r : text) : Prop :=
  match r with
  | [] => True
  | c :: r' =>
    ~ digit c /\
    (c = 46%N -> In 46%N t /\ ~ ends_in 46%N t /\ ~ In 101%N t /\ ~ In 69%N t) /\
    ((c = 101%N \/ c = 69%N) ->
     (In 101%N t \/ In 69%N t) \/ exists u r'', r' = u :: r'' /\ (u = 120%N \/ u = 109%N))
  end.
