(** Which clock values are read back, independently of how. *)
From Coq Require Import String List NArith ZArith Bool Arith.
From Verif Require Import Chars ParseModel ParseSpec ClockModel.
Import ListNotations.

(** [t] spells the non-negative number [d]: no sign, no dot at the end, and the standard library reads it as [d]. *)
Definition spells (t : text) (d : dec) : Prop :=
  match t with [] => False | c :: _ => digit c \/ c = 46%N end /\
  ~ ends_in 46%N t /\ rust_f64 t = Some d.

(** The number's text reads back: it is a finite number that does not change by rounding to [f32]; a negative number is
    printed with a minus sign before the text of its opposite. *)
Definition printable (finite : dec -> bool) (f32 : dec -> dec) (print : dec -> text) (d : dec) : Prop :=
  let a := Dec false (dig d) (ex d) in
  finite a = true /\ f32 a = a /\
  exists t, spells t a /\ print d = if neg d then 45%N :: t else t.

(** The integer survives the trip through [f32]. *)
Definition exact_int (finite : dec -> bool) (f32 : dec -> dec) (z : Z) : Prop :=
  (0 <= z <= 2147483647)%Z /\ forall d, neg d = false -> canonical d -> value_is d false z 0 -> finite d = true /\ f32 d = d.

(** No component of a clock with colons is negative. *)
Definition clock_ok (finite : dec -> bool) (f32 : dec -> dec) (print : dec -> text) (c : clock) : Prop :=
  match c with
  | TimecountValue t _ => printable finite f32 print t
  | PartialClockValue m s => exact_int finite f32 m /\ printable finite f32 print s /\ neg s = false
  | FullClockValue h m s =>
    exact_int finite f32 h /\ exact_int finite f32 m /\ printable finite f32 print s /\ neg s = false
  end.
