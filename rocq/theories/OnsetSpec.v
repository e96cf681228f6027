(** Which texts stand for a begin or end value, independently of how they are read. *)
From Coq Require Import String List NArith ZArith Bool Arith.
From Verif Require Import Chars ParseModel ParseSpec ClockModel ClockSpec OnsetModel.
Import ListNotations.

(** White space of XML. *)
Definition xml_space (c : N) : Prop := c = 32%N \/ c = 9%N \/ c = 10%N \/ c = 13%N.
Definition spaces (w : text) : Prop := Forall xml_space w.

(** A name that begins with an ASCII letter, an underscore or a colon and has no hyphen. *)
Definition plain_char (c : N) : Prop := is_name_char c = true /\ c <> 45%N.
Definition plain_start (c : N) : Prop := (65 <= c <= 90)%N \/ (97 <= c <= 122)%N \/ c = 58%N \/ c = 95%N.
Definition plain_name (t : text) : Prop := Forall plain_char t /\ exists c r, t = c :: r /\ plain_start c.
(** An event: no dot. *)
Definition event_chars (t : text) : Prop := Forall plain_char t /\ ~ In 46%N t /\ t <> [].

(** Only a count of seconds, minutes or hours can be negative and read back (C44). *)
Definition negative (c : clock) : bool := match c with TimecountValue t _ => neg t | _ => false end.
(** A text without its minus sign. *)
Definition unsigned (t : text) : text := match t with c :: u => if N.eqb c 45 then u else t | [] => [] end.

Section Spec.
  Variable finite : dec -> bool.
  Variable f32 : dec -> dec.
  Variable print : dec -> text.
  Let ok_clock := clock_ok finite f32 print.

  (** A sign, white space, the clock. *)
  Definition signed (c : clock) (t : text) : Prop :=
    exists w, spaces w /\ t = (if negative c then 45%N else 43%N) :: w ++ unsigned (print_clock print c).
  (** What may follow an event. *)
  Definition offset_text (o : option clock) (t : text) : Prop :=
    match o with None => t = [] | Some c => exists w s, spaces w /\ signed c s /\ t = w ++ s end.
  (** An integer with an optional sign. *)
  Definition integer_text (z : Z) (t : text) : Prop :=
    exists s n ds, t = s ++ ds /\ sign_text s n /\ Forall digit ds /\ ds <> [] /\
      z = if n then (- digits_value ds)%Z else digits_value ds.

  (** The texts of a value. *)
  Definition begin_text (b : begin_end) (t : text) : Prop :=
    match b with
    | OffsetValue c => (negative c = false /\ t = print_clock print c) \/ signed c t
    | SyncbaseValue id b o => exists u, offset_text o u /\ t = id ++ lit "." ++ (if b then lit "begin" else lit "end") ++ u
    | EventValue id e o =>
      exists u, offset_text o u /\ t = (match id with Some i => i ++ lit "." | None => [] end) ++ e ++ u
    | RepeatValue id n o =>
      exists w i u, spaces w /\ integer_text n i /\ offset_text o u /\
        t = (match id with Some i => i ++ lit "." | None => [] end) ++ lit "repeat(" ++ w ++ i ++ lit ")" ++ u
    | AccessKeyValue k o => exists u, offset_text o u /\ t = lit "accessKey(" ++ k ++ lit ")" ++ u
    | WallclockSyncValue k => t = lit "wallclock(" ++ k ++ lit ")"
    | Indefinite => t = lit "indefinite"
    end.

  Definition offset_ok (o : option clock) : Prop := match o with None => True | Some c => ok_clock c end.
  (** After a name, a negative offset has no second minus sign (an exponent has one). *)
  Definition offset_plain (o : option clock) : Prop :=
    match o with None => True | Some c => negative c = true -> ~ In 45%N (unsigned (print_clock print c)) end.

  (** Which values have texts that are read back. *)
  Definition begin_ok (b : begin_end) : Prop :=
    match b with
    | OffsetValue c => ok_clock c
    | SyncbaseValue id _ o => plain_name id /\ offset_ok o /\ offset_plain o
    | EventValue (Some id) e o =>
      plain_name id /\ event_chars e /\ e <> lit "begin" /\ e <> lit "end" /\ e <> lit "repeat" /\ offset_ok o /\ offset_plain o
    | EventValue None e o =>
      plain_name e /\ event_chars e /\ e <> lit "indefinite" /\ e <> lit "repeat" /\ offset_ok o /\ offset_plain o
    | RepeatValue id n o =>
      match id with Some i => plain_name i | None => True end /\ (- 2147483648 <= n <= 2147483647)%Z /\ offset_ok o
    | AccessKeyValue k o => ~ In 41%N k /\ offset_ok o
    | WallclockSyncValue k => ~ In 41%N k
    | Indefinite => True
    end.
End Spec.
