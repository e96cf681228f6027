(** What path data parsing and printing should do. *)
From Coq Require Import String List NArith ZArith Bool Arith.
From Verif Require Import Chars ParseModel ParseSpec PathModel.
Import ListNotations.

(** The call returned: with a result or with an error. *)
Definition returns {A} (o : out A) : Prop := match o with Ok _ _ | Fail _ _ => True | Panic | Loop => False end.
Definition panics {A} (o : out A) : Prop := match o with Panic => True | _ => False end.

Definition separator (c : N) : Prop := is_whitespace c = true \/ c = 44%N.
Definition command_char (c : N) : Prop := In c (lit "MmLlHhVvCcSsQqTtAaZz").
Definition close_char (c : N) : Prop := c = 90%N \/ c = 122%N.
Definition arc_char (c : N) : Prop := c = 65%N \/ c = 97%N.

(** After each closepath comes, behind white space and commas, another command or the end. *)
Definition closes_well (s : text) : Prop :=
  forall a z sep c b, s = a ++ z :: sep ++ c :: b -> close_char z -> Forall separator sep ->
  separator c \/ command_char c.

(** Only ASCII, or no arcs (whose flags are read byte-wise). *)
Definition arcs_ascii (s : text) : Prop := ascii s \/ forall c, In c s -> ~ arc_char c.

(** No arc letter; no closepath letter; the text does not end in a dot or comma. *)
Definition no_arcs (s : text) : Prop := forall c, In c s -> ~ arc_char c.
Definition no_close (s : text) : Prop := forall c, In c s -> ~ close_char c.
Definition not_trailing (s : text) : Prop := ~ ends_in 46%N s /\ ~ ends_in 44%N s.

(** ** Well-formed paths *)
(** The number of arguments SVG gives each command. *)
Definition arity (i : id) : nat :=
  match i with
  | ClosePath => 0
  | HorTo | HorBy | VerTo | VerBy => 1
  | MoveTo | MoveBy | LineTo | LineBy | SmoothQuadTo | SmoothQuadBy => 2
  | SmoothTo | SmoothBy | QuadTo | QuadBy => 4
  | CubicTo | CubicBy => 6
  | ArcTo | ArcBy => 7
  end.
Definition is_arc (i : id) : Prop := i = ArcTo \/ i = ArcBy.
(** 0 or 1, as a number. *)
Definition flag (d : dec) : Prop := d = Dec false [] 0 \/ d = Dec false [1%N] 0.
Definition is_close (i : id) : Prop := i = ClosePath.

Definition command_ok (d : data) : Prop :=
  List.length (d_args d) = arity (d_id d) /\ Forall canonical (d_args d) /\
  (is_arc (d_id d) -> flag (nth 3 (d_args d) zero) /\ flag (nth 4 (d_args d) zero)).

(** The command an implicit one repeats: a line after a move, otherwise the same command. *)
Definition repeats (before now : id) : Prop :=
  match before with MoveTo => now = LineTo | MoveBy => now = LineBy | i => now = i end.
Fixpoint follows (before : id) (l : list data) : Prop :=
  match l with
  | [] => True
  | d :: l => (d_implicit d = true -> repeats before (d_id d)) /\ follows (d_id d) l
  end.
Definition path_ok (l : list data) : Prop :=
  Forall command_ok l /\
  match l with
  | [] => True
  | d :: l => d_implicit d = false /\ (d_id d = MoveTo \/ d_id d = MoveBy) /\ follows (d_id d) l
  end.

(** Same commands and arguments, whether or not written out; negative zero is zero. *)
Definition same_number (a b : dec) : Prop := a = b \/ (dig a = [] /\ dig b = []).
Definition same_command (a b : data) : Prop := d_id a = d_id b /\ Forall2 same_number (d_args a) (d_args b).
Definition same_path : list data -> list data -> Prop := Forall2 same_command.

(** Printed without an exponent: zero, or at least 0.00001 and below ten to the sixteenth. *)
Definition plain (d : dec) : Prop :=
  dig d = [] \/ (-5 < Z.of_nat (List.length (dig d)) + ex d <= 16)%Z.
