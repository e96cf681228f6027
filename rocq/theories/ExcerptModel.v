(** Model of what the linter prints for an error: crates/oxvg_lint/src/error.rs:161-241, utils.rs:21-36, and of its result: parse.rs:134-187.
    Texts are bytes.  Simplifications: the frame, colours, file name and help around the excerpt are left out; lines are cut from a string at line
    feeds, so that [from_utf8] does not fail. *)
From Coq Require Import List NArith Bool Arith.
From Verif Require Import TextModel.
Import ListNotations.

(** [u8::is_ascii_whitespace] (utils.rs:24, 30): tab, line feed, form feed, carriage return, space. *)
Definition ascii_white (c : N) : bool := (N.eqb c 9 || N.eqb c 10 || N.eqb c 12 || N.eqb c 13 || N.eqb c 32)%bool.
(** utils.rs:22-27, on the bytes from [start] on; [None] is the index beyond the end at line 24. *)
Fixpoint naive_start (rest : list N) (start : nat) : option nat :=
  match rest with
  | [] => Some start
  | _ :: rest => match rest with
                 | [] => None
                 | c :: _ => if negb (ascii_white c) && negb (N.eqb c 60) then Some (S start) else naive_start rest (S start)
                 end
  end.
(** utils.rs:28-34, on the bytes from [e] on. *)
Fixpoint naive_end (rest : list N) (e : nat) : nat :=
  match rest with
  | [] => e
  | c :: rest => if ascii_white c || N.eqb c 62 then e else naive_end rest (S e)
  end.
(** [naive_range] (utils.rs:21-36). *)
Definition naive_range (source : list N) (start : nat) : option (nat * nat) :=
  match naive_start (skipn start source) start with
  | Some s => Some (s, naive_end (skipn s source) s)
  | None => None
  end.
(** [Iterator::position] (error.rs:182). *)
Fixpoint position_nl (l : list N) : option nat := match l with [] => None | c :: l => if N.eqb c 10 then Some 0 else match position_nl l with Some i => Some (S i) | None => None end end.
(** [slice::split] at line feeds (error.rs:194, 204, 217). *)
Fixpoint split_nl (l : list N) : list (list N) :=
  match l with
  | [] => [[]]
  | c :: l => if N.eqb c 10 then [] :: split_nl l else match split_nl l with w :: ws => (c :: w) :: ws | [] => [[c]] end
  end.
(** What is printed: the position, the line before, the lines, the indentation and the length of the mark, the line after (error.rs:202-233). *)
Record excerpt : Type := mkExcerpt { x_number : nat; x_column : nat; x_prev : option (nat * list N); x_lines : list (nat * list N); x_indent : nat; x_marks : nat; x_next : option (nat * list N) }.
(** Numbers of lines (error.rs:217-220). *)
Fixpoint number_from (n : nat) (ls : list (list N)) : list (nat * list N) := match ls with [] => [] | l :: ls => (n, l) :: number_from (S n) ls end.
(** error.rs:176-233, for a range that has been settled. *)
Definition excerpt_of (source : list N) (s e : nat) : option excerpt :=
  if List.length source <? s then None else
  let line_start := match rposition (fun c => N.eqb c 10) (firstn s source) with Some i => i + 1 | None => 0 end in
  let line_end := match position_nl (skipn line_start source) with Some i => i + line_start | None => List.length source end in
  let prev_line := last (split_nl (firstn (line_start - 1) source)) [] in
  let next_line := hd [] (split_nl (skipn (Nat.min (List.length source) (line_end + 1)) source)) in
  let lines := split_nl (firstn (line_end - line_start) (skipn line_start source)) in
  let number := bytecount 10 (firstn s source) + 1 in
  let column := s - line_start in
  let current := number - 1 + List.length lines in
  let wide := number + 1 <? current in
  Some (mkExcerpt number column
    (match prev_line with [] => None | _ => Some (number - 1, prev_line) end)
    (number_from number lines)
    (if wide then 0 else column) (if wide then column + (e - s) else e - s)
    (match next_line with [] => None | _ => Some (current + 1, next_line) end)).
(** [display_context] (error.rs:162-241) for an error with a range; [None] is a panic. *)
Definition display_context (source : list N) (s e : nat) : option excerpt :=
  if Nat.eqb s e then match naive_range source s with Some (s, e) => excerpt_of source s e | None => None end else excerpt_of source s e.

(** Severities (rules/mod.rs:34-46). *)
Inductive severity : Type := Off | Warn | Err.
(** The result of linting (parse.rs:144-187): numbers of errors and warnings, or nothing. *)
Definition lint_result (l : list severity) : option (nat * nat) :=
  let errors := List.length (filter (fun s => match s with Err => true | _ => false end) l) in
  let warnings := List.length (filter (fun s => match s with Warn => true | _ => false end) l) in
  if (0 <? errors) || (0 <? warnings) then Some (errors, warnings) else None.
