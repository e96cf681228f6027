(** Model of two small text functions: source positions (crates/oxvg_ast/src/node.rs:61-73) and the
    attribute whitespace clean-up (crates/oxvg_optimiser/src/jobs/cleanup_attrs.rs). *)
From Coq Require Import String List NArith Bool Arith.
From Verif Require Import Chars.
Import ListNotations.

(** [Iterator::rposition] (used at node.rs:67): the index of the last element satisfying [f]. *)
Fixpoint rposition (f : N -> bool) (l : list N) : option nat :=
  match l with
  | [] => None
  | c :: l => match rposition f l with
              | Some i => Some (S i)
              | None => if f c then Some 0 else None
              end
  end.
(** [bytecount::count] (node.rs:69). *)
Fixpoint bytecount (c : N) (l : list N) : nat :=
  match l with [] => 0 | x :: l => (if N.eqb x c then 1 else 0) + bytecount c l end.
(** [Ranges::to_line_and_col] (node.rs:64-72); [None] is the slice panic at line 65. *)
Definition to_line_and_col (cursor : nat) (source : list N) : option (nat * nat) :=
  if List.length source <? cursor then None
  else
    let line_start := match rposition (fun c => N.eqb c 10) (firstn cursor source) with Some i => i + 1 | None => 0 end in
    let line_number := bytecount 10 (firstn line_start source) in
    Some (line_number, cursor - line_start).

(** [CleanupAttrs] (cleanup_attrs.rs:37-47). *)
Record cleanup_attrs := CleanupAttrs { newlines : bool; trim : bool; spaces : bool }.

(** [value.replace('\n', " ")] (cleanup_attrs.rs:62). *)
Definition replace_newlines (s : text) : text := map (fun c => if N.eqb c 10 then 32%N else c) s.
(** [str::trim_start] and [str::trim] (cleanup_attrs.rs:65). *)
Fixpoint trim_start (s : text) : text :=
  match s with c :: r => if is_whitespace c then trim_start r else s | [] => [] end.
(** [str::trim] (cleanup_attrs.rs:65). *)
Definition trim_str (s : text) : text := rev (trim_start (rev (trim_start s))).
(** [Itertools::join] with a space (cleanup_attrs.rs:68). *)
Fixpoint join_space (ws : list text) : text :=
  match ws with
  | [] => []
  | [w] => w
  | w :: ws => w ++ 32%N :: join_space ws
  end.
(** What [CleanupAttrs::element] does to one textual value (cleanup_attrs.rs:61-69).
    Only values of content type [Anything] are touched (lines 58-60); the others are not modelled. *)
Definition clean_value (o : cleanup_attrs) (s : text) : text :=
  let s := if newlines o then replace_newlines s else s in
  let s := if trim o then trim_str s else s in
  if spaces o then join_space (split_whitespace s) else s.
