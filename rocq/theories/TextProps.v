(** C42 (source positions) and C45 (whitespace clean-up). *)
From Coq Require Import String List NArith Bool Arith.
From Verif Require Import Chars TextModel TextSpec TextProofs.
Import ListNotations.

(** The reported position is the position, for every source and every offset. *)
Theorem C42_line_and_column : forall source cursor line column,
  to_line_and_col cursor source = Some (line, column) <-> position source cursor line column.
Proof. exact line_col_exact. Qed.
Print Assumptions C42_line_and_column.

(** Every offset within the source has a position and only those do. *)
Theorem C42_total : forall source cursor, to_line_and_col cursor source = None <-> List.length source < cursor.
Proof. exact line_col_panic. Qed.
Print Assumptions C42_total.

(** Positions are ordered like offsets, so distinct offsets have distinct positions. *)
Theorem C42_ordered : forall source c1 c2 p1 p2,
  to_line_and_col c1 source = Some p1 -> to_line_and_col c2 source = Some p2 -> c1 < c2 -> position_lt p1 p2.
Proof. exact line_col_order. Qed.
Print Assumptions C42_ordered.

Example C42_example :
  let source := lit "ab" ++ [10%N] ++ lit "c" ++ [10%N; 10%N] ++ lit "de" in
  map (fun c => to_line_and_col c source) [0; 2; 3; 4; 5; 6; 8; 9]
  = [Some (0, 0); Some (0, 2); Some (1, 0); Some (1, 1); Some (2, 0); Some (3, 0); Some (3, 2); None].
Proof. vm_compute. reflexivity. Qed.

(** The sequence of words is unchanged, whatever the options. *)
Theorem C45_words : forall o s ws, words_of s ws <-> words_of (clean_value o s) ws.
Proof. exact clean_words. Qed.
Print Assumptions C45_words.
(** ... and it is determined by the text. *)
Theorem C45_words_exist : forall s, exists ws, words_of s ws /\ forall ws', words_of s ws' -> ws' = ws.
Proof. exact words_exist. Qed.
Print Assumptions C45_words_exist.

Theorem C45_idempotent : forall o s, clean_value o (clean_value o s) = clean_value o s.
Proof. exact clean_idempotent. Qed.
Print Assumptions C45_idempotent.

(** Each option has its effect: no newline; no white space at the ends; only single plain spaces. *)
Theorem C45_newlines : forall o s, newlines o = true -> ~ In 10%N (clean_value o s).
Proof. exact clean_no_newline. Qed.
Print Assumptions C45_newlines.
Theorem C45_ends : forall o s c t, trim o = true \/ spaces o = true ->
  clean_value o s = c :: t \/ clean_value o s = t ++ [c] -> ~ white c.
Proof. exact clean_ends_white. Qed.
Print Assumptions C45_ends.
Theorem C45_spaces : forall o s, spaces o = true ->
  (forall c, In c (clean_value o s) -> white c -> c = 32%N) /\
  (forall a b c d, clean_value o s = a ++ c :: d :: b -> white c -> white d -> False).
Proof. exact clean_spaces. Qed.
Print Assumptions C45_spaces.
(** With every option off the value is untouched; without [spaces], characters other than newlines and white space at
    the ends are untouched. *)
Theorem C45_off : forall o s, newlines o = false -> trim o = false -> spaces o = false -> clean_value o s = s.
Proof. exact clean_off. Qed.
Print Assumptions C45_off.
Theorem C45_inner : forall o s, spaces o = false -> exists a b,
  map (fun c => if N.eqb c 10 then 32%N else c) s
    = a ++ map (fun c => if N.eqb c 10 then 32%N else c) (clean_value o s) ++ b /\ Forall white a /\ Forall white b /\
  (trim o = false -> a = [] /\ b = []).
Proof. exact clean_inner. Qed.
Print Assumptions C45_inner.

Example C45_example :
  clean_value (CleanupAttrs true true true) (lit " a  b" ++ [10%N; 9%N] ++ lit "c ") = lit "a b c" /\
  clean_value (CleanupAttrs true true false) (lit " a  b" ++ [10%N; 9%N] ++ lit "c ") = lit "a  b " ++ [9%N] ++ lit "c" /\
  words_of (lit " a b") [lit "a"; lit "b"].
Proof.
  split; [vm_compute; reflexivity|]. split; [vm_compute; reflexivity|].
  exact (words_of_lit " a b").
Qed.
