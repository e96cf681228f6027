(** Lines of a text, and what it means to point at a place. *)
From Coq Require Import List NArith Arith.
From Verif Require Import ExcerptModel.
Import ListNotations.

(** A text is the lines [above], a line, and the lines [below]. *)
Definition in_lines (source : list N) (above : list (list N)) (line : list N) (below : list (list N)) : Prop :=
  source = concat (map (fun l => l ++ [10%N]) above) ++ line ++ concat (map (fun l => 10%N :: l) below) /\
  Forall (fun l => ~ In 10%N l) above /\ ~ In 10%N line /\ Forall (fun l => ~ In 10%N l) below.
(** A line that is shown beside the marked one, unless it is empty. *)
Definition beside (shown : option (nat * list N)) (number : nat) (there : option (list N)) : Prop :=
  match there with
  | None | Some [] => shown = None
  | Some l => shown = Some (number, l)
  end.
(** The excerpt shows the line of the offset [s], by its number and with the lines around it, and the column of [s] in it. *)
Definition shows (source : list N) (s : nat) (x : excerpt) : Prop :=
  exists above line below, in_lines source above line below /\
    x_number x = List.length above + 1 /\ x_lines x = [(List.length above + 1, line)] /\
    List.length (concat (map (fun l => l ++ [10%N]) above)) + x_column x = s /\ x_column x <= List.length line /\
    beside (x_prev x) (List.length above) (hd_error (rev above)) /\ beside (x_next x) (List.length above + 2) (hd_error below).
(** The number of characters in UTF-8: continuation bytes do not count. *)
Definition chars (l : list N) : nat := List.length (filter (fun c => negb (N.leb 128 c && N.ltb c 192)) l).
(** The mark stands under the characters of the range. *)
Definition marks (source : list N) (s e : nat) (x : excerpt) : Prop :=
  exists n before marked after, x_lines x = [(n, before ++ marked ++ after)] /\ marked = firstn (e - s) (skipn s source) /\
    x_indent x = chars before /\ x_marks x = chars marked.
Definition ascii (l : list N) : Prop := Forall (fun c => (c < 128)%N) l.
(** What ends a name in a tag. *)
Definition ends_name (l : list N) : Prop := match l with [] => True | c :: _ => ascii_white c = true \/ c = 62%N end.
Definition name_byte (c : N) : Prop := ascii_white c = false /\ c <> 62%N /\ c <> 60%N.
