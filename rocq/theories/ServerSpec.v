(** What an editor shows, and where. *)
From Coq Require Import List NArith Bool Arith.
From Verif Require Import TextSpec ServerModel.
Import ListNotations.

(** The text of an open document. *)
Definition follow (u : N) (now : option (list N)) (e : event) : option (list N) :=
  match e with
  | DidOpen v t => if N.eqb u v then Some t else now
  | DidChange v l => if N.eqb u v then (match rev l with t :: _ => Some t | [] => now end) else now
  | DidSave _ => now
  | DidClose v => if N.eqb u v then None else now
  end.
Definition current (l : list event) (u : N) : option (list N) := fold_left (follow u) l None.
(** The texts a document had. *)
Definition had (l : list event) (u : N) (t : list N) : Prop := exists a b, l = a ++ b /\ current a u = Some t.
(** What is shown for a document: the last that was published for it. *)
Definition shown (l : list notification) (u : N) : list diagnostic :=
  fold_left (fun now n => match n with Publish v d => if N.eqb u v then d else now end) l [].

(** The places an editor knows: lines that end with a line feed, a carriage return, or both, and columns in units of UTF-16. *)
Definition units (c : N) : nat := if (c <? 65536)%N then 1 else 2.
Fixpoint place (before : list N) (line column : nat) : nat * nat :=
  match before with
  | [] => (line, column)
  | c :: r => if N.eqb c 10 then place r (S line) 0
              else if N.eqb c 13 then (match r with 10%N :: _ => place r line (S column) | _ => place r (S line) 0 end)
              else place r line (column + units c)
  end.
(** Every carriage return is before a line feed. *)
Fixpoint paired (l : list N) : Prop :=
  match l with
  | [] => True
  | c :: r => (c = 13%N -> exists r', r = 10%N :: r') /\ paired r
  end.
(** The part of a text after its last line feed. *)
Fixpoint last_line (l : list N) : list N :=
  match l with
  | [] => []
  | c :: r => if existsb (N.eqb 10) (c :: r) then last_line r else c :: r
  end.

(** A diagnostic tells a problem: its words, its level, and the places of its first byte and of the byte after its last. *)
Definition told_place (source : list N) (at_ : nat) (p : N * N) : Prop :=
  exists line column, position (bytes_of source) at_ line column /\ p = (N.of_nat line mod 4294967296, N.of_nat column mod 4294967296)%N.
Definition tells (u : N) (source : list N) (p : problem) (d : diagnostic) : Prop :=
  d_message d = p_text p /\
  (p_severity p = Err <-> d_severity d = Some ERROR) /\ (p_severity p = Warn <-> d_severity d = Some WARNING) /\
  (match p_range p with
   | Some (s, t) => told_place source s (r_start (d_range d)) /\ told_place source t (r_end (d_range d))
   | None => d_range d = Range (0, 0)%N (0, 0)%N
   end) /\
  (match p_help p with Some h => d_related d = Some (u, d_range d, h) | None => d_related d = None end).
(** The places of problems are in the text. *)
Definition in_text (source : list N) (p : problem) : Prop :=
  match p_range p with Some (s, t) => s <= List.length (bytes_of source) /\ t <= List.length (bytes_of source) | None => True end.
