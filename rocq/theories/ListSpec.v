(** What reading back a list means. *)
From Coq Require Import String List NArith Bool Arith.
From Verif Require Import Chars ParseModel ListModel.
Import ListNotations.

(** The character could be taken for a separator of the list. *)
Definition separates (s : separator) (c : N) : Prop :=
  match s with
  | Space => is_whitespace c = true
  | Comma => c = 44%N
  | SpaceOrComma => is_whitespace c = true \/ c = 44%N
  | Semicolon => c = 59%N
  end.

(** The texts of an item that can be told apart from its surroundings: not empty, without separators, beginning with
    neither white space nor a quote. *)
Definition plain (s : separator) (t : text) : Prop :=
  match t with
  | [] => False
  | c :: _ => is_whitespace c = false /\ c <> 34%N /\ c <> 39%N
  end /\ Forall (fun c => ~ separates s c) t.

(** The item type's own parser reads [t] in full as [a]. *)
Definition reads {A} (parse : parser -> out A) (parse_str : text -> out A) (t : text) (a : A) : Prop :=
  parse (new t) = Ok a (P t (blen t)) /\ exists q, parse_str t = Ok a q.

(** [t] is the texts [ts] with the separator's character between them. *)
Inductive joined (sep : N) : list text -> text -> Prop :=
| joined_one t : joined sep [t] t
| joined_cons t ts r : joined sep ts r -> joined sep (t :: ts) (t ++ sep :: r).
