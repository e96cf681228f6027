(** What the values of attributes mean: lists of tokens, texts, code. *)
From Coq Require Import String List NArith Bool.
From Verif Require Import Chars NameModel ElemModel TextSpec CleanModel.
Import ListNotations.

(** White space of XML: space, tab, line feed, carriage return. *)
Definition xwhite (c : N) : Prop := c = 32%N \/ c = 9%N \/ c = 10%N \/ c = 13%N.
Definition xsolid (w : text) : Prop := w <> [] /\ Forall (fun c => ~ xwhite c) w.
(** The tokens of a value. *)
Inductive tokens : text -> list text -> Prop :=
| tokens_end s : Forall xwhite s -> tokens s []
| tokens_last a w : Forall xwhite a -> xsolid w -> tokens (a ++ w) [w]
| tokens_cons a w c s ws : Forall xwhite a -> xsolid w -> xwhite c -> tokens (c :: s) ws -> tokens (a ++ w ++ c :: s) (w :: ws).
(** No other white space than that of XML. *)
Definition plain_white (v : text) : Prop := Forall (fun c => white c -> xwhite c) v.

(** Attributes of two elements go together: the same names in the same order, the same values of types other than text, and texts related by [R]. *)
Definition attrs_agree (R : text -> text -> Prop) : list cattr -> list cattr -> Prop :=
  Forall2 (fun a b => c_name a = c_name b /\ c_text a = c_text b /\ (c_text a = true -> R (c_value a) (c_value b)) /\ (c_text a = false -> c_value a = c_value b)).
(** The same tree, with attributes that go together. *)
Inductive agree (R : text -> text -> Prop) : cnode -> cnode -> Prop :=
| agree_leaf t : agree R (CLeaf t) (CLeaf t)
| agree_el e a b k l : attrs_agree R a b -> Forall2 (agree R) k l -> agree R (CEl e a k) (CEl e b l).
Definition same_tokens (v w : text) : Prop := plain_white v -> forall ws, tokens v ws <-> tokens w ws.

(** A program of an event handler without its comments to the end of the line. *)
Fixpoint code (comment : bool) (s : text) : text :=
  match s with
  | [] => []
  | c :: r =>
      if N.eqb c 10 then 10%N :: code false r
      else if comment then code true r
      else match r with
           | d :: _ => if N.eqb c 47 && N.eqb d 47 then code true r else c :: code false r
           | [] => [c]
           end
  end.
Definition occurs (p s : text) : Prop := exists a b, s = a ++ p ++ b.
