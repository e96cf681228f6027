(** What source positions and whitespace clean-up should do, independently of the model. *)
From Coq Require Import String List NArith Bool Arith.
From Verif Require Import Chars.
Import ListNotations.

(** The position of offset [cursor]: [line] newlines come before it, and the column is the distance
    from the character after the last of them. *)
Definition position (source : list N) (cursor line column : nat) : Prop :=
  exists before last rest,
    source = before ++ last ++ rest /\ List.length (before ++ last) = cursor /\
    (before = [] \/ exists b, before = b ++ [10%N]) /\ ~ In 10%N last /\
    count_occ N.eq_dec before 10%N = line /\ List.length last = column.

(** Lexicographic order on positions. *)
Definition position_lt (p q : nat * nat) : Prop := fst p < fst q \/ (fst p = fst q /\ snd p < snd q).

Definition white (c : N) : Prop := is_whitespace c = true.
Definition solid (w : text) : Prop := w <> [] /\ Forall (fun c => ~ white c) w.
(** [ws] are the words of [s]: maximal runs of characters that are not white space. *)
Inductive words_of : text -> list text -> Prop :=
| words_end s : Forall white s -> words_of s []
| words_last a w : Forall white a -> solid w -> words_of (a ++ w) [w]
| words_cons a w c s ws : Forall white a -> solid w -> white c -> words_of (c :: s) ws -> words_of (a ++ w ++ c :: s) (w :: ws).
