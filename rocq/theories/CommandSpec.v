(** How actions are written on the command line (crates/oxvg/src/spec, actions.rs). *)
From Coq Require Import String List NArith Bool.
From Verif Require Import Chars ParseModel CommandModel.
Import ListNotations.

Section Spelling.
  (** What a word means as a number. *)
  Variable num : text -> dec -> Prop.
  (** The words for an action. *)
  Inductive spelt : action -> list text -> Prop :=
  | S_attr n v : spelt (Attr n v) [lit "-attr"; n; v]
  | S_class n : spelt (Class n) [lit "-class"; n]
  | S_intersect : spelt PathIntersect [lit "-path-intersect"]
  | S_union : spelt PathUnion [lit "-path-union"]
  | S_subtract : spelt PathSubtract [lit "-path-subtract"]
  | S_xor : spelt PathXor [lit "-path-xor"]
  | S_style p v : spelt (Style p v) [lit "-style"; p; v]
  | S_matrix a b c d e f ta tb tc td te tf : num ta a -> num tb b -> num tc c -> num td d -> num te e -> num tf f ->
      spelt (Matrix a b c d e f) [lit "-matrix"; ta; tb; tc; td; te; tf]
  | S_translate x tx : num tx x -> spelt (Translate x None) [lit "-translate"; tx]
  | S_translate2 x y tx ty : num tx x -> num ty y -> spelt (Translate x (Some y)) [lit "-translate"; tx; ty]
  | S_scale x tx : num tx x -> spelt (Scale x None) [lit "-scale"; tx]
  | S_scale2 x y tx ty : num tx x -> num ty y -> spelt (Scale x (Some y)) [lit "-scale"; tx; ty]
  | S_rotate a ta : num ta a -> spelt (Rotate a None) [lit "-rotate"; ta]
  | S_rotate3 a x y ta tx ty : num ta a -> num tx x -> num ty y -> spelt (Rotate a (Some (x, y))) [lit "-rotate"; ta; tx; ty]
  | S_skewX a ta : num ta a -> spelt (SkewX a) [lit "-skewX"; ta]
  | S_skewY a ta : num ta a -> spelt (SkewY a) [lit "-skewY"; ta]
  | S_insert n : spelt (Insert n) [lit "-insert"; n]
  | S_create n : spelt (Insert n) [lit "-create-element"; n]
  | S_forget : spelt Forget [lit "-forget"]
  | S_select q : spelt (Select q) [lit "-select"; q]
  | S_select_more q : spelt (SelectMore q) [lit "-select-more"; q]
  | S_deselect : spelt Deselect [lit "-deselect"].
  (** The words for actions one after another. *)
  Definition spelt_all (l : list action) (words : list text) : Prop := exists ls, words = concat ls /\ Forall2 spelt l ls.
End Spelling.
