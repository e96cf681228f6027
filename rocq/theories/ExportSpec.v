(** What users expect of names of components and of the index. *)
From Coq Require Import String List NArith Bool Arith.
From Verif Require Import Chars ShellModel ShellSpec ExportModel.
Import ListNotations.

(** Letters and digits of ASCII (jsx.rs:573). *)
Definition lower_case (c : N) : Prop := (97 <= c <= 122)%N.
Definition upper_case (c : N) : Prop := (65 <= c <= 90)%N.
Definition decimal (c : N) : Prop := (48 <= c <= 57)%N.
Definition word_char (c : N) : Prop := lower_case c \/ upper_case c \/ decimal c.
(** A name made of words with anything else between them. *)
Inductive joined : list text -> text -> Prop :=
| J_end sep : Forall (fun c => ~ word_char c) sep -> joined [] sep
| J_word sep w ws rest : Forall (fun c => ~ word_char c) sep -> w <> [] -> Forall word_char w -> joined ws rest ->
    (match rest with c :: _ => ~ word_char c | [] => True end) -> joined (w :: ws) (sep ++ w ++ rest).
(** A word with a capital. *)
Inductive capital : text -> text -> Prop :=
| C_lower c w : lower_case c -> capital (c :: w) ((c - 32)%N :: w)
| C_other c w : ~ lower_case c -> capital (c :: w) (c :: w).
(** Words with capitals, one after another. *)
Definition pascal_of (ws : list text) (t : text) : Prop := exists cs, Forall2 capital ws cs /\ t = concat cs.
(** A name that JavaScript takes, and JSX takes as a component: a capital, then letters and digits. *)
Definition component (t : text) : Prop := exists c r, t = c :: r /\ upper_case c /\ Forall word_char r.
(** The lines of an index (jsx.rs:602-617): ECMAScript's export of a name from a module. *)
Definition export_line (named : bool) (name module : text) : text :=
  lit "export { " ++ (if named then [] else lit "default as ") ++ name ++ lit " } from " ++ lit """./" ++ module ++ lit """" ++ [10%N].

(** The text of a file, if there is one. *)
Definition old (s : fs) (p : path) : text := match file_at s p with Some (Utf8 t) => t | _ => [] end.
(** A directory in which files with some names, and the index, can be written (walk.rs:71-73; jsx.rs:596-600). *)
Definition ready (o : jsx_options) (parent : path) (names : list text) (s : fs) : Prop :=
  (forall x y, parent = x ++ y -> x <> [] -> get s x = Some Dir) /\ (forall n, In n names -> get s (parent ++ [n]) <> Some Dir) /\ get s (index_of o (parent ++ [[]])) <> Some Dir /\ (forall n, file_at s (index_of o (parent ++ [[]])) <> Some (Raw n)).
(** A document whose component can be made and goes to a file of a directory. *)
Definition goes_to (D : Type) (parse : text -> option D) (transform : D -> text -> text * bool) (denied : path -> bool) (o : jsx_options) (parent : path) (x : text * option path * option path) (n : text) : Prop :=
  component_file o (snd (fst x)) (snd x) = Some (parent ++ [n]) /\ denied (parent ++ [n]) = false /\ exists d, parse (fst (fst x)) = Some d /\ snd (transform d (name_for (snd (fst x)))) = true.
