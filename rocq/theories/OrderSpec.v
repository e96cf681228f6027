(** The order of painting as SVG 2 (13.8) has it: [normal], or one, two or three different steps, after which come the others in the normal order. *)
From Coq Require Import String List NArith ZArith Bool Arith Permutation.
From Verif Require Import Chars ParseModel OnsetSpec KeywordSpec.
Import ListNotations.

(** The steps of painting, and their words. *)
Definition steps : list (string * string) := [("Fill", "fill"); ("Stroke", "stroke"); ("Markers", "markers")]%string.
(** The words of steps with white space between them. *)
Fixpoint spelled (space : N -> Prop) (ks : list string) (t : text) : Prop :=
  match ks with
  | [] => t = []
  | k :: r => exists x, In (k, x) steps /\
      match r with
      | [] => t = lit x
      | _ => exists w u, Forall space w /\ w <> [] /\ spelled space r u /\ t = lit x ++ w ++ u
      end
  end.
(** The steps that are named, and then the others in the normal order. *)
Definition whole (ks : list string) : list string :=
  ks ++ filter (fun k => negb (existsb (String.eqb k) ks)) (map fst steps).
(** A text of the language and the order it means. *)
Definition means (space : N -> Prop) (t : text) (v : list string) : Prop :=
  (t = lit "normal" /\ v = map fst steps) \/
  exists ks, ks <> [] /\ NoDup ks /\ spelled space ks t /\ v = whole ks.
(** All white space of Unicode. *)
Definition white (c : N) : Prop := is_whitespace c = true.
