(** Which rules of a document are in force, in which order (CSS Cascade 4, 6.4; Media Queries 4; CSS Cascade 4, 2 on [@import]). *)
From Coq Require Import String List NArith Bool Arith.
From Verif Require Import Chars MergeModel.
Import ListNotations.

(** A style element holds a stylesheet if its type says so. *)
Definition holds_cssb (s : style) : bool :=
  match st_type s with None => true | Some [] => true | Some t => text_eqb t (lit "text/css") end.

Section Env.
  (** Which media queries match. *)
  Variable matches : nat -> bool.
  (** A rule below an [@import] that counts. *)
  Fixpoint active (r : rule) : list nat :=
    match r with
    | RImport _ => []
    | RPlain n => [n]
    | RMedia q rs => if matches q then (fix go (l : list rule) : list nat := match l with [] => [] | r :: l => active r ++ go l end) rs else []
    end.
  (** Imports count at the beginning of a stylesheet only; an imported sheet is a number. *)
  Fixpoint sheet (l : list rule) : list (nat + nat) :=
    match l with
    | RImport n :: l => inl n :: sheet l
    | l => map inr (flat_map active l)
    end.
  (** What [media] says: a query that cannot be read matches nothing. *)
  Definition media_on (m : option media) : bool :=
    match m with None => true | Some (MQuery q) => matches q | Some (MText _) => false end.
  (** A style element: one sheet from all its rules. *)
  Definition style_on (s : style) : list (nat + nat) :=
    if holds_cssb s then if media_on (st_media s) then sheet (collect s) else [] else [].
  Definition in_force (l : list item) : list (nat + nat) :=
    flat_map (fun x => match x with IStyle s => style_on s | IElse _ => [] end) l.
End Env.

Definition is_import (r : rule) : bool := match r with RImport _ => true | _ => false end.
(** The elements the job merges. *)
Definition merged (x : item) : bool := match x with IStyle s => holds_cssb s && negb (st_foreign s) | IElse _ => false end.
(** Those with rules. *)
Definition with_rules (x : item) : bool := merged x && match x with IStyle s => match collect s with [] => false | _ => true end | _ => false end.
(** The rules of a style under the query it carries. *)
Definition under_media (x : item) : list rule :=
  match x with
  | IStyle s => match st_media s with Some (MQuery q) => [RMedia q (collect s)] | _ => collect s end
  | IElse _ => []
  end.
(** The documents for which merging keeps what is in force: no stylesheet in foreign objects, every media query readable, imports in the first stylesheet
    with rules only, and there without a media query. *)
Definition plain_styles (l : list item) : Prop :=
  (forall s, In (IStyle s) l -> holds_cssb s = true -> st_foreign s = false /\ (forall n, st_media s <> Some (MText n))) /\
  (forall a s b, l = a ++ IStyle s :: b -> with_rules (IStyle s) = true -> existsb is_import (collect s) = true ->
     existsb with_rules a = false /\ st_media s = None).
