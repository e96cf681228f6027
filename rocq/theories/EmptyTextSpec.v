(** What is written by a document: characters with the elements they are in. *)
From Coq Require Import String List NArith Bool.
From Verif Require Import Chars StripModel StripSpec.
Import ListNotations.

(** A character or a reference to the text of another element, with the elements around it from the inside. *)
Inductive glyph : Type :=
| Char (c : N) (chain : list (name * list (name * text)))
| Ref (l : list (name * text)) (chain : list (name * list (name * text))).
Definition referring (l : list (name * text)) : bool := existsb (fun a => text_eqb (n_uri (fst a)) xlink_uri && text_eqb (n_local (fst a)) (lit "href")) l.
Section Glyphs.
  (** Whether conditions like [systemLanguage] hold. *)
  Variable passes : list (name * text) -> bool.
  (** Text is drawn within [text] elements; of the children of a [switch] the first is drawn for which the conditions hold. *)
  Fixpoint glyphs (inside : bool) (chain : list (name * list (name * text))) (n : node) : list glyph :=
    match n with
    | Text t | CData t => if inside then map (fun c => Char c chain) t else []
    | Elem m _ _ l k =>
        if descriptive m then []
        else if is_svg "tref" m then if inside && referring l then [Ref l chain] else []
        else if is_svg "switch" m then
          (fix pick l' := match l' with
                          | [] => []
                          | x :: r => match x with
                                      | Elem _ _ _ a _ => if passes a then glyphs inside ((m, l) :: chain) x else pick r
                                      | _ => pick r
                                      end
                          end) k
        else (fix all l' := match l' with [] => [] | x :: r => glyphs (inside || is_svg "text" m) ((m, l) :: chain) x ++ all r end) k
    | Comment _ | Instruction _ _ | Doctype _ => []
    end.
End Glyphs.

(** White space in the sense of XML. *)
Definition space (c : N) : bool := existsb (N.eqb c) [9; 10; 13; 32]%N.
(** Characters that are not white space in any sense. *)
Definition black (g : glyph) : bool := match g with Char c _ => negb (white c) | Ref _ _ => true end.
(** The words that a text comes to when white space is collapsed. *)
Fixpoint words (w : text) (t : text) : list text :=
  match t with
  | [] => match w with [] => [] | _ => [rev w] end
  | c :: r => if space c then match w with [] => words [] r | _ => rev w :: words [] r end else words (c :: w) r
  end.
Definition characters (l : list glyph) : text := flat_map (fun g => match g with Char c _ => [c] | Ref _ _ => [] end) l.

(** Text elements of nothing but white space, and references to nothing. *)
Definition idle (n : node) : Prop :=
  match n with
  | Elem m _ _ l k => ((is_svg "text" m = true \/ is_svg "tspan" m = true) /\ Forall (fun c => match c with Text t => Forall (fun x => white x = true) t | _ => False end) k)
                      \/ (is_svg "tref" m = true /\ referring l = false)
  | _ => False
  end.
(** None of the children of any [switch] is one of these. *)
Fixpoint unswitched (n : node) : Prop :=
  match n with
  | Elem m _ _ l k => (is_svg "switch" m = true -> Forall (fun c => ~ idle c) k) /\
      (fix all l := match l with [] => True | x :: r => unswitched x /\ all r end) k
  | _ => True
  end.
(** Text elements with nothing but white space have no text at all. *)
Fixpoint no_space (n : node) : Prop :=
  match n with
  | Elem m _ _ l k => (is_svg "tref" m = false -> idle n -> Forall (fun c => c = Text []) k) /\
      (fix all l := match l with [] => True | x :: r => no_space x /\ all r end) k
  | _ => True
  end.
(** All other elements; what is in a [tref] is not drawn. *)
Fixpoint others (p : name -> bool) (n : node) : list (name * list (name * text)) :=
  match n with
  | Elem m _ _ l k =>
      (if p m then [(m, l)] else []) ++
      if is_svg "tref" m then [] else (fix all l' := match l' with [] => [] | x :: r => others p x ++ all r end) k
  | _ => []
  end.
(** An element that is empty: what the job is for. *)
Fixpoint idles (n : node) : list name :=
  match n with
  | Elem m _ _ l k =>
      (if (is_svg "text" m || is_svg "tspan" m) && match k with [] => true | _ => false end then [m] else []) ++
      (fix all l' := match l' with [] => [] | x :: r => idles x ++ all r end) k
  | _ => []
  end.
