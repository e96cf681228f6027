(** What removing attributes must leave as it is: the value of each property of each element. *)
From Coq Require Import String List Bool Arith.
From Verif Require Import Chars CascadeModel CascadeSpec DefaultsModel.
Import ListNotations.

Section Values.
  Variable matches : sel -> elem -> bool.
  Variable inheritable : prop -> bool.
  Variable initial : prop -> value.
  (** The value of a property of an element with these ancestors, nearest first (CSS Cascade 4, 4): what the cascade gives, or else the initial value. *)
  Definition final (on : nat -> bool) (sheets : list rule) (chain : list elem) (p : prop) : value :=
    match computed matches inheritable on sheets chain p with Some v => v | None => initial p end.
End Values.

(** The elements of a document, in document order, each with its ancestors. *)
Fixpoint chains (above : list elem) (t : tree) : list (list elem) :=
  match t with Node e _ kids => (e :: above) :: flat_map (chains (e :: above)) kids end.
Definition elements (t : tree) : list elem := flat_map (fun c => match c with e :: _ => [e] | [] => [] end) (chains [] t).

(** An element by the numbers of the children that lead to it: its ancestors with it, nearest first. *)
Fixpoint chain_at (above : list elem) (t : tree) (path : list nat) : option (list elem) :=
  match t with
  | Node e _ kids =>
      match path with
      | [] => Some (e :: above)
      | n :: path => match nth_error kids n with Some k => chain_at (e :: above) k path | None => None end
      end
  end.
Fixpoint has_id_at (t : tree) (path : list nat) : bool :=
  match t with
  | Node _ i kids => match path with [] => i | n :: path => match nth_error kids n with Some k => has_id_at k path | None => false end end
  end.
(** What is drawn for an element [inner] of an element [target] by a [use] at [user] (SVG 2, 5.6.2): it inherits from the [use]. *)
Definition instance (t : tree) (target inner user : list nat) : option (list elem) :=
  match chain_at [] t (target ++ inner), chain_at [] t user with
  | Some c, Some u => Some (firstn (S (List.length inner)) c ++ u)
  | _, _ => None
  end.

(** The presentation attributes whose values are inherited (SVG 2, appendix "Property index"; with [color-profile], [color-rendering], [font] and [glyph-orientation-horizontal] of SVG 1.1). *)
Definition inherited_properties : list string := [
  "clip-rule"; "color"; "color-interpolation"; "color-interpolation-filters"; "color-profile"; "color-rendering"; "cursor"; "direction"; "dominant-baseline";
  "fill"; "fill-opacity"; "fill-rule"; "font"; "font-family"; "font-size"; "font-size-adjust"; "font-stretch"; "font-style"; "font-variant"; "font-weight";
  "glyph-orientation-horizontal"; "glyph-orientation-vertical"; "image-rendering"; "letter-spacing"; "marker"; "marker-end"; "marker-mid"; "marker-start";
  "paint-order"; "pointer-events"; "shape-rendering"; "stroke"; "stroke-dasharray"; "stroke-dashoffset"; "stroke-linecap"; "stroke-linejoin"; "stroke-miterlimit";
  "stroke-opacity"; "stroke-width"; "text-anchor"; "text-rendering"; "visibility"; "white-space"; "word-spacing"; "writing-mode"]%string.
