(** The value of a property, from the cascade. *)
From Coq Require Import String List Bool.
From Verif Require Import ToAttrsModel.
Import ListNotations.
Local Open Scope string_scope.

(** Shorthand properties set others. *)
Definition longhands (s : string) : list string :=
  if String.eqb s "font" then ["font-style"; "font-variant"; "font-weight"; "font-stretch"; "font-size"; "line-height"; "font-family"]
  else if String.eqb s "marker" then ["marker-start"; "marker-mid"; "marker-end"]
  else if String.eqb s "text-decoration" then ["text-decoration-line"; "text-decoration-style"; "text-decoration-color"; "text-decoration-thickness"]
  else if String.eqb s "mask" then ["mask-image"; "mask-mode"; "mask-repeat"; "mask-position"; "mask-clip"; "mask-origin"; "mask-size"; "mask-composite"]
  else if String.eqb s "overflow" then ["overflow-x"; "overflow-y"]
  else [].
(** A declaration that says something about a property. *)
Definition about (p : string) (d : declaration) : bool := String.eqb (prop d) p || existsb (String.eqb p) (longhands (prop d)) || String.eqb (prop d) "all".
(** The last one counts; a vendor prefix makes another property. *)
Definition declared (p : string) (l : list declaration) : option nat :=
  fold_left (fun o d => if negb (vendor d) && about p d then Some (val d) else o) l None.
(** The properties with a presentation attribute (SVG 2, 6.6; [color-rendering] from SVG 1.1); shorthands have none, but for [mask], [overflow] and [text-decoration]. *)
Definition presentation : list string :=
  ["alignment-baseline"; "baseline-shift"; "clip-path"; "clip-rule"; "color"; "color-interpolation"; "color-interpolation-filters"; "color-rendering"; "cursor"; "direction"; "display";
   "dominant-baseline"; "fill"; "fill-opacity"; "fill-rule"; "filter"; "flood-color"; "flood-opacity"; "font-family"; "font-size"; "font-size-adjust";
   "font-stretch"; "font-style"; "font-variant"; "font-weight"; "glyph-orientation-horizontal"; "glyph-orientation-vertical"; "image-rendering";
   "letter-spacing"; "lighting-color"; "marker-end"; "marker-mid"; "marker-start"; "mask"; "mask-type"; "opacity"; "overflow"; "paint-order";
   "pointer-events"; "shape-rendering"; "stop-color"; "stop-opacity"; "stroke"; "stroke-dasharray"; "stroke-dashoffset"; "stroke-linecap";
   "stroke-linejoin"; "stroke-miterlimit"; "stroke-opacity"; "stroke-width"; "text-anchor"; "text-decoration"; "text-overflow"; "text-rendering";
   "transform"; "transform-origin"; "unicode-bidi"; "vector-effect"; "visibility"; "white-space"; "word-spacing"; "writing-mode"].
Definition attribute (n : string) (l : list (string * nat)) : option nat := option_map snd (find (fun a => String.eqb (fst a) n) l).
(** For animations, [fill] is not a presentation attribute but says what is to happen at the end. *)
Definition animations : list string := ["animate"; "animateColor"; "animateMotion"; "animateTransform"; "set"].
Definition presents (e : element) (p : string) : bool := existsb (String.eqb p) presentation && negb (String.eqb p "fill" && existsb (String.eqb (name e)) animations).
Definition at_the_end (e : element) : option nat := if existsb (String.eqb (name e)) animations then attribute "fill" (attrs e) else None.
(** What stylesheets say. *)
Record sheets : Type := mkSheets { normal : string -> option nat; strong : string -> option nat }.
Definition or_else (a b : option nat) : option nat := match a with Some _ => a | None => b end.
(** CSS Cascading and Inheritance, 6.1: important declarations first, [style] before stylesheets, presentation attributes last. *)
Definition value (s : sheets) (e : element) (p : string) : option nat :=
  let b := match style e with Some b => b | None => mkBlock [] [] end in
  or_else (declared p (important b)) (or_else (strong s p) (or_else (declared p (declarations b)) (or_else (normal s p) (if presents e p then attribute p (attrs e) else None)))).
(** Minification keeps what is declared. *)
Definition sound (minify : block -> block) : Prop :=
  forall b p, declared p (declarations (minify b)) = declared p (declarations b) /\ declared p (important (minify b)) = declared p (important b).
