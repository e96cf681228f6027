(** What the lint rules of an element are to report. *)
From Coq Require Import String List NArith Bool.
From Verif Require Import Chars NameModel AttrTable ElemTable ElemModel KnownModel KnownSpec ExcerptModel VerdictModel.
Import ListNotations.

(** The rule a problem belongs to. *)
Definition severity_of (r : rules) (p : problem) : severity :=
  match p with
  | UnknownElement _ _ => r_elements r
  | UnknownAttribute _ _ => r_attributes r
  | DeprecatedElement _ | DeprecatedAttribute _ => r_deprecated r
  | DefaultAttribute _ => r_default r
  | NoXLink _ => r_xlink r
  | InvalidAttribute _ => r_invalid r
  end.
(** All rules on. *)
Definition all_on : rules := mkRules Err Err Err Err Err Err.

(** An element of SVG 2 and one of its attributes, in the namespace of SVG. *)
Definition svg (name : text) : elem_id := elem_new (PKnown SVG) name.
Definition attribute (element local value : text) : attr := mkAttr (parse_attr_id (svg element) (PKnown SVG) local) (Typed value) false.

(** Attributes that SVG 2 lists but no longer gives an effect (SVG 2, appendix on changes; SVG 2 keeps [zoomAndPan] as ignored), so that calling them deprecated is right. *)
Definition without_effect : list string := ["glyph-orientation-horizontal"; "glyph-orientation-vertical"; "zoomAndPan"]%string.

(** An attribute nothing is wrong with: SVG 2 defines it for the element, and its value is not the one it has when left out. *)
Definition fine (element : text) (av : text * text) : Prop :=
  svg2_attribute element (fst av) /\ known_kept (fst av) /\ ~ In (fst av) (map lit without_effect) /\ has_default element (fst av) /\ ~ initial element (fst av) (snd av).

(** Elements whose children are not looked at: they hold any (SVG 2, 5.7 and 12.4). *)
Definition holds_any : list string := ["desc"; "title"; "metadata"; "foreignObject"]%string.
(** Elements SVG 2 dropped from SVG 1.1 (SVG 2, appendix on changes). *)
Definition dropped : list string :=
  ["altGlyph"; "altGlyphDef"; "altGlyphItem"; "animateColor"; "color-profile"; "cursor"; "font"; "font-face"; "font-face-format"; "font-face-name"; "font-face-src"; "font-face-uri";
   "glyph"; "glyphRef"; "hkern"; "missing-glyph"; "tref"; "vkern"]%string.
(** Those of them the code does not call deprecated. *)
Definition still_there : list string := ["altGlyph"; "altGlyphDef"; "altGlyphItem"; "animateColor"; "vkern"]%string.
(** What an inherited property comes to: the value of its own, else the one of the parent, else the initial one (CSS Cascade, 7). *)
Definition comes_to (own parent : option text) (first : text) : text := match own with Some v => v | None => match parent with Some v => v | None => first end end.
