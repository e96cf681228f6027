(** Model of the job cleanupAttrs on documents (crates/oxvg_optimiser/src/jobs/cleanup_attrs.rs); what it does to one value is in TextModel. *)
From Coq Require Import String List NArith Bool.
From Verif Require Import Chars NameModel AttrTable ElemModel TextModel.
Import ListNotations.

(** crates/oxvg_collections/src/attribute.rs 562-2607: the known attributes whose value is of type [Anything]. *)
Definition anything_ids : list string :=
  ["AriaKeyshortcuts"; "AriaLabel"; "AriaPlaceholder"; "AriaRoleDescription"; "AriaValueText"; "AttributeName"; "BaseProfile"; "By"; "ContentScriptType";
  "ContentStyleType"; "Download"; "Format"; "From"; "G1"; "G2"; "GlyphName"; "GlyphRef"; "Hreflang"; "Lang"; "Local"; "NameFontFace"; "OnAbort";
  "OnActivate"; "OnBegin"; "OnCancel"; "OnCanplay"; "OnCanplaythrough"; "OnChange"; "OnClick"; "OnClose"; "OnCopy"; "OnCuechange"; "OnCut";
  "OnDblclick"; "OnDrag"; "OnDragend"; "OnDragenter"; "OnDragexit"; "OnDragleave"; "OnDragover"; "OnDragstart"; "OnDrop"; "OnDurationchange";
  "OnEmptied"; "OnEnd"; "OnEnded"; "OnError"; "OnFocusIn"; "OnFocusOut"; "OnFocus"; "OnInput"; "OnInvalid"; "OnKeydown"; "OnKeypress"; "OnKeyup";
  "OnLoad"; "OnLoadeddata"; "OnLoadedmetadata"; "OnLoadstart"; "OnMousedown"; "OnMouseenter"; "OnMouseleave"; "OnMousemove"; "OnMouseout";
  "OnMouseover"; "OnMouseup"; "OnPaste"; "OnPause"; "OnPlay"; "OnPlaying"; "OnProgress"; "OnRatechange"; "OnRepeat"; "OnReset"; "OnResize"; "OnScroll";
  "OnSeeked"; "OnSeeking"; "OnSelect"; "OnShow"; "OnStalled"; "OnSubmit"; "OnSuspend"; "OnTimeupdate"; "OnToggle"; "OnUnload"; "OnVolumechange";
  "OnWaiting"; "OnWheel"; "OnZoom"; "RequiredExtensions"; "RequiredFeatures"; "Result"; "String"; "SystemLanguage"; "Title"; "To"; "TypeA"; "U1"; "U2";
  "Unicode"; "UnicodeRange"; "Version"; "ViewTarget"; "Widths"; "XLinkTitle"; "XMLNS"; "XmlBase"; "XmlLang"]%string.
(** attribute.rs 392-401 [AttrId::r#type]: whether the value of an attribute is any text; that of an unknown attribute is. *)
Definition textual (a : attr_id) : bool :=
  match id_unaliased a with BKnown k => existsb (fun i => text_eqb (kind_id k) (lit i)) anything_ids | BUnknown _ => true end.
(** An attribute with its value as text, and whether its value has the content type [Anything]: one that is textual, or one of another type that
    did not parse (attribute.rs:479-492). *)
Record cattr : Type := mkC { c_name : attr_id; c_text : bool; c_value : text }.
(** An element with its children (crates/oxvg_ast/src/visitor.rs:318-378 walks it). *)
Inductive cnode : Type := CEl (e : elem_id) (attrs : list cattr) (kids : list cnode) | CLeaf (content : text).
(** cleanup_attrs.rs 57-71: one attribute. *)
Definition clean_attr (o : cleanup_attrs) (a : cattr) : cattr := if c_text a then mkC (c_name a) true (clean_value o (c_value a)) else a.
(** cleanup_attrs.rs 49-74 [element], on all elements. *)
Fixpoint clean (o : cleanup_attrs) (n : cnode) : cnode :=
  match n with
  | CEl e attrs kids => CEl e (map (clean_attr o) attrs) (map (clean o) kids)
  | CLeaf t => CLeaf t
  end.
(** cleanup_attrs.rs 75-95 [default]. *)
Definition clean_default : cleanup_attrs := CleanupAttrs true true true.
