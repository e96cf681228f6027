(** Model of the conversion of documents to JSX (crates/oxvg_jsx/src/swc.rs).  The output is the tree that swc prints. *)
From Coq Require Import String List NArith ZArith QArith Bool.
From Verif Require Import Chars NameModel AttrTable ElemModel TextModel JsxNamesModel.
Import ListNotations.

(** The value of an attribute as far as swc.rs:238-313 tells values apart: true or false, true, false or undefined, a number, an integer, a length in
    pixels, a style (its normal and its important declarations, each with whether it is a custom property, its name and its value), or anything else
    as text.  Numbers are rational: every f32 is one, and the conversion to f64 is exact. *)
Inductive value : Type :=
| VBool (b : bool) | VTri (b : option bool) | VNum (q : Q) | VInt (z : Z) | VPx (q : Q)
| VStyle (normal important : list (bool * text * text)) | VOther (t : text).
(** A document (crates/oxvg_ast/src/node.rs:70-108): the document node, elements, texts, comments, processing instructions with their value, style sheets
    as text. *)
Inductive xnode : Type :=
| XDocument (kids : list xnode)
| XElement (e : elem_id) (attrs : list (attr_id * value)) (kids : list xnode)
| XText (t : option text) | XComment (t : text) | XPI (t : option text) | XStyle (css : text).

(** The value of an attribute in JSX, as far as swc.rs and preset.rs build them: a text, a boolean, a number, an object with texts, a name, a name or
    else a value ([a || b], preset.rs:207-236), or an expression of the user (preset.rs:379-400). *)
Inductive jvalue : Type :=
| JStr (t : text) | JBool (b : bool) | JNum (q : Q) | JObj (l : list (text * text))
| JIdent (x : text) | JOr (x : text) (v : jvalue) | JUser (code : text).
(** An attribute in JSX (swc.rs:227-236, preset.rs:135-145). *)
Inductive jattr : Type := JAttr (n : text) (v : jvalue) | JSpread (x : text).
(** JSX (swc.rs:48-66, 145-225, preset.rs:272-312): an element with its name, attributes, whether it closes itself, children and the name of its closing
    tag; a fragment; a text as it is printed; an empty expression; a name; a condition on a name, with what there is otherwise, if anything. *)
Inductive jsx : Type :=
| JElement (n : text) (attrs : list jattr) (self_closing : bool) (kids : list jsx) (closing : option text)
| JFragment (kids : list jsx)
| JText (raw : text)
| JEmpty
| JName (x : text)
| JWhen (undefined : bool) (x : text) (yes : jsx) (no : option jsx).

(** swc.rs 238-313 [attr_value_to_svg]; [camel] is [to_case(Case::Camel)] of a library.  Errors of the printer are not modelled. *)
Definition attr_value (camel : text -> text) (v : value) : jvalue :=
  match v with
  | VBool b => JBool b
  | VTri (Some b) => JBool b
  | VTri None => JStr (lit "undefined")
  | VNum q => JNum q
  | VInt z => JNum (inject_Z z)
  | VPx q => JNum q
  | VStyle normal important => JObj (map (fun d => match d with (custom, n, t) => (if custom : bool then n else camel n, t) end) normal)
  | VOther t => JStr t
  end.
(** swc.rs 150-199 and 227-236 [attr_to_jsx]: attributes without a name in JSX are left out, with a warning. *)
Definition attr_to_jsx (uni : N -> bool) (camel : text -> text) (a : attr_id * value) : list jattr :=
  match jsx_name uni (fst a) with Named n => [JAttr n (attr_value camel (snd a))] | Dropped _ => [] end.
(** swc.rs 141-143: the declaration of the namespace is taken off. *)
Definition is_xmlns (a : attr_id * value) : bool :=
  match id_unaliased (fst a) with BKnown k => text_eqb (kind_id k) (lit "XMLNS") | BUnknown _ => false end.
(** swc.rs 141-199: the attributes of an element. *)
Definition attrs_to_jsx (uni : N -> bool) (camel : text -> text) (e : elem_id) (attrs : list (attr_id * value)) : list jattr :=
  flat_map (attr_to_jsx uni camel) (if elem_is e (lit "Svg") then filter (fun a => negb (is_xmlns a)) attrs else attrs).
(** swc.rs 49-53: the children of a document that are looked at. *)
Definition in_document (n : xnode) : bool := match n with XElement _ _ _ | XText _ => true | _ => false end.
(** [Vec::is_empty] (Rust alloc library; used at swc.rs:200). *)
Definition none_left {A} (l : list A) : bool := match l with [] => true | _ => false end.
(** swc.rs 42-125 [to_jsx] with 132-225 [element_to_jsx]. *)
Fixpoint to_jsx (uni : N -> bool) (camel : text -> text) (n : xnode) {struct n} : jsx :=
  match n with
  | XDocument kids =>
      match flat_map (fun k => if in_document k then [to_jsx uni camel k] else []) kids with
      | [j] => j
      | l => JFragment l
      end
  | XElement e attrs kids =>
      if negb (prefix_is_empty (elem_prefix e)) then JEmpty
      else JElement (elem_local e) (attrs_to_jsx uni camel e attrs) (none_left kids) (map (to_jsx uni camel) kids)
             (if none_left kids then None else Some (elem_local e))
  | XStyle css => JText css
  | XPI (Some t) | XText (Some t) => JText (trim_str t)
  | XPI None | XText None | XComment _ => JEmpty
  end.
