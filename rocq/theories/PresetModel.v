(** Model of the options of a component (crates/oxvg_jsx/src/swc/preset.rs). *)
From Coq Require Import String List NArith ZArith QArith Bool.
From Verif Require Import Chars NameModel AttrTable ElemModel JsxModel.
Import ListNotations.

(** crates/oxvg_jsx/src/config.rs 138-147 [Icon]. *)
Inductive icon : Type := IBool (b : bool) | IString (t : text) | INumber (q : Q).
(** crates/oxvg_jsx/src/config.rs 117-125 [ExpandProps]. *)
Inductive expand : Type := Start | End | Nowhere.
(** The options that preset.rs 27-167 reads, with the defaults of config.rs:84-106 filled in; hash maps are lists, in the order in which they are walked,
    and an absent one is empty. *)
Record options : Type := mkOptions
  { o_native : bool; o_svg_props : list (text * text); o_ref : bool; o_title : bool; o_desc : bool; o_dimensions : bool; o_icon : option icon;
    o_expand : expand; o_replace : list (text * text) }.
(** crates/oxvg_jsx/src/error.rs 20-50: the errors of preset.rs:36-38 and 379-400. *)
Inductive failed : Type := MissingSvg | InvalidExpr (t : text).

(** preset.rs 427-454 [set_attribute], always called with [allow_push]. *)
Fixpoint set_attribute (n : text) (v : jvalue) (l : list jattr) : list jattr :=
  match l with
  | [] => [JAttr n v]
  | JAttr m w :: r => if text_eqb m n then JAttr m v :: r else JAttr m w :: set_attribute n v r
  | JSpread x :: r => JSpread x :: set_attribute n v r
  end.
(** [str::ends_with] with a character (Rust core library; used at preset.rs:380). *)
Fixpoint ends_char (c : N) (t : text) : bool := match t with [] => false | [d] => N.eqb d c | _ :: r => ends_char c r end.
(** preset.rs 379-400 [parse_templatable_attr]; [parse] is swc's parser of an expression, with the code that is printed for it. *)
Definition parse_templatable (parse : text -> option text) (t : text) : failed + jvalue :=
  match t with
  | 123%N :: r => if ends_char 125 t then match parse (removelast r) with Some code => inr (JUser code) | None => inl (InvalidExpr t) end else inr (JStr t)
  | _ => inr (JStr t)
  end.
(** preset.rs 40-45 and 147-152: the values of a map; the first that is wrong ends it. *)
Fixpoint parse_values (parse : text -> option text) (ps : list (text * text)) : failed + list (text * jvalue) :=
  match ps with
  | [] => inr []
  | (k, v) :: r =>
      match parse_templatable parse v with
      | inl e => inl e
      | inr w => match parse_values parse r with inl e => inl e | inr l => inr ((k, w) :: l) end
      end
  end.
(** preset.rs 84-96. *)
Definition drop_dimensions (l : list jattr) : list jattr :=
  filter (fun a => match a with JAttr n _ => negb (text_eqb n (lit "width") || text_eqb n (lit "height")) | JSpread _ => true end) l.
(** preset.rs 98-133. *)
Definition set_icon (native : bool) (i : option icon) (l : list jattr) : list jattr :=
  let both v := set_attribute (lit "height") v (set_attribute (lit "width") v l) in
  match i with
  | Some (IBool true) => both (if native then JNum 24 else JStr (lit "1em"))
  | Some (IString t) => both (JStr t)
  | Some (INumber q) => both (JNum q)
  | Some (IBool false) | None => l
  end.
(** preset.rs 135-145. *)
Definition expand_props (x : expand) (l : list jattr) : list jattr :=
  match x with Start => JSpread (lit "props") :: l | End => l ++ [JSpread (lit "props")] | Nowhere => l end.
(** preset.rs 40-145: the attributes of the svg element; [vs] are the values of [svg_props]. *)
Definition svg_attrs (o : options) (vs : list (text * jvalue)) (l : list jattr) : list jattr :=
  let l := fold_left (fun l p => set_attribute (fst p) (snd p) l) vs l in
  let l := if o_ref o then set_attribute (lit "ref") (JIdent (lit "ref")) l else l in
  let l := if o_title o then set_attribute (lit "aria-labelledby") (JIdent (lit "titleId")) l else l in
  let l := if o_desc o then set_attribute (lit "aria-describedby") (JIdent (lit "descId")) l else l in
  let l := if o_dimensions o then l else drop_dimensions l in
  let l := set_icon (o_native o) (o_icon o) l in
  expand_props (o_expand o) l.
(** preset.rs 40-145, at the svg element. *)
Definition change_svg (o : options) (vs : list (text * jvalue)) (j : jsx) : jsx :=
  match j with JElement n attrs sc kids cl => JElement n (svg_attrs o vs attrs) sc kids cl | j => j end.

(** preset.rs 351-377 [get_first_named_jsx_element] and 316-349 [get_first_named_jsx_element_child], with the change that is made through the reference:
    the first element with the name, from the top and from left to right. *)
Fixpoint update_first (name : text) (f : jsx -> jsx) (j : jsx) {struct j} : option jsx :=
  match j with
  | JElement n attrs sc kids cl =>
      if text_eqb n name then Some (f j)
      else option_map (fun ks => JElement n attrs sc ks cl)
        ((fix go l := match l with
                      | [] => None
                      | k :: r => match update_first name f k with Some k' => Some (k' :: r) | None => option_map (cons k) (go r) end
                      end) kids)
  | JFragment kids =>
      option_map JFragment
        ((fix go l := match l with
                      | [] => None
                      | k :: r => match update_first name f k with Some k' => Some (k' :: r) | None => option_map (cons k) (go r) end
                      end) kids)
  | _ => None
  end.
(** preset.rs 402-425 [set_value_recursive], at one attribute. *)
Definition set_value (old : text) (new : jvalue) (a : jattr) : jattr :=
  match a with JAttr n (JStr t) => if text_eqb t old then JAttr n new else a | _ => a end.
(** preset.rs 402-425 [set_value_recursive]. *)
Fixpoint set_value_recursive (old : text) (new : jvalue) (j : jsx) {struct j} : jsx :=
  match j with
  | JElement n attrs sc kids cl => JElement n (map (set_value old new) attrs) sc (map (set_value_recursive old new) kids) cl
  | JFragment kids => JFragment (map (set_value_recursive old new) kids)
  | _ => j
  end.
(** preset.rs 187-237: the id of an element that is there, and its attributes with the name before it.  Attributes always have a value here. *)
Fixpoint or_id (id : text) (l : list jattr) : option jvalue * list jattr :=
  match l with
  | [] => (None, [])
  | JAttr n v :: r => if text_eqb n (lit "id") then (Some (JOr id v), JAttr n (JOr id v) :: r)
                      else let (x, r') := or_id id r in (x, JAttr n v :: r')
  | JSpread x :: r => let (y, r') := or_id id r in (y, JSpread x :: r')
  end.
(** preset.rs 242-271: the element that is shown for the property. *)
Definition inserting (tag child : text) (id : jvalue) : jsx := JElement tag [JAttr (lit "id") id] false [JName child] (Some tag).
(** preset.rs 178-241 and 272-290: an element that is there. *)
Definition conditional (tag id child : text) (j : jsx) : jsx :=
  match j with
  | JElement n attrs sc kids cl =>
      let (x, attrs') := or_id id attrs in
      JWhen true child (JElement n attrs' sc kids cl) (Some (inserting tag child (match x with Some v => v | None => JIdent id end)))
  | j => j
  end.
(** preset.rs 291-312: no such element is there. *)
Definition insert_first (tag id child : text) (j : jsx) : jsx :=
  match j with
  | JElement n attrs sc kids cl => JElement n attrs false (JWhen false child (inserting tag child (JIdent id)) None :: kids) (Some n)
  | j => j
  end.
(** preset.rs 170-314 [replace_element_conditionally]. *)
Definition replace_element (tag id child root : text) (j : jsx) : failed + jsx :=
  match update_first tag (conditional tag id child) j with
  | Some j => inr j
  | None => match update_first root (insert_first tag id child) j with Some j => inr j | None => inl MissingSvg end
  end.
(** preset.rs 463-488: the names of react-native. *)
Definition native_name (n : text) : option text :=
  option_map snd (find (fun p => text_eqb (fst p) n)
    [(lit "svg", lit "Svg"); (lit "circle", lit "Circle"); (lit "clipPath", lit "ClipPath"); (lit "ellipse", lit "Ellipse"); (lit "g", lit "G");
     (lit "linearGradient", lit "LinearGradient"); (lit "radialGradient", lit "RadialGradient"); (lit "line", lit "Line"); (lit "path", lit "Path");
     (lit "pattern", lit "Pattern"); (lit "polygon", lit "Polygon"); (lit "polyline", lit "Polyline"); (lit "rect", lit "Rect");
     (lit "symbol", lit "Symbol"); (lit "text", lit "Text"); (lit "textPath", lit "TextPath"); (lit "tspan", lit "TSpan"); (lit "use", lit "Use");
     (lit "defs", lit "Defs"); (lit "stop", lit "Stop"); (lit "mask", lit "Mask"); (lit "image", lit "Image"); (lit "foreignObject", lit "ForeignObject")]).
(** preset.rs 456-512 [convert_tree_to_react_native]: what is left, if anything, and the names that are used. *)
Fixpoint to_native (j : jsx) {struct j} : option jsx * list text :=
  match j with
  | JElement n attrs sc kids cl =>
      match native_name n with
      | None => (None, [])
      | Some m =>
          let r := map to_native kids in
          let ks := flat_map (fun p => match fst p with Some k => [k] | None => [] end) r in
          (Some (JElement m attrs sc ks (if none_left ks then None else option_map (fun _ => m) cl)), m :: flat_map snd r)
      end
  | JFragment kids =>
      let r := map to_native kids in
      (Some (JFragment (flat_map (fun p => match fst p with Some k => [k] | None => [] end) r)), flat_map snd r)
  | j => (Some j, [])
  end.
(** preset.rs 32-34: the result is not looked at for the root, which is left as it is if it cannot be converted. *)
Definition native_root (j : jsx) : jsx * list text := match to_native j with (Some k, l) => (k, l) | (None, l) => (j, l) end.
(** preset.rs 27-167 [preset], with the names to import.  The values of the maps are parsed before they are used, which makes no difference as an error
    ends it all. *)
Definition preset (parse : text -> option text) (o : options) (j : jsx) : failed + (jsx * list text) :=
  let (j, idents) := if o_native o then native_root j else (j, []) in
  let name native web := if o_native o then native else web in
  let svg := name (lit "Svg") (lit "svg") in
  match update_first svg (fun k => k) j with
  | None => inl MissingSvg
  | Some _ =>
      match parse_values parse (o_svg_props o) with
      | inl e => inl e
      | inr vs =>
          match update_first svg (change_svg o vs) j with
          | None => inl MissingSvg
          | Some j =>
              match parse_values parse (o_replace o) with
              | inl e => inl e
              | inr rs =>
                  let j := fold_left (fun j p => set_value_recursive (fst p) (snd p) j) rs j in
                  match (if o_desc o then replace_element (name (lit "Desc") (lit "desc")) (lit "descId") (lit "desc") svg j else inr j) with
                  | inl e => inl e
                  | inr j =>
                      match (if o_title o then replace_element (name (lit "Title") (lit "title")) (lit "titleId") (lit "title") svg j else inr j) with
                      | inl e => inl e
                      | inr j => inr (j, idents)
                      end
                  end
              end
          end
      end
  end.
