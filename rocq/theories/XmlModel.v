(** Model of the XML writer (crates/oxvg_ast/src/xmlwriter.rs) and the node serialiser
    (crates/oxvg_ast/src/serialize.rs).  The output [Vec<u8>] is a list of code points; writing to
    it cannot fail, so only the state errors remain.  Attribute values are the strings their
    [write_value] produces (minification of values is not part of this model). *)
From Coq Require Import String List NArith Bool Arith.
From Verif Require Import Chars.
Import ListNotations.

(** xmlwriter.rs 93-109 [Space]. *)
Inductive space : Type := SpNever | SpAuto | SpDefault | SpPreserve.
(** xmlwriter.rs 113-120 [Indent]. *)
Inductive indent : Type := INone | ISpaces (n : nat) | ITabs.
(** xmlwriter.rs 165-300 [Options], without [minify]. *)
Record options : Type := mkOptions {
  use_single_quote : bool;
  opt_indent : indent;
  trim_whitespace : space;
  attributes_indent : indent;
  enable_self_closing : bool;
}.
(** xmlwriter.rs 302-314, 317-325, 329-336. *)
Definition default_options : options := mkOptions false INone SpAuto INone true.
(** xmlwriter.rs:317-325 [Options::pretty]. *)
Definition pretty_options : options := mkOptions false (ISpaces 4) SpAuto INone true.
(** xmlwriter.rs:329-336 [Options::original]. *)
Definition original_options : options := mkOptions false INone SpNever INone true.

(** xmlwriter.rs 340-345 [State]. *)
Inductive wstate : Type := WEmpty | WDocument | WAttributes | WCData.
(** Equality of states (xmlwriter.rs:340-345). *)
Definition wstate_eqb (a b : wstate) : bool :=
  match a, b with
  | WEmpty, WEmpty | WDocument, WDocument | WAttributes, WAttributes | WCData, WCData => true
  | _, _ => false
  end.

(** xmlwriter.rs 348-351 [DepthData]; a name is its [Display] form (element.rs 359-367). *)
Record depth : Type := mkDepth { element_name : option text; has_children : bool }.

(** xmlwriter.rs 446-461 [XmlWriter]; [stack] has the innermost element first. *)
Record writer : Type := mkWriter {
  out : text;
  st : wstate;
  preserve : bool;
  stack : list depth;
}.

(** error.rs [XmlWriterError], the state errors (error.rs:10). *)
Inductive werror : Type :=
| DeclarationAlreadyWritten | AttributeWrittenBeforeElement | TextBeforeElement
| ClosedUnopenedElement | BadCDATA.
(** [Result] (xmlwriter.rs:489 and so on). *)
Inductive wres (A : Type) : Type := WOk (a : A) | WErr (e : werror).
Arguments WOk {A}. Arguments WErr {A}.
(** Rust's [?] operator (xmlwriter.rs, throughout; xmlwriter.rs:489 and so on). *)
Definition wbind {A B} (r : wres A) (f : A -> wres B) : wres B :=
  match r with WOk a => f a | WErr e => WErr e end.

(** xmlwriter.rs 466-479 [new]. *)
Definition new_writer : writer := mkWriter [] WEmpty false [].

(** [write_all] to the underlying writer (xmlwriter.rs, throughout; xmlwriter.rs:489 and so on). *)
Definition emit (w : writer) (s : text) : writer :=
  mkWriter (out w ++ s) (st w) (preserve w) (stack w).
(** Assignment to [self.state] (xmlwriter.rs, throughout; xmlwriter.rs:489 and so on). *)
Definition set_st (w : writer) (x : wstate) : writer := mkWriter (out w) x (preserve w) (stack w).

(** xmlwriter.rs 386-411 [write_escaped]. *)
Definition escape_char (single : bool) (escape_quotes : bool) (c : N) : text :=
  if N.eqb c 38 then lit "&amp;"
  else if N.eqb c 62 then lit "&gt;"
  else if N.eqb c 60 then lit "&lt;"
  else if N.eqb c 34 && escape_quotes && negb single then lit "&quot;"
  else if N.eqb c 39 && escape_quotes && single then lit "&apos;"
  else [c].
(** xmlwriter.rs:386-411 [write_escaped]. *)
Definition escape (single escape_quotes : bool) (s : text) : text :=
  flat_map (escape_char single escape_quotes) s.

(** xmlwriter.rs 1135-1142 [is_text_content_element]; element ids are compared by their printed
    name. *)
Definition text_content_names : list text :=
  map lit ["a"; "text"; "textPath"; "tspan"; "altGlyph"; "altGlyphDef"; "glyph"; "glyphRef"; "tref"]%string.
(** xmlwriter.rs:1135-1142, for one open element. *)
Definition is_text_content_depth (d : depth) : bool :=
  match element_name d with
  | Some n => existsb (text_eqb n) text_content_names
  | None => false
  end.
(** xmlwriter.rs 1130-1132. *)
Definition is_text_content_element (w : writer) : bool := existsb is_text_content_depth (stack w).

(** xmlwriter.rs 1098-1115 [write_indent]. *)
Definition indent_unit (i : indent) : text :=
  match i with INone => [] | ISpaces n => repeat 32%N n | ITabs => [9%N] end.
(** xmlwriter.rs:1098-1115 [write_indent]. *)
Definition write_indent (w : writer) (d : nat) (i : indent) : writer :=
  match i with
  | INone => w
  | _ => if preserve w || is_text_content_element w then w
         else emit w (concat (repeat (indent_unit i) d))
  end.
(** xmlwriter.rs 1093-1096 [write_node_indent]. *)
Definition write_node_indent (o : options) (w : writer) : writer :=
  write_indent w (length (stack w)) (opt_indent o).
(** xmlwriter.rs 1117-1128 [write_new_line]. *)
Definition write_new_line (o : options) (w : writer) : writer :=
  match opt_indent o with
  | INone => w
  | _ => if negb (preserve w) && negb (is_text_content_element w) then emit w [10%N] else w
  end.
(** xmlwriter.rs 1080-1091 [write_open_element]. *)
Definition write_open_element (w : writer) : writer :=
  match stack w with
  | [] => w
  | d :: ds => mkWriter (out w ++ lit ">") WDocument (preserve w) (mkDepth (element_name d) true :: ds)
  end.
(** xmlwriter.rs 1065-1077 [get_quote_char], [write_quote]. *)
Definition quote (o : options) : N := if use_single_quote o then 39%N else 34%N.

(** xmlwriter.rs 489-510 [write_declaration]. *)
Definition write_declaration (w : writer) (target : text) (value : option text) : wres writer :=
  match st w with
  | WEmpty =>
      let w := emit w (lit "<?" ++ target) in
      let w := match value with Some v => emit w (lit " " ++ v) | None => w end in
      WOk (set_st (emit w (lit "?>")) WDocument)
  | _ => WErr DeclarationAlreadyWritten
  end.

(** xmlwriter.rs 527-562 [write_comment], [write_comment_fmt]. *)
Definition write_comment (o : options) (w : writer) (s : text) : wres writer :=
  let w := if wstate_eqb (st w) WAttributes then write_open_element w else w in
  let w := if wstate_eqb (st w) WEmpty then w else write_new_line o w in
  let w := write_node_indent o w in
  let w := emit w (lit "<!--" ++ s ++ lit "-->") in
  let w := if wstate_eqb (st w) WAttributes
           then mkWriter (out w) (st w) (preserve w) (mkDepth None false :: stack w) else w in
  WOk (set_st w WDocument).

(** xmlwriter.rs 572-602 [start_element]. *)
Definition start_element (o : options) (w : writer) (name : text) : wres writer :=
  let w := if wstate_eqb (st w) WAttributes then write_open_element w else w in
  let w := if wstate_eqb (st w) WEmpty then w else write_new_line o w in
  let w := if negb (preserve w) && negb (is_text_content_element w) then write_node_indent o w else w in
  let w := emit w (lit "<" ++ name) in
  WOk (mkWriter (out w) WAttributes (preserve w) (mkDepth (Some name) false :: stack w)).

(** xmlwriter.rs 768-785 [write_attribute_prefix]. *)
Definition write_attribute_prefix (o : options) (w : writer) (name : text) : writer :=
  let w := match attributes_indent o with
           | INone => emit w (lit " ")
           | _ => let w := emit w [10%N] in
                  let d := length (stack w) in
                  let w := if Nat.ltb 0 d then write_indent w (d - 1) (opt_indent o) else w in
                  write_indent w 1 (attributes_indent o)
           end in
  emit w (name ++ lit "=" ++ [quote o]).

(** xmlwriter.rs 637-668 [write_attribute] with 752-765 [write_attribute_raw]; [Attr::XmlSpace]
    is an attribute printed as [xml:space] with value [preserve] or [default]. *)
Definition xml_space (name value : text) : option bool :=
  if text_eqb name (lit "xml:space") then
    if text_eqb value (lit "preserve") then Some true
    else if text_eqb value (lit "default") then Some false
    else None
  else None.
(** xmlwriter.rs:637-668 [write_attribute]. *)
Definition write_attribute (o : options) (w : writer) (a : text * text) : wres writer :=
  let '(name, value) := a in
  let w := match trim_whitespace o, xml_space name value with
           | SpAuto, Some p => mkWriter (out w) (st w) p (stack w)
           | _, _ => w
           end in
  match st w with
  | WAttributes =>
      let w := write_attribute_prefix o w name in
      WOk (emit w (escape (use_single_quote o) true value ++ [quote o]))
  | _ => WErr AttributeWrittenBeforeElement
  end.

(** xmlwriter.rs 919-943 [before_write_text]. *)
Definition before_write_text (o : options) (w : writer) (cdata : bool) : wres writer :=
  if wstate_eqb (st w) WEmpty || match stack w with [] => true | _ => false end
  then WErr TextBeforeElement
  else
    let w := if wstate_eqb (st w) WAttributes then write_open_element w else w in
    let w := if cdata && negb (wstate_eqb (st w) WCData) then emit w (lit "<![CDATA[") else w in
    let w := if wstate_eqb (st w) WEmpty then w else write_new_line o w in
    WOk (write_node_indent o w).

(** xmlwriter.rs 946-962 [write_text_fmt_impl]. *)
Definition write_text_fmt_impl (o : options) (w : writer) (s : text) (cdata : bool) : wres writer :=
  wbind (before_write_text o w cdata) (fun w =>
  let w := emit w (if cdata then s else escape (use_single_quote o) false s) in
  let w := if wstate_eqb (st w) WAttributes
           then mkWriter (out w) (st w) (preserve w) (mkDepth None false :: stack w) else w in
  WOk (set_st w (if cdata then WCData else WDocument))).

(** xmlwriter.rs 912-917 [write_cdata_text]. *)
Definition write_cdata_text (o : options) (w : writer) (s : text) : wres writer :=
  if contains (lit "]]>") s then WErr BadCDATA else write_text_fmt_impl o w s true.

(** xmlwriter.rs 810-848, the [Space::Default] arm: what is written for a text that is not all
    whitespace. *)
Definition first_char_ws (s : text) : bool :=
  match s with [] => false | c :: _ => is_whitespace c end.
(** xmlwriter.rs:810-848. *)
Definition default_text (i : indent) (is_first is_last : bool) (s : text) : text :=
  let no_indent := match i with INone => true | _ => false end in
  match split_whitespace s with
  | [] => []
  | first :: parts =>
      (if negb is_first && no_indent && first_char_ws s then lit " " else []) ++
      first ++ flat_map (fun p => lit " " ++ p) parts ++
      (if negb is_last && no_indent && first_char_ws (rev s) then lit " " else [])
  end.
(** xmlwriter.rs 855-865, the [Space::Preserve] arm. *)
Definition preserve_text (s : text) : text :=
  map (fun c => if N.eqb c 10 || N.eqb c 9 then 32%N else c) s.

(** xmlwriter.rs 796-871 [write_text]. *)
Definition write_text (o : options) (w : writer) (s : text) (is_first is_last : bool) : wres writer :=
  let sp := match trim_whitespace o with
            | SpAuto => if preserve w then SpPreserve else SpDefault
            | x => x
            end in
  match sp with
  | SpNever | SpAuto => write_text_fmt_impl o w s false
  | SpDefault =>
      match split_whitespace s with
      | [] => WOk w
      | _ =>
        wbind (before_write_text o w false) (fun w =>
        WOk (set_st (emit w (escape (use_single_quote o) false
                       (default_text (opt_indent o) is_first is_last s))) WDocument))
      end
  | SpPreserve =>
      let o' := mkOptions (use_single_quote o) INone (trim_whitespace o) (attributes_indent o)
                  (enable_self_closing o) in
      wbind (before_write_text o' w false) (fun w =>
      WOk (set_st (emit w (escape (use_single_quote o) false (preserve_text s))) WDocument))
  end.

(** xmlwriter.rs 878-893 [write_style]: the printed rules, unescaped; an empty rule list writes
    nothing (a non-empty one prints a non-empty text). *)
Definition write_style (o : options) (w : writer) (css : text) : wres writer :=
  match css with
  | [] => WOk w
  | _ => wbind (before_write_text o w false) (fun w => WOk (emit w css))
  end.

(** xmlwriter.rs 970-1022 [end_element]. *)
Definition end_element (o : options) (w : writer) : wres writer :=
  match stack w with
  | [] => WOk (set_st w WDocument)
  | d :: ds =>
      let w := mkWriter (out w) (st w) (preserve w) ds in
      if has_children d || negb (enable_self_closing o) then
        let w := if negb (has_children d) && negb (enable_self_closing o) then emit w (lit ">") else w in
        let w := if negb (preserve w) && negb (is_text_content_depth d)
                 then write_node_indent o (write_new_line o w) else w in
        let w := if wstate_eqb (st w) WCData then emit w (lit "]]>") else w in
        let w := emit w (lit "</") in
        match element_name d with
        | None => WErr ClosedUnopenedElement
        | Some n => WOk (set_st (emit w (n ++ lit ">")) WDocument)
        end
      else WOk (set_st (emit w (lit "/>")) WDocument)
  end.

(** xmlwriter.rs 1054-1062 [end_document]; the loop ends because [end_element] pops the stack. *)
Fixpoint end_all (o : options) (n : nat) (w : writer) : wres writer :=
  match n with
  | 0 => WOk w
  | S n => wbind (end_element o w) (end_all o n)
  end.
(** xmlwriter.rs:1054-1062 [end_document]. *)
Definition end_document (o : options) (w : writer) : wres text :=
  wbind (end_all o (length (stack w)) w) (fun w => WOk (out (write_new_line o w))).

(** node.rs 92-131 [NodeData] as the serialiser sees it (serialize.rs 94-125); [XStyle] carries
    the printed rules, [XDoctype] stands for doctype and fragment nodes, which print nothing. *)
Inductive xnode : Type :=
| XElem (name : text) (attrs : list (text * text)) (kids : list xnode)
| XText (s : text)
| XStyle (css : text)
| XComment (s : text)
| XPI (target : text) (value : option text)
| XDoctype.

(** node.rs [node_type() == Type::Text] (serialize.rs:129, 133; node.rs:757). *)
Definition is_text_node (n : xnode) : bool := match n with XText _ => true | _ => false end.

(** The attribute loop of serialize.rs 98-100. *)
Fixpoint write_attributes (o : options) (w : writer) (l : list (text * text)) : wres writer :=
  match l with
  | [] => WOk w
  | a :: l => wbind (write_attribute o w a) (fun w => write_attributes o w l)
  end.

(** serialize.rs 127-140, the loop over the children; [first] means the child is the first child
    or follows a text node, [is_last] that it is the last one or precedes a text node. *)
Definition next_is_text (l : list xnode) : bool :=
  match l with [] => true | n :: _ => is_text_node n end.
(** serialize.rs:127-140. *)
Definition serialize_kids (f : xnode -> bool -> bool -> writer -> wres writer)
  : list xnode -> bool -> writer -> wres writer :=
  fix go l first w :=
  match l with
  | [] => WOk w
  | n :: l => wbind (f n first (next_is_text l) w) (go l (is_text_node n))
  end.

(** serialize.rs 87-147 [serialize_node]. *)
Fixpoint serialize_node (o : options) (n : xnode) (is_first is_last : bool) (w : writer)
  : wres writer :=
  match n with
  | XElem name attrs kids =>
      wbind (start_element o w name) (fun w =>
      wbind (write_attributes o w attrs) (fun w =>
      wbind (serialize_kids (serialize_node o) kids true w) (fun w =>
      end_element o w)))
  | XText s => match s with [] => WOk w | _ => write_text o w s is_first is_last end
  | XStyle css => write_style o w css
  | XComment s => write_comment o w s
  | XPI t v => write_declaration w t v
  | XDoctype => WOk w
  end.

(** serialize.rs 74-84 [serialize_into] on a document node with the given children. *)
Definition serialize_document (o : options) (kids : list xnode) : wres text :=
  wbind (serialize_kids (serialize_node o) kids true new_writer) (end_document o).
