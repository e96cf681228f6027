(** Property theorems C09-C12, C55 and C61 (serialisation). *)
From Coq Require Import String List NArith Bool Arith.
From Verif Require Import Chars XmlModel XmlSpec XmlProofs XmlProofs2 XmlProofs3 XmlProofs4 XmlProofs5.
Import ListNotations.

(* ------------------------------------------------------------------ C09 *)

(** Escaped strings decode to the original, for text ([quotes = false]) and attribute values
    ([quotes = true]) and both quote styles. *)
Theorem C09_escape_decodes single quotes s : unescape (escape single quotes s) = Some s.
Proof. exact (unescape_escape single quotes s). Qed.
Print Assumptions C09_escape_decodes.

(** No markup delimiter survives. *)
Theorem C09_escape_no_breakout single quotes s c : In c (escape single quotes s) ->
  c <> 60%N /\ c <> 62%N /\ (quotes = true -> c <> if single then 39%N else 34%N).
Proof. exact (in_escape single quotes s c). Qed.
Print Assumptions C09_escape_no_breakout.

(** Every ampersand starts a predefined entity reference. *)
Theorem C09_escape_ampersands single quotes s pre post :
  escape single quotes s = pre ++ 38%N :: post ->
  exists e rest, In e entities /\ post = e ++ rest.
Proof. exact (amp_starts_entity single quotes s pre post). Qed.
Print Assumptions C09_escape_ampersands.

Example C09_example :
  escape false true (lit "a<b & ""c'd>") = lit "a&lt;b &amp; &quot;c'd&gt;" /\
  escape true true (lit """'") = lit """&apos;" /\
  unescape (lit "a&lt;&#x26;&#65;") = Some (lit "a<&A") /\ unescape (lit "a & b") = None.
Proof. vm_compute. repeat split. Qed.

(* ------------------------------------------------------------------ C10 *)

(** Without indentation and with whitespace left alone, every document of XML names and
    characters is written, and a reader gets the same tree. *)
Theorem C10_round_trip_partial o kids :
  opt_indent o = INone -> attributes_indent o = INone -> trim_whitespace o = SpNever ->
  Forall top_ok kids -> exists s,
  serialize_document o kids = WOk s /\ read s = Some (document_of kids).
Proof. exact (fun H1 H2 H3 => round_trip_never o kids (conj H1 H2) H3). Qed.
Print Assumptions C10_round_trip_partial.

(** The other whitespace modes change only the texts. *)
Theorem C10_round_trip_default o kids :
  opt_indent o = INone -> attributes_indent o = INone -> Forall top_ok kids ->
  trim_whitespace o = SpDefault \/
  (trim_whitespace o = SpAuto /\ Forall (fun a => fst a <> lit "xml:space") (flat_map all_attrs kids)) ->
  exists s, serialize_document o kids = WOk s /\
  read s = Some (document_of (map_top (default_text INone) kids true)).
Proof. exact (round_trip_default o kids). Qed.
Print Assumptions C10_round_trip_default.

Theorem C10_round_trip_preserve o kids :
  opt_indent o = INone -> attributes_indent o = INone -> Forall top_ok kids ->
  trim_whitespace o = SpPreserve ->
  exists s, serialize_document o kids = WOk s /\
  read s = Some (document_of (map_top (fun _ _ s => preserve_text s) kids true)).
Proof. exact (round_trip_preserve o kids). Qed.
Print Assumptions C10_round_trip_preserve.

(** A newline in an attribute value is read back as a space. *)
Theorem C10_attribute_newline_refuted : exists v s,
  forallb is_xml_char v = true /\
  serialize_document original_options [XElem (lit "g") [(lit "id", v)] []] = WOk s /\
  read s = Some [RElem (lit "g") [(lit "id", lit "a b")] []] /\ v <> lit "a b".
Proof.
  exists [97; 10; 98]%N. eexists. split; [reflexivity|]. split; [vm_compute; reflexivity|].
  split; [vm_compute; reflexivity|discriminate].
Qed.
Print Assumptions C10_attribute_newline_refuted.

(** A carriage return in text is read back as a newline. *)
Theorem C10_carriage_return_refuted : exists t s,
  forallb is_xml_char t = true /\
  serialize_document original_options [XElem (lit "text") [] [XText t]] = WOk s /\
  read s = Some [RElem (lit "text") [] [RText [97; 10; 98]%N]] /\ t <> [97; 10; 98]%N.
Proof.
  exists [97; 13; 98]%N. eexists. split; [reflexivity|]. split; [vm_compute; reflexivity|].
  split; [vm_compute; reflexivity|discriminate].
Qed.
Print Assumptions C10_carriage_return_refuted.

(** Style rules are written without escaping: an ampersand makes the output unreadable. *)
Theorem C10_style_refuted : exists css s,
  text_ok css /\
  serialize_document original_options [XElem (lit "style") [] [XStyle css]] = WOk s /\ read s = None.
Proof.
  exists (lit "a{fill:url(x?b=1&c=2)}"). eexists. split; [reflexivity|].
  split; [vm_compute; reflexivity|vm_compute; reflexivity].
Qed.
Print Assumptions C10_style_refuted.

Definition c10_doc : list xnode :=
  [XComment (lit "made-by");
   XElem (lit "svg") [(lit "xmlns", lit "http://www.w3.org/2000/svg"); (lit "id", lit "<""a"" & 'b'>")]
     [XText (lit "a < b &"); XText (lit " c"); XElem (lit "g") [] [];
      XElem (lit "xlink:use") [(lit "x", [])] [XText []; XDoctype]; XStyle (lit "a>b{}"); XComment []]].
Example C10_example : Forall top_ok c10_doc /\
  serialize_document original_options c10_doc = WOk (lit "<!--made-by--><svg xmlns=""http://www.w3.org/2000/svg"" id=""&lt;&quot;a&quot; &amp; 'b'&gt;"">a &lt; b &amp; c<g/><xlink:use x=""""/>a>b{}<!----></svg>").
Proof.
  split; [|vm_compute; reflexivity].
  repeat constructor; simpl; auto; try (intros [E|[]]; discriminate); try discriminate;
    try (intros s' E; destruct s' as [|? s']; simpl in E; try discriminate;
         repeat (destruct s' as [|? s']; simpl in E; try discriminate; inversion E));
    try (intros E; repeat (destruct E as [E|E]; try discriminate); exact E).
Qed.

(* ------------------------------------------------------------------ C11 *)

(** A comment is read back as that comment exactly when XML allows its text in a comment. *)
Theorem C11_comment_exact o s :
  opt_indent o = INone -> attributes_indent o = INone -> trim_whitespace o = SpNever -> text_ok s ->
  ((exists t, serialize_document o [XElem (lit "g") [] [XComment s]] = WOk t /\
    read t = Some [RElem (lit "g") [] [RComment s]]) <-> comment_shape s).
Proof. exact (fun H1 H2 => comment_exact o s (conj H1 H2)). Qed.
Print Assumptions C11_comment_exact.

(** The writer does not reject any other comment: its text becomes markup. *)
Theorem C11_comment_refuted : exists s t,
  text_ok s /\ serialize_document original_options [XElem (lit "g") [] [XComment s]] = WOk t /\
  read t = Some [RElem (lit "g") [] [RComment []; RElem (lit "script") [] []; RComment []]].
Proof.
  exists (lit "--><script/><!--"). eexists. split; [reflexivity|].
  split; [vm_compute; reflexivity|vm_compute; reflexivity].
Qed.
Print Assumptions C11_comment_refuted.

(** One character-data section per element is written faithfully; text that would end it is
    rejected. *)
Theorem C11_cdata_partial o s :
  opt_indent o = INone -> attributes_indent o = INone -> text_ok s ->
  let written := wbind (start_element o new_writer (lit "g")) (fun w =>
                 wbind (write_cdata_text o w s) (fun w =>
                 wbind (end_element o w) (end_document o))) in
  if contains (lit "]]>") s then written = WErr BadCDATA
  else exists t, written = WOk t /\ read t = Some [RElem (lit "g") [] (merge [RText s])].
Proof. exact (cdata_written o s). Qed.
Print Assumptions C11_cdata_partial.

(** Two accepted pieces can end the section early and inject markup. *)
Theorem C11_cdata_refuted : exists a b t,
  contains (lit "]]>") a = false /\ contains (lit "]]>") b = false /\
  wbind (start_element original_options new_writer (lit "g")) (fun w =>
  wbind (write_cdata_text original_options w a) (fun w =>
  wbind (write_cdata_text original_options w b) (fun w =>
  wbind (end_element original_options w) (end_document original_options)))) = WOk t /\
  read t = Some [RElem (lit "g") [] [RElem (lit "script") [] []; RText (lit "x")]].
Proof.
  exists (lit "]]"), (lit "><script/><![CDATA[x"). eexists.
  split; [reflexivity|]. split; [reflexivity|]. split; [vm_compute; reflexivity|vm_compute; reflexivity].
Qed.
Print Assumptions C11_cdata_refuted.

(** A processing instruction that opens the document is read back unchanged. *)
Theorem C11_pi_partial o t v kids :
  opt_indent o = INone -> attributes_indent o = INone -> trim_whitespace o = SpNever -> is_name t ->
  match v with Some v => pi_value_ok v | None => True end -> Forall top_ok kids -> exists s,
  serialize_document o (XPI t v :: kids) = WOk s /\
  read s = Some (document_of (XPI t v :: kids)).
Proof. exact (fun H1 H2 => pi_first o t v kids (conj H1 H2)). Qed.
Print Assumptions C11_pi_partial.

(** Anywhere after the first output, a processing instruction fails the whole serialisation. *)
Theorem C11_pi_position_refuted : exists kids,
  serialize_document original_options kids = WErr DeclarationAlreadyWritten /\
  kids = [XComment (lit "c"); XPI (lit "xml-stylesheet") (Some (lit "href='a.css'"));
          XElem (lit "svg") [] []].
Proof. eexists. split; [|reflexivity]. vm_compute. reflexivity. Qed.
Print Assumptions C11_pi_position_refuted.

(** The value of a processing instruction is not checked either. *)
Theorem C11_pi_value_refuted : exists v s,
  text_ok v /\
  serialize_document original_options [XPI (lit "p") (Some v); XElem (lit "svg") [] []] = WOk s /\
  read s = Some [RPI (lit "p") (lit "a"); RElem (lit "script") [] []; RPI (lit "q") [];
                 RElem (lit "svg") [] []].
Proof.
  exists (lit "a?><script/><?q"). eexists. split; [reflexivity|]. split; [vm_compute; reflexivity|vm_compute; reflexivity].
Qed.
Print Assumptions C11_pi_value_refuted.

Example C11_example :
  comment_shape (lit "a -> b") /\ text_ok (lit "a -> b") /\
  contains (lit "]]>") (lit "]] >") = false /\ pi_value_ok (lit "href='a.css'?") /\
  is_name (lit "xml-stylesheet") /\
  serialize_document original_options
    [XPI (lit "xml-stylesheet") (Some (lit "href='a.css'")); XElem (lit "g") [] [XComment (lit "a -> b")]] =
    WOk (lit "<?xml-stylesheet href='a.css'?><g><!--a -> b--></g>").
Proof.
  split; [split; [reflexivity|]|].
  - intros s' E. apply (f_equal (@rev N)) in E. rewrite rev_app_distr in E. discriminate.
  - repeat split; vm_compute; auto.
Qed.

(* ------------------------------------------------------------------ C12 *)

(** With automatic whitespace handling, when only the root element carries [xml:space], every
    text below it is handled as the root asks. *)
Theorem C12_root_space_partial o name attrs kids :
  opt_indent o = INone -> attributes_indent o = INone -> trim_whitespace o = SpAuto ->
  top_ok (XElem name attrs kids) ->
  Forall (fun a => fst a <> lit "xml:space") (flat_map all_attrs kids) -> exists s,
  serialize_document o [XElem name attrs kids] = WOk s /\
  read s = Some (document_of [XElem name attrs
    (map_top (if asks_preserve attrs then fun _ _ s => preserve_text s else default_text INone)
       kids true)]).
Proof. exact (root_space' o name attrs kids). Qed.
Print Assumptions C12_root_space_partial.

(** What the writer does instead of scoping: a later element is handled as asked for by the last
    [xml:space] attribute written before it, wherever that was. *)
Theorem C12_last_attribute o name attrs k n2 t :
  opt_indent o = INone -> attributes_indent o = INone -> trim_whitespace o = SpAuto ->
  top_ok (XElem name attrs [k; XElem n2 [] [XText t]]) -> exists s k',
  serialize_document o [XElem name attrs [k; XElem n2 [] [XText t]]] = WOk s /\
  read s = Some (document_of [XElem name attrs [k'; XElem n2 [] [XText
    (if last_space (attrs ++ all_attrs k) false then preserve_text t
     else default_text INone true true t)]]]).
Proof. exact (last_attribute o name attrs k n2 t). Qed.
Print Assumptions C12_last_attribute.

(** A sibling after an element that preserved its whitespace is preserved too. *)
Theorem C12_scope_refuted : exists doc s,
  Forall top_ok doc /\ serialize_document default_options doc = WOk s /\
  doc = [XElem (lit "svg") []
           [XElem (lit "text") [(lit "xml:space", lit "preserve")] [XText (lit "a")];
            XElem (lit "text") [] [XText (lit "  b   c  ")]]] /\
  read s = Some [RElem (lit "svg") []
           [RElem (lit "text") [(lit "xml:space", lit "preserve")] [RText (lit "a")];
            RElem (lit "text") [] [RText (lit "  b   c  ")]]] /\
  default_text INone true true (lit "  b   c  ") = lit "b c".
Proof.
  eexists. eexists. split; [|split; [|split; [reflexivity|split]]];
    [|vm_compute; reflexivity|vm_compute; reflexivity|vm_compute; reflexivity].
  repeat constructor; simpl; auto.
Qed.
Print Assumptions C12_scope_refuted.

(** And an inner [xml:space="default"] ends the outer preservation for the rest of the element. *)
Theorem C12_restore_refuted : exists doc s,
  serialize_document default_options doc = WOk s /\
  doc = [XElem (lit "text") [(lit "xml:space", lit "preserve")]
           [XText (lit "a  b"); XElem (lit "tspan") [(lit "xml:space", lit "default")] [];
            XText (lit "c  d")]] /\
  read s = Some [RElem (lit "text") [(lit "xml:space", lit "preserve")]
           [RText (lit "a  b"); RElem (lit "tspan") [(lit "xml:space", lit "default")] [];
            RText (lit "c d")]].
Proof. eexists. eexists. split; [|split; [reflexivity|]]; [vm_compute; reflexivity|vm_compute; reflexivity]. Qed.
Print Assumptions C12_restore_refuted.

Example C12_example :
  top_ok (XElem (lit "svg") [(lit "xml:space", lit "preserve")] [XElem (lit "text") [] [XText (lit " a  b")]]) /\
  serialize_document default_options
    [XElem (lit "svg") [(lit "xml:space", lit "preserve")] [XElem (lit "text") [] [XText (lit " a  b")]]] =
  WOk (lit "<svg xml:space=""preserve""><text> a  b</text></svg>").
Proof. split; [repeat constructor; simpl; auto|vm_compute; reflexivity]. Qed.

(* ------------------------------------------------------------------ C55 *)

(** Collapsing whitespace keeps the words of a text, in order. *)
Theorem C55_words_kept i is_first is_last s :
  split_whitespace (default_text i is_first is_last s) = split_whitespace s.
Proof. exact (default_text_words i is_first is_last s). Qed.
Print Assumptions C55_words_kept.

(** When the only whitespace in the text is XML whitespace, nothing but XML whitespace changes. *)
Theorem C55_only_whitespace_partial i is_first is_last s :
  forallb (fun c => negb (is_whitespace c) || is_xml_space c) s = true ->
  filter (fun c => negb (is_xml_space c)) (default_text i is_first is_last s) =
  filter (fun c => negb (is_xml_space c)) s.
Proof. exact (default_text_chars i is_first is_last s). Qed.
Print Assumptions C55_only_whitespace_partial.

(** A no-break space is lost: [a\u{A0}b] is written as [a b], and a text of only no-break spaces
    disappears. *)
Theorem C55_no_break_space_refuted : exists s t,
  serialize_document default_options [XElem (lit "text") [] [XText s]] = WOk t /\
  s = [97; 160; 98]%N /\
  read t = Some [RElem (lit "text") [] [RText (lit "a b")]] /\
  serialize_document default_options [XElem (lit "text") [] [XText [160%N]]] = WOk (lit "<text/>").
Proof.
  eexists. eexists. split; [|split; [reflexivity|]]; [vm_compute; reflexivity|split; [vm_compute; reflexivity|vm_compute; reflexivity]].
Qed.
Print Assumptions C55_no_break_space_refuted.

Example C55_example :
  forallb (fun c => negb (is_whitespace c) || is_xml_space c) (lit "  a   b ") = true /\
  default_text INone true false (lit "  a   b ") = lit "a b ".
Proof. vm_compute. auto. Qed.

(* ------------------------------------------------------------------ C61 *)

(** Whatever the indentation, when whitespace is left alone a reader gets the same document with
    white space added between nodes, never inside an element that renders text. *)
Theorem C61_never_partial o kids :
  attributes_indent o = INone -> trim_whitespace o = SpNever -> Forall top_ok kids ->
  exists s kids', serialize_document o kids = WOk s /\ read s = Some (document_of kids') /\ padded false kids kids'.
Proof. exact (indented_never o kids). Qed.
Print Assumptions C61_never_partial.

(** In the default mode texts are also collapsed. *)
Theorem C61_default_partial o kids :
  attributes_indent o = INone -> Forall top_ok kids ->
  trim_whitespace o = SpDefault \/
  (trim_whitespace o = SpAuto /\ Forall (fun a => fst a <> lit "xml:space") (flat_map all_attrs kids)) ->
  exists s kids', serialize_document o kids = WOk s /\ read s = Some (document_of kids') /\
  padded false (map_top (default_text (opt_indent o)) kids true) kids'.
Proof. exact (indented_default o kids). Qed.
Print Assumptions C61_default_partial.

Theorem C61_preserve_partial o kids :
  attributes_indent o = INone -> Forall top_ok kids -> trim_whitespace o = SpPreserve ->
  exists s kids', serialize_document o kids = WOk s /\ read s = Some (document_of kids') /\
  padded false (map_top (fun _ _ s => preserve_text s) kids true) kids'.
Proof. exact (indented_preserve o kids). Qed.
Print Assumptions C61_preserve_partial.

(** Under a root that asks for preserved whitespace nothing is added at all. *)
Theorem C61_root_partial o name attrs kids :
  attributes_indent o = INone -> trim_whitespace o = SpAuto -> top_ok (XElem name attrs kids) ->
  In (lit "xml:space", lit "preserve") attrs ->
  Forall (fun a => fst a <> lit "xml:space") (flat_map all_attrs kids) -> exists s,
  serialize_document o [XElem name attrs kids] = WOk s /\
  read s = Some (document_of [XElem name attrs (map_top (fun _ _ s => preserve_text s) kids true)]).
Proof. exact (indented_root o name attrs kids). Qed.
Print Assumptions C61_root_partial.

(** [<text>a <tspan>b</tspan></text>]: with indentation the space at the end of a text is not
    written, so the words run together; without it they stay apart. *)
Theorem C61_words_refuted : exists kids s s',
  Forall top_ok kids /\
  serialize_document pretty_options kids = WOk s /\ serialize_document default_options kids = WOk s' /\
  read s = Some [RElem (lit "text") [] [RText (lit "a"); RElem (lit "tspan") [] [RText (lit "b")]]; RText [10%N]] /\
  read s' = Some [RElem (lit "text") [] [RText (lit "a "); RElem (lit "tspan") [] [RText (lit "b")]]].
Proof.
  exists [XElem (lit "text") [] [XText (lit "a "); XElem (lit "tspan") [] [XText (lit "b")]]].
  eexists. eexists. split; [|split; [vm_compute; reflexivity|split; [vm_compute; reflexivity|split; vm_compute; reflexivity]]].
  repeat constructor.
Qed.
Print Assumptions C61_words_refuted.

Definition c61_doc : list xnode :=
  [XElem (lit "svg") [(lit "width", lit "1")]
     [XElem (lit "g") [] [XElem (lit "text") [] [XElem (lit "desc") [] [XElem (lit "b") [] [XText (lit "x")]]; XText (lit "y")]; XElem (lit "title") [] [XText (lit "t")]];
      XStyle (lit "a{}"); XComment (lit "c"); XElem (lit "g") [] []]].
Example C61_example : Forall top_ok c61_doc /\
  serialize_document pretty_options c61_doc = WOk (lit "<svg width=""1"">
    <g>
        <text><desc><b>x</b></desc>y</text>
        <title>
            t
        </title>
    </g>
    a{}
    <!--c-->
    <g/>
</svg>
") /\
  exists s, serialize_document (mkOptions false ITabs SpAuto INone false)
    [XElem (lit "svg") [(lit "xml:space", lit "preserve")] [XElem (lit "g") [] [XText (lit " x ")]; XElem (lit "p") [] []]] = WOk s /\
    s = lit "<svg xml:space=""preserve""><g> x </g><p></p></svg>".
Proof.
  split; [|split; [vm_compute; reflexivity|]].
  - repeat constructor; simpl; auto; try (intros [E|[]]; discriminate); try discriminate;
    try (intros s' E; destruct s' as [|? s']; simpl in E; try discriminate;
         repeat (destruct s' as [|? s']; simpl in E; try discriminate; inversion E));
    try (intros E; repeat (destruct E as [E|E]; try discriminate); exact E).
  - eexists. split; vm_compute; reflexivity.
Qed.
