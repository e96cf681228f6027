(** The jobs that remove what is not drawn: removeComments, removeDoctype, removeXMLProcInst, removeMetadata, removeTitle, removeDesc and
    removeEditorsNSData (crates/oxvg_optimiser/src/jobs). *)
From Coq Require Import String List NArith Bool.
From Verif Require Import Chars.
Import ListNotations.

(** A name with the namespace its prefix stands for (name.rs:268-273, crates/oxvg_collections/src). *)
Record name : Type := mkName { n_prefix : option text; n_uri : text; n_local : text }.
(** Nodes (node.rs:77-112, crates/oxvg_ast/src; the text of style elements is text here, and the types for CDATA and doctypes are at node.rs:35-44): an element with its name, the default namespace it declares, the prefixes it declares, its other attributes and its children. *)
Inductive node : Type :=
| Elem (n : name) (default : option text) (decls : list (text * text)) (attrs : list (name * text)) (kids : list node)
| Text (t : text)
| CData (t : text)
| Comment (t : text)
| Instruction (target data : text)
| Doctype (t : text).

(** name.rs:313 (crates/oxvg_collections/src): the namespace of SVG. *)
Definition svg_uri : text := lit "http://www.w3.org/2000/svg".
(** [is_element!] (element.rs:29-39, crates/oxvg_ast/src). *)
Definition is_svg (s : string) (n : name) : bool := text_eqb (n_uri n) svg_uri && text_eqb (n_local n) (lit s).

Section Strip.
  (** What goes, and which declarations and attributes stay (remove_editors_n_s_data.rs:52-86). *)
  Variable drop : node -> bool.
  Variable keep_decl : text * text -> bool.
  Variable keep_attr : name * text -> bool.
  (** A job that removes nodes: every node is looked at before its children are (visitor.rs:312-377, crates/oxvg_ast/src). *)
  Fixpoint strip (n : node) : list node :=
    if drop n then []
    else match n with
         | Elem m d ds l k => [Elem m d (filter keep_decl ds) (filter keep_attr l) (flat_map strip k)]
         | _ => [n]
         end.
End Strip.
(** A job that removes nodes only (remove_metadata.rs:47-56). *)
Definition without (drop : node -> bool) (d : list node) : list node := flat_map (strip drop (fun _ => true) (fun _ => true)) d.

(** remove_comments.rs:104-108: the pattern [^!]; a pattern that is not a regular expression is [None]. *)
Definition default_patterns : list (option (text -> bool)) := [Some (fun t => match t with c :: _ => N.eqb c 33 | [] => false end)].
(** remove_comments.rs:59-80 [remove_comment]: whether the comment stays, or an error. *)
Fixpoint comment_stays (ps : list (option (text -> bool))) (t : text) : option bool :=
  match ps with
  | [] => Some false
  | None :: _ => None
  | Some f :: r => if f t then Some true else comment_stays r t
  end.
(** The comments of a document (visitor.rs:312-377, crates/oxvg_ast/src). *)
Fixpoint comments (n : node) : list text :=
  match n with
  | Comment t => [t]
  | Elem _ _ _ _ k => flat_map comments k
  | _ => []
  end.
(** remove_comments.rs:50-81; the first error ends the job. *)
Definition remove_comments (patterns : option (list (option (text -> bool)))) (d : list node) : option (list node) :=
  let ps := match patterns with Some l => l | None => default_patterns end in
  if existsb (fun t => match comment_stays ps t with None => true | Some _ => false end) (flat_map comments d) then None
  else Some (without (fun n => match n with Comment t => match comment_stays ps t with Some b => negb b | None => false end | _ => false end) d).

(** parse/markup5ever.rs:408-416 (crates/oxvg_ast/src): the reader makes no doctypes. *)
Definition read (d : list node) : list node := filter (fun n => match n with Doctype _ => false | _ => true end) d.
(** remove_doctype.rs:35-50. *)
Definition remove_doctype (on : bool) (d : list node) : list node := if on then without (fun n => match n with Doctype _ => true | _ => false end) d else d.
(** remove_x_m_l_proc_inst.rs:36-57. *)
Definition remove_proc_inst (on : bool) (d : list node) : list node :=
  if on then without (fun n => match n with Instruction t _ => text_eqb t (lit "xml") | _ => false end) d else d.
(** remove_metadata.rs:35-56. *)
Definition remove_metadata (on : bool) (d : list node) : list node :=
  if on then without (fun n => match n with Elem m _ _ _ _ => is_svg "metadata" m | _ => false end) d else d.
(** remove_title.rs:38-60. *)
Definition remove_title (on : bool) (d : list node) : list node :=
  if on then without (fun n => match n with Elem m _ _ _ _ => is_svg "title" m | _ => false end) d else d.

(** [char::is_whitespace], as far as ASCII goes, with U+0085 and U+00A0 (Rust [core]; used at node.rs:452, crates/oxvg_ast/src). *)
Definition white (c : N) : bool := (N.leb 9 c && N.leb c 13) || N.eqb c 32 || N.eqb c 133 || N.eqb c 160.
(** [str::trim] leaves nothing (node.rs:452, crates/oxvg_ast/src). *)
Definition blank (t : text) : bool := forallb white t.
(** node.rs:448-455 (crates/oxvg_ast/src) [is_empty]. *)
Definition is_empty (k : list node) : bool := forallb (fun n => match n with Text t => blank t | _ => false end) k.
(** remove_desc.rs:66-68 [is_standard_desc]. *)
Definition is_standard_desc (t : text) : bool := starts_with (lit "Created with") t || starts_with (lit "Created using") t.
(** remove_desc.rs:43-63. *)
Definition remove_desc (remove_any : bool) (d : list node) : list node :=
  without (fun n => match n with
                    | Elem m _ _ _ k => is_svg "desc" m && (remove_any || is_empty k || existsb (fun c => match c with Text t => is_standard_desc t | _ => false end) k)
                    | _ => false
                    end) d.

(** remove_editors_n_s_data.rs:92-118 [is_editor_namespace]. *)
Definition editor_namespaces : list text := Eval vm_compute in map lit [
  "http://creativecommons.org/ns#"; "http://inkscape.sourceforge.net/DTD/sodipodi-0.dtd"; "http://ns.adobe.com/AdobeIllustrator/10.0/";
  "http://ns.adobe.com/AdobeSVGViewerExtensions/3.0/"; "http://ns.adobe.com/Extensibility/1.0/"; "http://ns.adobe.com/Flows/1.0/";
  "http://ns.adobe.com/GenericCustomNamespace/1.0/"; "http://ns.adobe.com/Graphs/1.0/"; "http://ns.adobe.com/ImageReplacement/1.0/";
  "http://ns.adobe.com/SaveForWeb/1.0/"; "http://ns.adobe.com/Variables/1.0/"; "http://ns.adobe.com/XPath/1.0/"; "http://purl.org/dc/elements/1.1/";
  "http://schemas.microsoft.com/visio/2003/SVGExtensions/"; "http://sodipodi.sourceforge.net/DTD/sodipodi-0.dtd";
  "http://taptrix.com/vectorillustrator/svg_extensions"; "http://www.bohemiancoding.com/sketch/ns"; "http://www.figma.com/figma/ns";
  "http://www.inkscape.org/namespaces/inkscape"; "http://www.serif.com/"; "http://www.vector.evaxdesign.sk"; "http://www.w3.org/1999/02/22-rdf-syntax-ns#"]%string.
(** remove_editors_n_s_data.rs:53-57, 73-77, 81-85. *)
Definition goes (additional : list text) (uri : text) : bool := existsb (text_eqb uri) editor_namespaces || existsb (text_eqb uri) additional.
(** remove_editors_n_s_data.rs:47-89. *)
Definition remove_editors (additional : list text) (d : list node) : list node :=
  flat_map (strip (fun n => match n with Elem m _ _ _ _ => goes additional (n_uri m) | _ => false end)
                  (fun d => negb (goes additional (snd d))) (fun a => negb (goes additional (n_uri (fst a))))) d.
