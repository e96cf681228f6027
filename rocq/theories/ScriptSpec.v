(** When a document has scripts, animations, conditions and references, on the names of the source. *)
From Coq Require Import String List NArith Bool.
From Verif Require Import Chars NameModel AttrTable ElemModel ElemSpec ScriptModel.
Import ListNotations.

Definition svg_space : text := lit "http://www.w3.org/2000/svg".
Definition xlink_space : text := lit "http://www.w3.org/1999/xlink".
(** The namespace of a name: a name without prefix in no namespace counts as one of SVG. *)
Definition space (n : sname) : text := match s_uri n, s_prefix n with [], None => svg_space | u, _ => u end.
(** A prefix is bound to a namespace that is not empty. *)
Definition bound (n : sname) : Prop := s_prefix n <> None -> s_uri n <> [].
(** An element of a document with its attributes. *)
Inductive within : src -> sname -> text -> list (sname * text) -> Prop :=
| within_self n default attrs kids : within (SEl n default attrs kids) n default attrs
| within_kid n default attrs kids k m d b : In k kids -> within k m d b -> within (SEl n default attrs kids) m d b.
Definition well (d : src) : Prop := forall n default attrs, within d n default attrs -> bound n /\ forall a v, In (a, v) attrs -> bound a.
(** The default namespace is everywhere none or that of SVG. *)
Definition usual (d : src) : Prop := forall n default attrs, within d n default attrs -> default = [] \/ default = svg_space.

(** The element of SVG with this name. *)
Definition svg_named (n : sname) (locals : list string) : Prop := space n = svg_space /\ In (s_local n) (map lit locals).
Definition animations : list string := ["animate"; "animateColor"; "animateMotion"; "animateTransform"; "set"]%string.
(** The names of events that the table of attributes knows (attribute.rs: every attribute in a group of events). *)
Definition events : list string :=
 ["onabort"; "onactivate"; "onbegin"; "oncancel"; "oncanplay"; "oncanplaythrough"; "onchange"; "onclick"; "onclose"; "oncopy"; "oncuechange"; "oncut";
  "ondblclick"; "ondrag"; "ondragend"; "ondragenter"; "ondragexit"; "ondragleave"; "ondragover"; "ondragstart"; "ondrop"; "ondurationchange"; "onemptied";
  "onend"; "onended"; "onerror"; "onfocusin"; "onfocusout"; "onfocus"; "oninput"; "oninvalid"; "onkeydown"; "onkeypress"; "onkeyup"; "onload";
  "onloadeddata"; "onloadedmetadata"; "onloadstart"; "onmousedown"; "onmouseenter"; "onmouseleave"; "onmousemove"; "onmouseout"; "onmouseover"; "onmouseup";
  "onpaste"; "onpause"; "onplay"; "onplaying"; "onprogress"; "onratechange"; "onrepeat"; "onreset"; "onresize"; "onscroll"; "onseeked"; "onseeking";
  "onselect"; "onshow"; "onstalled"; "onsubmit"; "onsuspend"; "ontimeupdate"; "ontoggle"; "onunload"; "onvolumechange"; "onwaiting"; "onwheel"; "onzoom"]%string.
Definition conditions : list string := ["requiredExtensions"; "requiredFeatures"; "systemLanguage"]%string.
(** The attribute is in the namespace, has one of the names, and its element is one of those that take it: the table lists the
    attribute, or a group of it, for the element. *)
Definition takes (n a : sname) (uri : text) (locals : list string) : Prop :=
  space a = uri /\ In (s_local a) (map lit locals) /\
  exists k, In k attr_table /\ named uri (s_local a) k /\ expected (elem_of n) k.

(** The document has none of what the check before cleaning is for, as far as the table of names goes. *)
Definition plain_element (n : sname) (attrs : list (sname * text)) : Prop :=
  ~ svg_named n ("script"%string :: animations) /\
  forall a v, In (a, v) attrs ->
    ~ takes n a svg_space events /\ (takes n a svg_space conditions -> v = []) /\
    (takes n a xlink_space ["href"%string] -> svg_named n ["a"; "image"; "font-face-uri"; "feImage"]%string).
Definition plain_document (d : src) : Prop := forall n default attrs, within d n default attrs -> plain_element n attrs.
(** What each problem says. *)
Definition shows (d : src) (p : problem) : Prop := exists n default attrs, within d n default attrs /\
  match p with
  | Scripting => svg_named n ["script"%string] \/ exists a v, In (a, v) attrs /\ takes n a svg_space events
  | Animation => svg_named n animations
  | Conditional => exists a v, In (a, v) attrs /\ takes n a svg_space conditions /\ v <> []
  | External v => ~ svg_named n ["a"; "image"; "font-face-uri"; "feImage"]%string /\ exists a, In (a, v) attrs /\ takes n a xlink_space ["href"%string]
  end.

(** The value begins, after white space, with the scheme of scripts. *)
Definition script_url (v : text) : Prop := exists w r, v = w ++ lit "javascript:" ++ r /\ Forall (fun c => is_whitespace c = true) w.
Definition plain_prefix (a : sname) : Prop := s_prefix a = None.
Definition scripted (d : src) : Prop := exists n default attrs, within d n default attrs /\
  (svg_named n ["script"%string] \/
   exists a v, In (a, v) attrs /\
     (takes n a svg_space events \/ (plain_prefix a /\ svg_named n ["a"%string] /\ space a = svg_space /\ s_local a = lit "href" /\ script_url v))).

(** Independently of the table: an attribute in no namespace that is an event handler of HTML or SVG by its name. *)
Definition handler_names : list string := ["onblur"; "onclick"; "oncontextmenu"; "onfocus"; "onpointerdown"; "ontouchstart"]%string.
Definition handler (a : sname) : Prop := s_uri a = [] /\ s_prefix a = None /\ In (s_local a) (map lit handler_names).
(** Attribute [href] of a link, plain or of xlink. *)
Definition link (a : sname) : Prop := s_local a = lit "href" /\ (s_uri a = [] \/ s_uri a = xlink_space).
Definition lower (c : N) : N := if (N.leb 65 c && N.leb c 90)%bool then (c + 32)%N else c.
(** The scheme of a URL is compared without case. *)
Definition script_scheme (v : text) : Prop := exists r, map lower v = lit "javascript:" ++ r.
(** A reference into the same document. *)
Definition local_ref (v : text) : Prop := exists r, v = 35%N :: r.
Definition runs_code (d : src) : Prop := exists n default attrs a v, within d n default attrs /\ In (a, v) attrs /\ space n = svg_space /\
  (handler a \/ (s_local n = lit "a" /\ link a /\ script_scheme v)).
(** A resource of another document is used. *)
Definition uses_external (d : src) : Prop := exists n default attrs a v, within d n default attrs /\ In (a, v) attrs /\
  svg_named n ["use"; "textPath"; "linearGradient"; "pattern"]%string /\ link a /\ ~ local_ref v.
