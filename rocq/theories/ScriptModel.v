(** Model of the search for scripts, animations and references before a document is changed: the job precheck
    (crates/oxvg_optimiser/src/jobs/precheck.rs) and [has_scripts] (crates/oxvg_ast/src/visitor.rs). *)
From Coq Require Import String List NArith Bool.
From Verif Require Import Chars NameModel AttrTable ElemModel TextModel.
Import ListNotations.

(** A document as these functions see it: the names of elements and attributes as they were recognised
    (crates/oxvg_ast/src/parse/roxmltree.rs:225-274, 331-346) and the values of attributes as text.  Simplification: a value that
    its parser rejects is kept as an unparsed attribute of the same name and counts like any other here. *)
Inductive node : Type := Elem (e : elem_id) (attrs : list (attr_id * text)) (kids : list node) | Other.

(** crates/oxvg_optimiser/src/error.rs 9-18 [PrecheckError]. *)
Inductive problem : Type := Scripting | Animation | Conditional | External (href : text).

(** crates/oxvg_collections/src/attribute/group.rs 52-58 with crates/oxvg_collections/src/attribute.rs 367-373: the attribute
    is in one of the groups of events. *)
Definition is_event (a : attr_id) : bool := intersects (id_groups a) g_event.
(** attribute/group.rs 29 [ConditionalProcessing]. *)
Definition g_conditional : N := 128.
(** precheck.rs 73-87 [check_for_unsupported_elements]. *)
Definition check_element (e : elem_id) : option problem :=
  if elem_is e (lit "Script") then Some Scripting
  else if existsb (fun i => elem_is e (lit i)) ["Animate"; "AnimateColor"; "AnimateMotion"; "AnimateTransform"; "Set"]%string then Some Animation
  else None.
(** precheck.rs 89-103 [check_for_script_attributes]. *)
Definition check_events (attrs : list (attr_id * text)) : option problem :=
  if existsb (fun a => is_event (fst a)) attrs then Some Scripting else None.
(** precheck.rs 105-120 [check_for_conditional_attributes]; the values of these attributes are plain texts
    (crates/oxvg_collections/src/attribute.rs:1681-1688, 1818-1821), which are empty when there are no characters
    (crates/oxvg_collections/src/content_type.rs:194-200). *)
Definition check_conditional (attrs : list (attr_id * text)) : option problem :=
  if existsb (fun a => contains (id_groups (fst a)) g_conditional && negb (text_eqb (snd a) [])) attrs then Some Conditional else None.
(** crates/oxvg_ast/src/attribute.rs 71-88 [get_attribute!] of a known attribute. *)
Definition get_known (id : text) (attrs : list (attr_id * text)) : option text :=
  match find (fun a => match id_unaliased (fst a) with BKnown k => text_eqb (kind_id k) id | BUnknown _ => false end) attrs with
  | Some a => Some (snd a)
  | None => None
  end.
(** precheck.rs 122-136 [check_for_external_xlink]. *)
Definition check_xlink (e : elem_id) (attrs : list (attr_id * text)) : option problem :=
  if existsb (fun i => elem_is e (lit i)) ["A"; "Image"; "FontFaceURI"; "FeImage"]%string then None
  else match get_known (lit "XLinkHref") attrs with Some v => Some (External v) | None => None end.
(** precheck.rs 65: the [?] of Rust. *)
Definition orelse (a b : option problem) : option problem := match a with Some p => Some p | None => b end.
(** precheck.rs 65-71 [check]. *)
Definition check (e : elem_id) (attrs : list (attr_id * text)) : option problem :=
  orelse (check_element e) (orelse (check_events attrs) (orelse (check_conditional attrs) (check_xlink e attrs))).
(** visitor.rs 318-378 [visit] and [visit_children] for a job with only an [element] hook: elements in document order, the first error ends the walk. *)
Fixpoint walk (n : node) : option problem :=
  match n with
  | Elem e attrs kids => orelse (check e attrs)
      ((fix go (l : list node) := match l with [] => None | k :: l => orelse (walk k) (go l) end) kids)
  | Other => None
  end.
(** precheck.rs 48-62 [element]: the option [fail_fast] (precheck.rs:30) is never read. *)
Definition precheck (fail_fast preclean_checks : bool) (n : node) : option problem := if preclean_checks then walk n else None.

(** visitor.rs 392-399: an attribute of an element looks like a script.  [Attr::Href] is matched without taking off an alias. *)
Definition script_attr (e : elem_id) (a : attr_id * text) : bool :=
  match fst a with
  | ABase (BKnown k) =>
      if text_eqb (kind_id k) (lit "Href") then elem_is e (lit "A") && starts_with (lit "javascript:") (trim_start (snd a)) else is_event (fst a)
  | _ => is_event (fst a)
  end.
(** visitor.rs 386-401 [has_scripts], called on the document. *)
Fixpoint has_scripts (n : node) : bool :=
  match n with
  | Elem e attrs kids => elem_is e (lit "Script") || existsb (script_attr e) attrs || existsb has_scripts kids
  | Other => false
  end.

(** A name of the source: its namespace as XML has it (empty for none), the prefix the namespace map gives for it and the local part
    (parse/roxmltree.rs:337-338, 348-363). *)
Record sname : Type := mkS { s_uri : text; s_prefix : option text; s_local : text }.
(** A source document; each element with the default namespace in scope (parse/roxmltree.rs:193-223, 61-67). *)
Inductive src : Type := SEl (n : sname) (default : text) (attrs : list (sname * text)) (kids : list src) | SOther.
(** crates/oxvg_collections/src/element.rs 157-167 on a name of the source (parse/roxmltree.rs:348-363). *)
Definition elem_of (n : sname) : elem_id := elem_new (prefix_new (s_uri n) (s_prefix n)) (s_local n).
(** parse/roxmltree.rs 339-342: an attribute in no namespace is given the default namespace. *)
Definition resolved (default : text) (a : sname) : text := match s_uri a with [] => default | u => u end.
(** parse/roxmltree.rs 331-344. *)
Definition attr_of (default : text) (e : elem_id) (a : sname) : attr_id := parse_attr_id e (prefix_new (resolved default a) (s_prefix a)) (s_local a).
(** parse/roxmltree.rs 193-274: the tree; the declarations of namespaces (365-398), which are in none of the groups used here, are left out. *)
Fixpoint read (d : src) : node :=
  match d with
  | SEl n default attrs kids => Elem (elem_of n) (map (fun a => (attr_of default (elem_of n) (fst a), snd a)) attrs) (map read kids)
  | SOther => Other
  end.
