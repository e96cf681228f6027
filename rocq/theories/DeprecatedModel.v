(** removeDeprecatedAttrs: attributes that are deprecated are removed unless a selector names them
    (crates/oxvg_optimiser/src/jobs/remove_deprecated_attrs.rs). *)
From Coq Require Import String List Bool NArith.
From Verif Require Import Chars NameModel AttrTable ElemTable ElemModel KnownModel.
Import ListNotations.

(** The namespace of an attribute selector (remove_deprecated_attrs.rs:49-54): [[*|a]], [[a]], or [[p|a]] with what [p] stands for. *)
Inductive constraint : Type := AnyNs | NoNs | Specific (p uri : text).
(** A simple selector (remove_deprecated_attrs.rs:41-56): [[a]]; [[a=v]] and the like in no namespace; the same with a
    namespace or an upper case letter; [:not(c)]; and everything else.  What is asked of the value is a function. *)
Inductive component : Type :=
| Exists (local : text)
| Valued (local : text) (test : text -> bool)
| Other (c : constraint) (local : text) (test : text -> bool)
| Not (c : component)
| Else (n : nat).
(** A selector and the selectors of all stylesheets; combinators are part of [Else] (remove_deprecated_attrs.rs:41). *)
Definition selector : Type := list component.

(** remove_deprecated_attrs.rs:42-43: [local_name_lower], the name in ASCII lower case. *)
Definition lower (s : text) : text := map (fun c => if (65 <=? c)%N && (c <=? 90)%N then (c + 32)%N else c) s.
(** remove_deprecated_attrs.rs:41-56: the name that a component contributes; [iter_raw_match_order] does not go into [:not]. *)
Definition component_name (c : component) : list (option text * text) :=
  match c with
  | Exists n => [(None, lower n)]
  | Valued n _ => [(None, n)]
  | Other (AnyNs | NoNs) n _ => [(None, n)]
  | Other (Specific p _) n _ => [(Some p, n)]
  | Not _ | Else _ => []
  end.
(** remove_deprecated_attrs.rs:61-68 [AttrStylesheet::extract]. *)
Definition extract (sheet : list selector) : list (option text * text) := flat_map (flat_map component_name) sheet.
(** remove_deprecated_attrs.rs:70-75 [contains_qual]. *)
Definition contains_qual (names : list (option text * text)) (a : attr_id) : bool :=
  existsb (fun n => otext_eqb (fst n) (prefix_value (id_prefix a)) && text_eqb (snd n) (id_local a)) names.

(** attribute.rs 1174-1177 (crates/oxvg_collections/src): [AttrId::Lang]. *)
Definition lang_id : attr_id := ABase (BKnown (mkKind (lit "Lang") SVG (lit "lang"))).
(** attribute.rs 2131-2136 (crates/oxvg_collections/src): [AttrId::XmlLang]. *)
Definition xml_lang_id : attr_id := ABase (BKnown (mkKind (lit "XmlLang") XML (lit "lang"))).
(** attribute/group.rs 107 (crates/oxvg_collections/src): [DeprecatedSafe]. *)
Definition deprecated_safe : N := 1.
(** attribute/group.rs 112 (crates/oxvg_collections/src): [DeprecatedUnsafe]. *)
Definition deprecated_unsafe : N := 2.

(** The attributes of an element with their text (attribute.rs 120-122, crates/oxvg_ast/src). *)
Definition attributes : Type := list (attr_id * text).
(** attribute.rs 154-159 (crates/oxvg_ast/src) [get_named_item]. *)
Definition get (n : attr_id) (l : attributes) : option (attr_id * text) := find (fun a => id_eqb (fst a) n) l.
(** attribute.rs 212-216 (crates/oxvg_ast/src) [remove_named_item]. *)
Fixpoint remove (n : attr_id) (l : attributes) : attributes :=
  match l with
  | [] => []
  | a :: r => if id_eqb (fst a) n then r else a :: remove n r
  end.

(** remove_deprecated_attrs.rs:147-163 [process_attributes]: whether an attribute stays. *)
Definition retain (remove_any : bool) (names : list (option text * text)) (a : attr_id * text) : bool :=
  if contains_qual names (fst a) then true
  else negb (ElemModel.contains (id_info (fst a)) deprecated_safe || (remove_any && ElemModel.contains (id_info (fst a)) deprecated_unsafe)).
(** remove_deprecated_attrs.rs:133-140: the special case. *)
Definition special (names : list (option text * text)) (l : attributes) : attributes :=
  match get xml_lang_id l with
  | Some a => if match get lang_id l with Some _ => true | None => false end && negb (contains_qual names (fst a)) then remove xml_lang_id l else l
  | None => l
  end.
(** remove_deprecated_attrs.rs:122-145 [element]. *)
Definition element (remove_any : bool) (sheet : list selector) (l : attributes) : attributes :=
  filter (retain remove_any (extract sheet)) (special (extract sheet) l).
