(** Model of the lint rules on ids and namespaces: crates/oxvg_lint/src/rules/mod.rs,
    no_unused_ids.rs and no_unused_xmlns.rs. *)
From Coq Require Import String List NArith Bool Arith.
From Verif Require Import Chars NameModel NsModel.
From Verif Require IdsModel.
Import ListNotations.

(** ** Unused namespaces *)

(** A member of the set of an element: prefix, namespace and whether it is used (rules/mod.rs:82). *)
Definition entry : Type := (option text * text * bool)%type.
(** Equality of members (rules/mod.rs:82). *)
Definition entry_eqb (a b : entry) : bool :=
  otext_eqb (fst (fst a)) (fst (fst b)) && text_eqb (snd (fst a)) (snd (fst b)) && Bool.eqb (snd a) (snd b).
(** [HashSet::contains] and [HashSet::insert] (rules/mod.rs:262, 272, 288). The order of a set is
    not specified; here it is that of insertion. *)
Definition set_mem (e : entry) (s : list entry) : bool := existsb (entry_eqb e) s.
(** [HashSet::insert] (rules/mod.rs:262, 272). *)
Definition set_insert (s : list entry) (e : entry) : list entry := if set_mem e s then s else s ++ [e].

(** [push_xmlns] (rules/mod.rs:257-278). *)
Definition own_entry (a : pattr) : list entry :=
  match a with
  | ADefault u => [(None, u, false)]
  | APrefix n u => [(Some n, u, false)]
  | AOther _ _ => []
  end.
(** [push_xmlns] (rules/mod.rs:257-278). *)
Definition push_xmlns (attrs : list pattr) (stack : list (list entry)) : list (list entry) :=
  fold_left set_insert (flat_map own_entry attrs) [] :: stack.

(** [take] and [insert] of the changed entry (rules/mod.rs:290-292), at the place of the old one. *)
Definition use_entry (k : option text * text) (s : list entry) : list entry :=
  map (fun e => if entry_eqb e (k, false) then (k, true) else e) s.
(** The closure [insert] (rules/mod.rs:281-295); the innermost set comes first. *)
Fixpoint mark (k : option text * text) (stack : list (list entry)) : list (list entry) :=
  match stack with
  | [] => []
  | s :: rest =>
      if set_mem (k, true) s then s :: rest
      else if set_mem (k, false) s then use_entry k s :: mark k rest
      else s :: mark k rest
  end.
(** [attr.prefix()] (rules/mod.rs:297; crates/oxvg_collections/src/attribute.rs:454-460): the
    attribute [xmlns] has the SVG prefix (attribute.rs:2121), [xmlns:name] the XMLNS prefix. *)
Definition pattr_prefix (a : pattr) : prefix :=
  match a with
  | ADefault _ => PKnown SVG
  | APrefix _ _ => PKnown XMLNS
  | AOther q _ => q_prefix q
  end.
(** Prefix and namespace of a name (rules/mod.rs:298-299, 303-304). *)
Definition key_of (p : prefix) : option text * text := (prefix_value p, ns_uri (prefix_ns p)).
(** [track_xmlns] (rules/mod.rs:279-306). *)
Definition track_xmlns (name : qual_name) (attrs : list pattr) (stack : list (list entry)) : list (list entry) :=
  mark (key_of (q_prefix name)) (fold_left (fun st a => mark (key_of (pattr_prefix a)) st) attrs stack).

(** A report: where the element is (child positions from the root), and what is unused (no_unused_xmlns.rs:10-33). *)
Definition report : Type := (list nat * (option text * text))%type.
(** [no_unused_xmlns] (no_unused_xmlns.rs:10-33). *)
Definition unused (path : list nat) (s : list entry) : list report :=
  flat_map (fun e : entry => if snd e then [] else [(path, fst e)]) s.

(** [element] and [exit_element] (rules/mod.rs:134-194) around the children; reports in order. *)
Fixpoint lint_xmlns (n : pnode) (path : list nat) (stack : list (list entry)) {struct n} : list (list entry) * list report :=
  match n with
  | POther _ => (stack, [])
  | PElem name attrs kids =>
      let stack := track_xmlns name attrs (push_xmlns attrs stack) in
      let '(stack, reports) :=
        (fix go (l : list pnode) (i : nat) (stack : list (list entry)) : list (list entry) * list report :=
           match l with
           | [] => (stack, [])
           | k :: l => let '(stack, r) := lint_xmlns k (path ++ [i]) stack in
                       let '(stack, r') := go l (S i) stack in (stack, r ++ r')
           end) kids 0 stack in
      match stack with
      | [] => ([], reports)
      | s :: stack => (stack, reports ++ unused path s)
      end
  end.
(** The rule on a document (rules/mod.rs:103-128). *)
Definition lint_document_xmlns (root : pnode) : list report := snd (lint_xmlns root [] []).

(** ** Unused ids *)

(** What a style sheet refers to: an url, or the id of a selector (rules/mod.rs:219-234). *)
Inductive css_item : Type := CssUrl (t : text) | CssId (t : text).
(** [visit_url] of the style sheet visitor, the only type it asks for (rules/mod.rs:219-234). *)
Definition css_refs (l : list css_item) : list text :=
  flat_map (fun c => match c with CssUrl (35%N :: t) => [t] | _ => [] end) l.

(** [track_id_references] (rules/mod.rs:236-255): the ids of the element, and its references. *)
Definition attr_ids (a : IdsModel.attr) : list text :=
  match IdsModel.as_id a with Some t => [t] | None => [] end.
(** [track_id_references] for one attribute (rules/mod.rs:236-255). *)
Definition attr_refs (a : IdsModel.attr) : list text :=
  match IdsModel.as_id a with
  | Some _ => []
  | None => flat_map (fun p => match p with IdsModel.IdRef t => [t] | _ => [] end) (IdsModel.apieces a) ++
            flat_map (fun p => match p with IdsModel.Url (35%N :: t) => [t] | _ => [] end) (IdsModel.apieces a)
  end.
(** The keys of the map of ids (rules/mod.rs:86, 241-243), in any order. *)
Fixpoint keys (l : list text) : list text :=
  match l with [] => [] | t :: l => if existsb (text_eqb t) l then keys l else t :: keys l end.
(** [exit_document] and [no_unused_ids] (rules/mod.rs:196-217, no_unused_ids.rs:11-29), for the
    elements of a document with their attributes. *)
Definition lint_ids (has_script : bool) (sheets : list css_item) (elements : list (list IdsModel.attr)) : list text :=
  if has_script then []
  else
    let referenced := css_refs sheets ++ flat_map attr_refs (concat elements) in
    filter (fun id => negb (existsb (text_eqb id) referenced)) (keys (flat_map attr_ids (concat elements))).
