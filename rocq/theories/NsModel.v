(** Model of how names get their prefixes while parsing:
    crates/oxvg_ast/src/parse/roxmltree.rs. *)
From Coq Require Import String List NArith Bool Arith.
From Verif Require Import Chars NameModel.
Import ListNotations.

(** ** The XML read by the external crate roxmltree *)

(** A namespace declaration: [xmlns="uri"] or [xmlns:name="uri"]
    ([roxmltree::Namespace], roxmltree.rs:366, used at 375-376). *)
Definition decl : Type := (option text * text)%type.

(** An XML node as written: own declarations, prefix and local name, attributes (prefix, local
    name, value) and children. [SStyle] is a [style] element whose style sheet has rules
    (roxmltree.rs:256-260, 276-303); [SOther] stands for text, comments and instructions
    (roxmltree.rs:204-216). *)
Inductive src : Type :=
| SElem (own : list decl) (pre : option text) (local : text) (attrs : list (option text * text * text)) (kids : list src)
| SStyle (own : list decl) (pre : option text) (local : text) (attrs : list (option text * text * text)) (css : text)
| SOther (t : text).

(** The declaration of a prefix that is in scope: the first in the list (used through
    [tag_name().namespace()] and [attr.namespace()], roxmltree.rs:337, 352). *)
Definition find_decl (p : option text) (scope : list decl) : option text :=
  match find (fun d => otext_eqb (fst d) p) scope with Some d => Some (snd d) | None => None end.
(** The prefix [xml] is always bound (roxmltree.rs:87). *)
Definition xml_decl : decl := (Some (lit "xml"), lit "http://www.w3.org/XML/1998/namespace").
(** What roxmltree resolves a prefix to (roxmltree.rs:337, 352). *)
Definition resolve_prefix (p : option text) (scope : list decl) : option text :=
  if otext_eqb p (fst xml_decl) then Some (snd xml_decl) else find_decl p scope.
(** [xml_node.namespaces()] (roxmltree.rs:233): those of the element, then those of the parent
    that are not overridden. *)
Definition namespaces (own inherited : list decl) : list decl :=
  own ++ filter (fun d => negb (existsb (fun o => otext_eqb (fst o) (fst d)) own)) inherited.

(** ** [NamespaceMap] (roxmltree.rs:40-43): the newest entry of a key comes first. *)
Definition table : Type := list (option text * option text).
(** [NamespaceMap] (roxmltree.rs:40-43). *)
Record ns_map : Type := NsMap { prefix_to_uri : table; uri_to_prefix : table }.
(** [HashMap::get] (roxmltree.rs:62, 66). *)
Definition tget (k : option text) (t : table) : option (option text) :=
  match find (fun d => otext_eqb (fst d) k) t with Some d => Some (snd d) | None => None end.
(** [NamespaceMap::insert] (roxmltree.rs:51-59): the old values, only if there are both. *)
Definition ns_insert (p u : option text) (m : ns_map) : ns_map * option (option text * option text) :=
  let old_p := tget u (uri_to_prefix m) in
  let old_u := tget p (prefix_to_uri m) in
  (NsMap ((p, u) :: prefix_to_uri m) ((u, p) :: uri_to_prefix m),
   match old_p, old_u with Some a, Some b => Some (a, b) | _, _ => None end).
(** [NamespaceMap::get_by_uri] (roxmltree.rs:61-63) and [get_by_prefix] (65-67). *)
Definition flatten (o : option (option text)) : option text := match o with Some x => x | None => None end.
(** roxmltree.rs:61-63. *)
Definition get_by_uri (u : option text) (m : ns_map) : option text := flatten (tget u (uri_to_prefix m)).
(** roxmltree.rs:65-67. *)
Definition get_by_prefix (p : option text) (m : ns_map) : option text := flatten (tget p (prefix_to_uri m)).

(** ** The parsed tree *)

(** Attributes: [Attr::XMLNS], an unparsed [xmlns:name], or any other (roxmltree.rs:381-387,
    393, 331-346). *)
Inductive pattr : Type :=
| ADefault (uri : text)
| APrefix (name uri : text)
| AOther (name : qual_name) (value : text).
(** Nodes: an element or another node (roxmltree.rs:331-400). *)
Inductive pnode : Type :=
| PElem (name : qual_name) (attrs : list pattr) (kids : list pnode)
| POther (t : text).

(** [find_xml_uri] (roxmltree.rs:400-406). *)
Definition find_xml_uri (d : decl) (m : ns_map) : bool :=
  match get_by_prefix (fst d) m with Some el => text_eqb el (snd d) | None => false end.
(** The pairs to put back later (roxmltree.rs:203). *)
Definition popped : Type := list (option text * option text).
(** [find_new_xmlns] (roxmltree.rs:365-398). *)
Definition find_new_xmlns (d : decl) (m : ns_map) (pop : popped) : option pattr * ns_map * popped :=
  if find_xml_uri d m then (None, m, pop)
  else
    match fst d with
    | Some name =>
        let '(m, pop) :=
          if otext_eqb (get_by_prefix None m) (Some (snd d)) then (m, pop)
          else let '(m, old) := ns_insert (Some name) (Some (snd d)) m in
               (m, match old with Some o => pop ++ [o] | None => pop end) in
        (Some (APrefix name (snd d)), m, pop)
    | None =>
        match snd d with
        | [] => (None, m, pop)
        | _ => let '(m, old) := ns_insert None (Some (snd d)) m in
               (Some (ADefault (snd d)), m, match old with Some o => pop ++ [o] | None => pop end)
        end
    end.
(** The [filter_map] over the namespaces (roxmltree.rs:240). *)
Fixpoint new_xmlns (l : list decl) (m : ns_map) (pop : popped) : list pattr * ns_map * popped :=
  match l with
  | [] => ([], m, pop)
  | d :: l => let '(a, m, pop) := find_new_xmlns d m pop in
              let '(r, m, pop) := new_xmlns l m pop in
              (match a with Some a => a :: r | None => r end, m, pop)
  end.

(** [parse_expanded_name] (roxmltree.rs:348-360) and the naming part of [parse_attr] (331-346), for
    the namespace roxmltree found. *)
Definition name_of (ns : option text) (local : text) (m : ns_map) : qual_name :=
  let uri := match ns with
             | Some u => u
             | None => match get_by_prefix None m with Some u => u | None => [] end
             end in
  mkName (prefix_new uri (get_by_uri ns m)) local.

(** What roxmltree resolves names to (roxmltree.rs:337, 352): elements without prefix are in the
    default namespace, attributes without prefix in none. An empty default namespace is none. *)
Definition element_ns (pre : option text) (scope : list decl) : option text :=
  match pre, resolve_prefix pre scope with None, Some [] => None | _, u => u end.
(** The namespace of an attribute (roxmltree.rs:337). *)
Definition attr_ns (pre : option text) (scope : list decl) : option text :=
  match pre with None => None | Some _ => resolve_prefix pre scope end.

(** [parse_attr] (roxmltree.rs:331-346). *)
Definition parse_attr (scope : list decl) (m : ns_map) (a : option text * text * text) : pattr :=
  let '(p, l, v) := a in AOther (name_of (attr_ns p scope) l m) v.
(** [parse_element] (roxmltree.rs:225-274): the element's name is found before its own
    declarations are added. *)
Definition parse_element (own : list decl) (pre : option text) (local : text) (attrs : list (option text * text * text))
    (inherited : list decl) (m : ns_map) : qual_name * list pattr * ns_map * popped :=
  let scope := namespaces own inherited in
  let name := name_of (element_ns pre scope) local m in
  let '(decls, m, pop) := new_xmlns scope m [] in
  (name, decls ++ map (parse_attr scope m) attrs, m, pop).

(** Putting back (roxmltree.rs:219-221). *)
Definition put_back (pop : popped) (m : ns_map) : ns_map :=
  fold_left (fun m d => fst (ns_insert (fst d) (snd d) m)) pop m.

(** [parse_xml_node] (roxmltree.rs:193-223) with [parse_xml_node_children] (160-174); a style sheet
    returns early (209-212). The limit of 1024 levels (199-201) is not modelled. *)
Fixpoint parse_node (s : src) (inherited : list decl) (m : ns_map) {struct s} : pnode * ns_map :=
  match s with
  | SOther t => (POther t, m)
  | SStyle own pre local attrs css =>
      let '(name, ats, m, _) := parse_element own pre local attrs inherited m in
      (PElem name ats [POther css], m)
  | SElem own pre local attrs kids =>
      let '(name, ats, m, pop) := parse_element own pre local attrs inherited m in
      let '(ks, m) :=
        (fix go (l : list src) (m : ns_map) : list pnode * ns_map :=
           match l with
           | [] => ([], m)
           | x :: l => let '(y, m) := parse_node x (namespaces own inherited) m in
                       let '(r, m) := go l m in (y :: r, m)
           end) kids m in
      (PElem name ats ks, put_back pop m)
  end.
(** The map at the start (roxmltree.rs:86-87). *)
Definition ns_start : ns_map := fst (ns_insert (fst xml_decl) (Some (snd xml_decl)) (NsMap [] [])).
(** The root element of [parse_tree_with_allocator] (roxmltree.rs:75-98). *)
Definition parse_root (s : src) : pnode := fst (parse_node s [] ns_start).
