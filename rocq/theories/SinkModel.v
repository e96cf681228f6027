(** Model of the building of the tree from what xml5ever reads: crates/oxvg_ast/src/parse/markup5ever.rs.
    xml5ever resolves the prefixes and takes the declarations of namespaces away; the sink puts declarations back.
    Simplifications: names are pairs of a prefix and a local name (recognising them keeps both, C63); comments, text and instructions are left out, as the sink
    only hands them on; the document has one root. *)
From Coq Require Import String List NArith Bool Arith.
From Verif Require Import Chars NameModel.
Import ListNotations.

(** An attribute (crates/oxvg_collections/src/attribute.rs:439-460), by prefix, local name and value. *)
Record attr : Type := mkAttr { a_prefix : prefix; a_local : text; a_value : text }.
(** An element as the sink is asked to create it, and as it ends up (markup5ever.rs:263-305). *)
Inductive tree : Type := Node (p : prefix) (local : text) (attrs : list attr) (kids : list tree).
(** markup5ever.rs 72-91 [NamespaceMap]: the last insertion for a prefix counts. *)
Definition nmap : Type := list (option text * text).
(** markup5ever.rs 82-84 [get]. *)
Definition map_get (m : nmap) (p : option text) : option text := match find (fun x => otext_eqb (fst x) p) m with Some x => Some (snd x) | None => None end.
(** markup5ever.rs 128-138 [find_xml_uri]. *)
Definition find_xml_uri (m : nmap) (p : prefix) : bool := match map_get m (prefix_value p) with Some u => text_eqb u (ns_uri (prefix_ns p)) | None => false end.
(** markup5ever.rs 155-167: the attribute that declares a namespace; [Attr::XMLNS] has no prefix of its own, which is the one of SVG (attribute.rs:2121-2124). *)
Definition declaration (p : option text) (uri : text) : attr :=
  match p with Some local => mkAttr (PKnown XMLNS) local uri | None => mkAttr (PKnown SVG) (lit "xmlns") uri end.
(** markup5ever.rs 141-172 [find_new_xmlns]. *)
Definition find_new_xmlns (m : nmap) (p : prefix) : nmap * option attr :=
  if (negb (prefix_is_empty p) || negb (text_eqb (ns_uri (prefix_ns p)) [])) && negb (find_xml_uri m p)
  then ((prefix_value p, ns_uri (prefix_ns p)) :: m, Some (declaration (prefix_value p) (ns_uri (prefix_ns p))))
  else (m, None).
(** markup5ever.rs 195-199: [filter_map] over the attributes of the element. *)
Fixpoint collect (m : nmap) (attrs : list attr) : nmap * list attr :=
  match attrs with
  | [] => (m, [])
  | a :: l =>
      let (m, new) := find_new_xmlns m (a_prefix a) in
      let (m, rest) := collect m l in
      (m, match new with Some d => d :: rest | None => rest end)
  end.
(** crates/oxvg_ast/src/attribute.rs 222-233 [set_named_item]. *)
Fixpoint set_named_item (attrs : list attr) (x : attr) : list attr :=
  match attrs with
  | [] => [x]
  | a :: l => if prefix_eqb (a_prefix a) (a_prefix x) && text_eqb (a_local a) (a_local x) then x :: l else a :: set_named_item l x
  end.
(** [Vec::insert] (markup5ever.rs:210): an index beyond the end is a panic ([None]). *)
Fixpoint insert_at {A} (i : nat) (x : A) (l : list A) : option (list A) :=
  match i, l with
  | 0, l => Some (x :: l)
  | S i, y :: l => match insert_at i x l with Some l => Some (y :: l) | None => None end
  | S _, [] => None
  end.
(** markup5ever.rs 203-205 [has_xmlns]: the first attribute of the root. *)
Definition has_xmlns (root : list attr) : bool := match root with a :: _ => prefix_is_empty (a_prefix a) && prefix_eqb (a_prefix a) (PKnown SVG) && text_eqb (a_local a) (lit "xmlns") | [] => false end.
(** markup5ever.rs 206-211: the loop over the declarations, counted from [i]. *)
Fixpoint insert_all (offset i : nat) (new root : list attr) : option (list attr) :=
  match new with
  | [] => Some root
  | d :: new =>
      if text_eqb (a_local d) (lit "xml") then insert_all offset (S i) new root
      else match insert_at (offset + i) d root with Some root => insert_all offset (S i) new root | None => None end
  end.
(** markup5ever.rs 175-212 [add_xmlns], of the root: its own attributes are the attributes of the root. *)
Definition add_to_root (p : prefix) (attrs : list attr) : option (nmap * list attr) :=
  let (m, new) := find_new_xmlns [] p in
  let attrs := match new with
               | Some d => if prefix_is_empty (a_prefix d) then d :: attrs else set_named_item attrs d
               | None => attrs
               end in
  let (m, new) := collect m attrs in
  match insert_all (if has_xmlns attrs then 1 else 0) 0 new attrs with Some root => Some (m, root) | None => None end.
(** markup5ever.rs 175-212 [add_xmlns], of another element; the result has the attributes of the root and of the element. *)
Definition add_to_other (m : nmap) (root : list attr) (p : prefix) (attrs : list attr) : option (nmap * list attr * list attr) :=
  let (m, new) := find_new_xmlns m p in
  let (root, attrs) := match new with
                       | Some d => if prefix_is_empty (a_prefix d) then (root, d :: attrs) else (set_named_item root d, attrs)
                       | None => (root, attrs)
                       end in
  let (m, new) := collect m attrs in
  match insert_all (if has_xmlns root then 1 else 0) 0 new root with Some root => Some (m, root, attrs) | None => None end.
(** The elements below the root, in the order in which they are appended (markup5ever.rs:317-326). *)
Fixpoint build_other (t : tree) (m : nmap) (root : list attr) : option (nmap * list attr * tree) :=
  match t with
  | Node p local attrs kids =>
      match add_to_other m root p attrs with
      | None => None
      | Some (m, root, attrs) =>
          match (fix go (l : list tree) (m : nmap) (root : list attr) : option (nmap * list attr * list tree) :=
                   match l with
                   | [] => Some (m, root, [])
                   | t :: l => match build_other t m root with
                               | None => None
                               | Some (m, root, t) => match go l m root with None => None | Some (m, root, l) => Some (m, root, t :: l) end
                               end
                   end) kids m root with
          | None => None
          | Some (m, root, kids) => Some (m, root, Node p local attrs kids)
          end
      end
  end.
(** The same for a list of elements (markup5ever.rs:317-326). *)
Fixpoint build_list (l : list tree) (m : nmap) (root : list attr) : option (nmap * list attr * list tree) :=
  match l with
  | [] => Some (m, root, [])
  | t :: l => match build_other t m root with
              | None => None
              | Some (m, root, t) => match build_list l m root with None => None | Some (m, root, l) => Some (m, root, t :: l) end
              end
  end.
(** The document: the root and then what is in it (markup5ever.rs:59-69); [None]: a panic. *)
Definition build (t : tree) : option tree :=
  match t with
  | Node p local attrs kids =>
      match add_to_root p attrs with
      | None => None
      | Some (m, root) => match build_list kids m root with Some (_, root, kids) => Some (Node p local root kids) | None => None end
      end
  end.
