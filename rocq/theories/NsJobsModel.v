(** Model of the jobs on namespaces: crates/oxvg_optimiser/src/jobs/remove_unused_n_s.rs and
    remove_xlink.rs. *)
From Coq Require Import String List NArith Bool Arith.
From Verif Require Import Chars NameModel NsModel.
From Verif Require Import LintModel.
Import ListNotations.

(** ** remove_unused_n_s.rs *)

(** [is_element!(element, Svg)] (remove_unused_n_s.rs:116, 135; crates/oxvg_ast/src/element.rs:29-39):
    the name is known when its namespace and local part are. *)
Definition is_svg (q : qual_name) : bool :=
  text_eqb (ns_uri (prefix_ns (q_prefix q))) (known_uri SVG) && text_eqb (q_local q) (lit "svg").
(** [HashSet::remove] (remove_unused_n_s.rs:85, 91). *)
Definition unuse (u : text) (s : list text) : list text := filter (fun x => negb (text_eqb x u)) s.

(** [root_element] (remove_unused_n_s.rs:112-132). *)
Definition root_element (unused : list text) (e : pnode) : list text :=
  match e with
  | PElem name attrs _ =>
      if is_svg name then unused ++ flat_map (fun a => match a with APrefix _ u => [u] | _ => [] end) attrs else unused
  | POther _ => unused
  end.
(** The prefixes of an element and of its attributes, in the order they are looked at
    (remove_unused_n_s.rs:83-93). *)
Definition visit_prefix (unused : list text) (p : prefix) : list text :=
  if prefix_is_empty p then unused else unuse (ns_uri (prefix_ns p)) unused.
(** [element] (remove_unused_n_s.rs:76-95). *)
Definition visit_element (unused : list text) (name : qual_name) (attrs : list pattr) : list text :=
  match unused with
  | [] => []
  | _ => fold_left visit_prefix (map pattr_prefix attrs) (visit_prefix unused (q_prefix name))
  end.
(** [element] on every element in document order (remove_unused_n_s.rs:73-97). *)
Fixpoint visit_ns (unused : list text) (n : pnode) {struct n} : list text :=
  match n with
  | POther _ => unused
  | PElem name attrs kids =>
      (fix go (l : list pnode) (unused : list text) : list text :=
         match l with [] => unused | k :: l => go l (visit_ns unused k) end)
        kids (visit_element unused name attrs)
  end.
(** [exit_root_element] (remove_unused_n_s.rs:134-155). *)
Definition exit_root (unused : list text) (e : pnode) : pnode :=
  match e with
  | PElem name attrs kids =>
      if is_svg name
      then PElem name (filter (fun a => match a with APrefix _ u => negb (existsb (text_eqb u) unused) | _ => true end) attrs) kids
      else e
  | POther _ => e
  end.
(** The job on the children of the document (remove_unused_n_s.rs:59-110). *)
Definition remove_unused_ns (doc : list pnode) : list pnode :=
  let unused := fold_left root_element doc [] in
  let unused := fold_left visit_ns doc unused in
  map (exit_root unused) doc.

(** ** remove_xlink.rs *)

(** The attribute names the job knows; any other known name is a number (remove_xlink.rs:107, 160-230). *)
Inductive xname : Type :=
| XActuate | XArcrole | XRole | XType | XShow | XTitle | XHref  (** the names with the xlink prefix *)
| Href | Target
| Known (n : nat).
(** Attributes (remove_xlink.rs:86-97, 131-140): a declaration [xmlns:name], another name that is not
    known, or a known name. Values are the written texts; a value is compared with the keywords the
    attribute type knows (crates/oxvg_collections/src/attribute/xlink.rs:18-29). *)
Inductive xattr : Type :=
| XDecl (name uri : text)
| XUnknown (name : qual_name) (value : text)
| XKnown (name : xname) (value : text).
(** Elements with their name, whether [ElementInfo::Legacy] is set for it (remove_xlink.rs:215), attributes
    and children; or any other node. *)
Inductive xtree : Type :=
| XE (name : text) (legacy : bool) (attrs : list xattr) (kids : list xtree)
| XT (t : text).

(** Equality of names (crates/oxvg_collections/src/attribute.rs:533-543). *)
Definition xname_eqb (a b : xname) : bool :=
  match a, b with
  | XActuate, XActuate | XArcrole, XArcrole | XRole, XRole | XType, XType | XShow, XShow | XTitle, XTitle
  | XHref, XHref | Href, Href | Target, Target => true
  | Known a, Known b => Nat.eqb a b
  | _, _ => false
  end.
(** Whether an attribute has a name (crates/oxvg_ast/src/attribute.rs:49-59). *)
Definition named (n : xname) (a : xattr) : bool := match a with XKnown m _ => xname_eqb n m | _ => false end.
(** [has_attribute!], [get_attribute!] (crates/oxvg_ast/src/attribute.rs:49-97), [remove_attribute!]
    (attribute.rs:116-131, 212-216): the first of that name. *)
Definition has (n : xname) (l : list xattr) : bool := existsb (named n) l.
(** [get_attribute!] (crates/oxvg_ast/src/attribute.rs:61-97). *)
Definition get (n : xname) (l : list xattr) : option text :=
  match find (named n) l with Some (XKnown _ v) => Some v | _ => None end.
(** [remove_attribute!] (crates/oxvg_ast/src/attribute.rs:116-131, 212-216). *)
Fixpoint remove_first (n : xname) (l : list xattr) : list xattr :=
  match l with [] => [] | a :: l => if named n a then l else a :: remove_first n l end.
(** [set_attribute!] of a name that is not there (attribute.rs:63-67, 222-233). *)
Definition push (n : xname) (v : text) (l : list xattr) : list xattr := l ++ [XKnown n v].

(** The stacks (remove_xlink.rs:47-53), innermost first. *)
Record stacks : Type := Stacks { prefixes : list text; overridden : list bool; used : list bool }.
(** Writing the innermost entry (remove_xlink.rs:86-107). *)
Definition set_head (b : list bool) : list bool := match b with [] => [] | _ :: b => true :: b end.
(** [NS::XLink.uri()] (remove_xlink.rs:96). *)
Definition xlink_uri : text := known_uri XLink.
(** The loop over the attributes (remove_xlink.rs:86-107). *)
Definition open_attr (s : stacks) (a : xattr) : stacks :=
  match a with
  | XDecl local uri =>
      if text_eqb uri xlink_uri
      then Stacks (local :: prefixes s) (false :: overridden s) (false :: used s)
      else if match prefixes s with p :: _ => text_eqb p local | [] => false end
           then Stacks (prefixes s) (set_head (overridden s)) (used s)
           else s
  | _ => s
  end.
(** The names dropped at once (remove_xlink.rs:108-110). *)
Definition dropped (a : xattr) : bool := match a with XKnown (XActuate | XArcrole | XRole | XType) _ => true | _ => false end.
(** [handle_show] (remove_xlink.rs:163-184); [_self] is the default target
    (crates/oxvg_collections/src/attribute/uncategorised.rs:961-973). *)
Definition handle_show (l : list xattr) : list xattr :=
  if has Target l then remove_first XShow l
  else match get XShow l with
       | Some v => if text_eqb v (lit "new") then remove_first XShow (push Target (lit "_blank") l) else l
       | None => l
       end.
(** [handle_title] (remove_xlink.rs:186-206): the attributes, and the element inserted as first child. *)
Definition is_title (t : xtree) : bool := match t with XE n _ _ _ => text_eqb n (lit "title") | XT _ => false end.
(** [handle_title] (remove_xlink.rs:186-206). *)
Definition handle_title (l : list xattr) (kids : list xtree) : list xattr * list xtree :=
  if existsb is_title kids then (l, [])
  else match get XTitle l with
       | Some v => (remove_first XTitle l, [XE (lit "title") false [] [XT v]])
       | None => (l, [])
       end.
(** [handle_href] (remove_xlink.rs:208-230). *)
Definition handle_href (include_legacy legacy : bool) (l : list xattr) (us : list bool) : list xattr * list bool :=
  if has Href l then (l, us)
  else if negb include_legacy && legacy then (l, set_head us)
  else match get XHref l with Some v => (push Href v (remove_first XHref l), us) | None => (l, us) end.
(** [exit_element] (remove_xlink.rs:125-158). *)
Definition pop (s : stacks) : stacks := Stacks (tl (prefixes s)) (tl (overridden s)) (tl (used s)).
(** The innermost entry (remove_xlink.rs:125-158). *)
Definition top (l : list bool) : bool := match l with b :: _ => b | [] => false end.
(** The attributes in [exit_element] (remove_xlink.rs:125-158). *)
Fixpoint exit_attrs (include_legacy : bool) (l : list xattr) (s : stacks) : list xattr * stacks :=
  match l with
  | [] => ([], s)
  | a :: l =>
      let unknown (a : xattr) :=
        let '(r, s') := exit_attrs include_legacy l (pop s) in
        (if negb include_legacy && negb (top (overridden s)) && negb (top (used s)) then r else a :: r, s') in
      match a with
      | XKnown _ _ => let '(r, s) := exit_attrs include_legacy l s in (a :: r, s)
      | XDecl _ u => if text_eqb u xlink_uri then exit_attrs include_legacy l s else unknown a
      | XUnknown _ _ => unknown a
      end
  end.
(** [element], the children and [exit_element] (remove_xlink.rs:75-158). The inserted title is
    walked too, without effect; it is kept out of the recursion here. *)
Fixpoint xlink (include_legacy : bool) (t : xtree) (s : stacks) {struct t} : xtree * stacks :=
  match t with
  | XT t => (XT t, s)
  | XE name legacy attrs kids =>
      let s := fold_left open_attr attrs s in
      let attrs := filter (fun a => negb (dropped a)) attrs in
      let attrs := handle_show attrs in
      let '(attrs, title) := handle_title attrs kids in
      let '(attrs, us) := handle_href include_legacy legacy attrs (used s) in
      let s := Stacks (prefixes s) (overridden s) us in
      let '(kids', s) :=
        (fix go (l : list xtree) (s : stacks) : list xtree * stacks :=
           match l with
           | [] => ([], s)
           | x :: l => let '(y, s) := xlink include_legacy x s in let '(r, s) := go l s in (y :: r, s)
           end) kids s in
      let '(attrs, s) := exit_attrs include_legacy attrs s in
      (XE name legacy attrs (title ++ kids'), s)
  end.
(** The job (remove_xlink.rs:55-70). *)
Definition remove_xlink (include_legacy : bool) (t : xtree) : xtree := fst (xlink include_legacy t (Stacks [] [] [])).
