(** What the namespace jobs may change. *)
From Coq Require Import String List NArith Bool Arith.
From Verif Require Import Chars NameModel NsModel NsSpec LintSpec NsJobsModel.
Import ListNotations.

(** ** Unused namespaces *)

(** The namespaces of the names written with a prefix. *)
Definition prefixed_uri (q : qual_name) : list text :=
  match prefix_value (q_prefix q) with Some _ => [memory_uri q] | None => [] end.
Definition prefixed_attr (a : pattr) : list text :=
  match a with
  | ADefault _ => []
  | APrefix _ _ => [lit "http://www.w3.org/2000/xmlns/"]
  | AOther q _ => prefixed_uri q
  end.
Fixpoint prefixed_uris (n : pnode) : list text :=
  match n with
  | POther _ => []
  | PElem name attrs kids => prefixed_uri name ++ flat_map prefixed_attr attrs ++ flat_map prefixed_uris kids
  end.
(** The root with some of its prefixed declarations. *)
Definition svg_root (n : pnode) : Prop :=
  match n with PElem name _ _ => memory_uri name = lit "http://www.w3.org/2000/svg" /\ q_local name = lit "svg" | POther _ => False end.
Definition keep_used (used : list text) (a : pattr) : bool :=
  match a with APrefix _ u => existsb (text_eqb u) used | _ => true end.
Definition with_used (used : list text) (n : pnode) : pnode :=
  match n with PElem name attrs kids => PElem name (filter (keep_used used) attrs) kids | POther t => POther t end.

(** ** Xlink *)

(** The values of the attributes of a name. *)
Definition values (n : xname) (l : list xattr) : list text :=
  flat_map (fun a => match a with XKnown m v => if xname_eqb n m then [v] else [] | _ => [] end) l.
Definition xlink_name (n : xname) : bool :=
  match n with XActuate | XArcrole | XRole | XType | XShow | XTitle | XHref => true | Href | Target | Known _ => false end.
(** Attributes that are not in the xlink namespace. *)
Definition outside (a : xattr) : bool :=
  match a with
  | XKnown n _ => negb (xlink_name n)
  | XUnknown q _ => negb (text_eqb (memory_uri q) (lit "http://www.w3.org/1999/xlink"))
  | XDecl _ u => negb (text_eqb u (lit "http://www.w3.org/1999/xlink"))
  end.
Definition known_outside (a : xattr) : bool := match a with XKnown n _ => negb (xlink_name n) | _ => false end.
(** The documented replacements. *)
Definition new_target (l : list xattr) : list xattr :=
  match values Target l, values XShow l with
  | [], v :: _ => if text_eqb v (lit "new") then [XKnown Target (lit "_blank")] else []
  | _, _ => []
  end.
Definition new_href (include_legacy legacy : bool) (l : list xattr) : list xattr :=
  match values Href l, values XHref l with
  | [], v :: _ => if legacy && negb include_legacy then [] else [XKnown Href v]
  | _, _ => []
  end.
Definition titled (t : xtree) : bool := match t with XE n _ _ _ => text_eqb n (lit "title") | XT _ => false end.
Definition new_title (l : list xattr) (kids : list xtree) : list xtree :=
  if existsb titled kids then []
  else match values XTitle l with v :: _ => [XE (lit "title") false [] [XT v]] | [] => [] end.
(** Apart from them, the attributes told by [keep] and all nodes stay. *)
Inductive changed (keep : xattr -> bool) (include_legacy : bool) : xtree -> xtree -> Prop :=
| changed_text t : changed keep include_legacy (XT t) (XT t)
| changed_elem name legacy attrs kids attrs' kids' :
    filter keep attrs' = filter keep attrs ++ new_target attrs ++ new_href include_legacy legacy attrs ->
    Forall2 (changed keep include_legacy) kids kids' ->
    changed keep include_legacy (XE name legacy attrs kids) (XE name legacy attrs' (new_title attrs kids ++ kids')).

(** A condition on the attributes of every element, with its other parts. *)
Fixpoint everywhere (P : bool -> list xattr -> list xtree -> Prop) (t : xtree) : Prop :=
  match t with
  | XT _ => True
  | XE _ legacy attrs kids => P legacy attrs kids /\ (fix go l := match l with [] => True | x :: l => everywhere P x /\ go l end) kids
  end.
(** Every name outside of the xlink namespace is known. *)
Definition all_known_names : xtree -> Prop :=
  everywhere (fun _ attrs _ => forall a, In a attrs -> outside a = true -> exists n v, a = XKnown n v).
(** Every xlink attribute of the element has a replacement, or none is needed. *)
Definition convertible (include_legacy : bool) : xtree -> Prop :=
  everywhere (fun legacy attrs kids =>
    length (values XShow attrs) <= 1 /\ length (values XTitle attrs) <= 1 /\ length (values XHref attrs) <= 1 /\
    (values Target attrs = [] -> values XShow attrs = [] \/ values XShow attrs = [lit "new"]) /\
    (existsb titled kids = true -> values XTitle attrs = []) /\
    (values Href attrs <> [] \/ (legacy = true /\ include_legacy = false) -> values XHref attrs = []) /\
    (forall q v, In (XUnknown q v) attrs -> memory_uri q <> lit "http://www.w3.org/1999/xlink")).
(** No declaration of the xlink namespace, and no attribute in it. *)
Definition no_declaration : xtree -> Prop :=
  everywhere (fun _ attrs _ => forall n, ~ In (XDecl n (lit "http://www.w3.org/1999/xlink")) attrs).
Definition no_xlink : xtree -> Prop := everywhere (fun _ attrs _ => forall a, In a attrs -> outside a = true).
(** Every xlink attribute has a declaration around it. *)
Definition is_xdecl (a : xattr) : bool :=
  match a with XDecl _ u => text_eqb u (lit "http://www.w3.org/1999/xlink") | _ => false end.
Fixpoint xlink_declared (scope : bool) (t : xtree) : bool :=
  match t with
  | XT _ => true
  | XE _ _ attrs kids =>
      let scope := scope || existsb is_xdecl attrs in
      (scope || forallb outside attrs) && forallb (xlink_declared scope) kids
  end.
