(** What names mean by the XML namespace rules, in the source and in the parsed document as it
    would be written. *)
From Coq Require Import String List NArith Bool Arith.
From Verif Require Import Chars NameModel NsModel.
Import ListNotations.

(** A document with every name replaced by its namespace: [None] when its prefix is not declared,
    [Some None] when it is in no namespace. *)
Inductive xnode : Type :=
| XElem (uri : option (option text)) (local : text) (attrs : list (option (option text) * text * text)) (kids : list xnode)
| XOther (t : text).

(** The innermost declaration in scope decides. *)
Fixpoint innermost (p : option text) (scope : list decl) : option text :=
  match scope with
  | [] => None
  | (q, u) :: scope => if otext_eqb q p then Some u else innermost p scope
  end.
Definition prefixed (p : text) (scope : list decl) : option (option text) :=
  if text_eqb p (lit "xml") then Some (Some (lit "http://www.w3.org/XML/1998/namespace"))
  else match innermost (Some p) scope with Some u => Some (Some u) | None => None end.
Definition element_uri (p : option text) (scope : list decl) : option (option text) :=
  match p with
  | Some p => prefixed p scope
  | None => match innermost None scope with Some (c :: u) => Some (Some (c :: u)) | _ => Some None end
  end.
Definition attr_uri (p : option text) (scope : list decl) : option (option text) :=
  match p with Some p => prefixed p scope | None => Some None end.

(** The source. *)
Definition mean_attr (scope : list decl) (a : option text * text * text) : option (option text) * text * text :=
  let '(p, l, v) := a in (attr_uri p scope, l, v).
Fixpoint mean_src (scope : list decl) (s : src) : xnode :=
  match s with
  | SOther t => XOther t
  | SStyle own pre local attrs css =>
      XElem (element_uri pre (own ++ scope)) local (map (mean_attr (own ++ scope)) attrs) [XOther css]
  | SElem own pre local attrs kids =>
      XElem (element_uri pre (own ++ scope)) local (map (mean_attr (own ++ scope)) attrs) (map (mean_src (own ++ scope)) kids)
  end.

(** The parsed document: its declarations are those among its attributes, and a name is written
    with the name of its prefix (name.rs:297-304). *)
Definition declared (l : list pattr) : list decl :=
  flat_map (fun a => match a with ADefault u => [(None, u)] | APrefix n u => [(Some n, u)] | AOther _ _ => [] end) l.
Definition mean_pattr (scope : list decl) (a : pattr) : list (option (option text) * text * text) :=
  match a with
  | AOther q v => [(attr_uri (prefix_value (q_prefix q)) scope, q_local q, v)]
  | _ => []
  end.
Fixpoint mean_parsed (scope : list decl) (p : pnode) : xnode :=
  match p with
  | POther t => XOther t
  | PElem name attrs kids =>
      let scope := declared attrs ++ scope in
      XElem (element_uri (prefix_value (q_prefix name)) scope) (q_local name)
            (flat_map (mean_pattr scope) attrs) (map (mean_parsed scope) kids)
  end.

(** ** Conditions *)

(** All declarations of a document. *)
Fixpoint all_decls (s : src) : list decl :=
  match s with
  | SOther _ => []
  | SStyle own _ _ _ _ => own
  | SElem own _ _ _ kids => own ++ flat_map all_decls kids
  end.
(** Every prefix and every namespace is declared once in the whole document; [xml] is not. *)
Definition declared_once (s : src) : Prop :=
  NoDup (map fst (all_decls s ++ [xml_decl])) /\ NoDup (map snd (all_decls s ++ [xml_decl])) /\
  ~ In [] (map snd (all_decls s)).
(** Every prefix used is declared. *)
Definition bound_attr (scope : list decl) (a : option text * text * text) : Prop :=
  attr_uri (fst (fst a)) scope <> None.
Fixpoint all_bound (scope : list decl) (s : src) : Prop :=
  match s with
  | SOther _ => True
  | SStyle own pre _ attrs _ => element_uri pre (own ++ scope) <> None /\ Forall (bound_attr (own ++ scope)) attrs
  | SElem own pre _ attrs kids =>
      element_uri pre (own ++ scope) <> None /\ Forall (bound_attr (own ++ scope)) attrs /\
      (fix go l := match l with [] => True | x :: l => all_bound (own ++ scope) x /\ go l end) kids
  end.
(** No element declares the prefix it is itself named with. *)
Fixpoint named_from_outside (s : src) : Prop :=
  match s with
  | SOther _ => True
  | SStyle own pre _ _ _ => pre = None \/ ~ In pre (map fst own)
  | SElem own pre _ _ kids =>
      (pre = None \/ ~ In pre (map fst own)) /\
      (fix go l := match l with [] => True | x :: l => named_from_outside x /\ go l end) kids
  end.

(** The namespaces kept with the names in memory. *)
Definition memory_uri (q : qual_name) : text := ns_uri (prefix_ns (q_prefix q)).
Fixpoint memory (p : pnode) : list (text * text) :=
  match p with
  | POther _ => []
  | PElem name _ kids => (memory_uri name, q_local name) :: flat_map memory kids
  end.
(** The namespaces of elements in the source, in document order. *)
Fixpoint element_names (scope : list decl) (s : src) : list (option (option text) * text) :=
  match s with
  | SOther _ => []
  | SStyle own pre local _ _ => [(element_uri pre (own ++ scope), local)]
  | SElem own pre local _ kids => (element_uri pre (own ++ scope), local) :: flat_map (element_names (own ++ scope)) kids
  end.
