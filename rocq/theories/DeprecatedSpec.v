(** What the attributes of an element mean to selectors and for the language of its text. *)
From Coq Require Import String List Bool NArith.
From Verif Require Import Chars NameModel AttrTable DeprecatedModel.
Import ListNotations.

(** An attribute without a prefix is in no namespace. *)
Definition unprefixed (a : attr_id) : bool := match prefix_value (id_prefix a) with None => true | Some _ => false end.
Definition uri_of (a : attr_id) : text := ns_uri (prefix_ns (id_prefix a)).
Definition in_namespace (c : constraint) (a : attr_id) : bool :=
  match c with
  | AnyNs => true
  | NoNs => unprefixed a
  | Specific _ uri => negb (unprefixed a) && text_eqb (uri_of a) uri
  end.
(** Selectors 4, 6: an attribute selector matches if there is an attribute of that namespace and name with such a value. *)
Definition some_attribute (c : constraint) (n : text) (test : text -> bool) (l : attributes) : bool :=
  existsb (fun a => in_namespace c (fst a) && text_eqb (id_local (fst a)) n && test (snd a)) l.
(** [others] says which of the other simple selectors and combinators match. *)
Fixpoint matches (others : nat -> bool) (c : component) (l : attributes) : bool :=
  match c with
  | Exists n => some_attribute NoNs n (fun _ => true) l
  | Valued n t => some_attribute NoNs n t l
  | Other k n t => some_attribute k n t l
  | Not c => negb (matches others c l)
  | Else n => others n
  end.
Definition selects (others : nat -> bool) (s : selector) (l : attributes) : bool := forallb (fun c => matches others c l) s.

(** The language of the text of an element (HTML, 3.2.6.2, and SVG 2, 5.7.1): [xml:lang], or else [lang], or else that of the parent. *)
Definition lang : text := lit "lang".
Definition is_xml (a : attr_id) : bool := negb (unprefixed a) && text_eqb (uri_of a) (lit "http://www.w3.org/XML/1998/namespace").
Definition own_language (l : attributes) : option text :=
  match find (fun a => is_xml (fst a) && text_eqb (id_local (fst a)) lang) l with
  | Some a => Some (snd a)
  | None => option_map snd (find (fun a => unprefixed (fst a) && text_eqb (id_local (fst a)) lang) l)
  end.
(** Of the innermost element of a path that is given from the inside to the outside. *)
Fixpoint language (path : list attributes) : option text :=
  match path with
  | [] => None
  | l :: r => match own_language l with Some v => Some v | None => language r end
  end.

(** Known attributes are those of the table, and an alias is for the same namespace. *)
Definition well_formed (a : attr_id) : Prop :=
  match id_unaliased a with BKnown k => In k attr_table | BUnknown _ => True end
  /\ prefix_ns (id_prefix a) = prefix_ns (base_prefix (id_unaliased a))
  /\ match id_unaliased a with BKnown k => kind_prefix k <> SVG -> unprefixed a = false | BUnknown _ => True end.
(** Languages agree where an element has both attributes, and [lang] is not written with a prefix of the namespace of SVG. *)
Definition agreeing (l : attributes) : Prop :=
  (forall x y, In x l -> In y l -> id_local (fst x) = lang -> id_local (fst y) = lang -> snd x = snd y)
  /\ forall x, In x l -> id_local (fst x) = lang -> unprefixed (fst x) = true \/ is_xml (fst x) = true.

(** Selectors of which the names are understood: in lower case or with a value, not within [:not], and with the
    prefixes of the document. *)
Definition plain (l : attributes) (c : component) : Prop :=
  match c with
  | Exists n => lower n = n
  | Valued _ _ | Else _ | Other NoNs _ _ | Not (Else _) => True
  | Other AnyNs n _ => forall a, In a l -> id_local (fst a) = n -> unprefixed (fst a) = true
  | Other (Specific p uri) n _ => forall a, In a l -> id_local (fst a) = n -> unprefixed (fst a) = false -> uri_of (fst a) = uri -> prefix_value (id_prefix (fst a)) = Some p
  | Not _ => False
  end.
