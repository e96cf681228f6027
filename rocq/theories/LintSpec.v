(** What unused means, stated without the lint's stack. *)
From Coq Require Import String List NArith Bool Arith.
From Verif Require Import Chars NameModel NsModel NsSpec.
From Verif Require IdsModel LintModel.
Import ListNotations.

(** The element at a place. *)
Fixpoint at_path (n : pnode) (path : list nat) : option pnode :=
  match path with
  | [] => match n with PElem _ _ _ => Some n | POther _ => None end
  | i :: path => match n with PElem _ _ kids => match nth_error kids i with Some k => at_path k path | None => None end | POther _ => None end
  end.

(** The names in a subtree, as prefix and namespace; declarations are attributes too. *)
Definition name_key (q : qual_name) : option text * text := (prefix_value (q_prefix q), memory_uri q).
Definition attr_key (a : pattr) : option text * text :=
  match a with
  | ADefault _ => (None, lit "http://www.w3.org/2000/svg")
  | APrefix _ _ => (Some (lit "xmlns"), lit "http://www.w3.org/2000/xmlns/")
  | AOther q _ => name_key q
  end.
Fixpoint names_in (n : pnode) : list (option text * text) :=
  match n with
  | POther _ => []
  | PElem name attrs kids => name_key name :: map attr_key attrs ++ flat_map names_in kids
  end.

(** Names in memory agree with the declarations around them. *)
Definition agrees_with (scope : list decl) (q : qual_name) : Prop :=
  forall u, innermost (prefix_value (q_prefix q)) scope = Some u -> memory_uri q = u.
Fixpoint consistent (scope : list decl) (n : pnode) : Prop :=
  match n with
  | POther _ => True
  | PElem name attrs kids =>
      let scope := declared attrs ++ scope in
      agrees_with scope name /\
      Forall (fun a => match a with AOther q _ => prefix_value (q_prefix q) <> None -> agrees_with scope q | _ => True end) attrs /\
      (fix go l := match l with [] => True | x :: l => consistent scope x /\ go l end) kids
  end.

(** Deleting a declaration from the element at a place. *)
Definition is_decl (d : decl) (a : pattr) : bool :=
  match a with
  | ADefault u => match fst d with None => text_eqb u (snd d) | Some _ => false end
  | APrefix n u => match fst d with Some p => text_eqb n p && text_eqb u (snd d) | None => false end
  | AOther _ _ => false
  end.
Fixpoint delete_decl (n : pnode) (path : list nat) (d : decl) : pnode :=
  match n with
  | POther t => POther t
  | PElem name attrs kids =>
      match path with
      | [] => PElem name (filter (fun a => negb (is_decl d a)) attrs) kids
      | i :: path =>
          PElem name attrs
            ((fix go (l : list pnode) (i : nat) : list pnode :=
                match l, i with
                | [], _ => []
                | k :: l, 0 => delete_decl k path d :: l
                | k :: l, S i => k :: go l i
                end) kids i)
      end
  end.

(** No element declares a prefix twice. *)
Fixpoint own_distinct (n : pnode) : Prop :=
  match n with
  | POther _ => True
  | PElem _ attrs kids =>
      NoDup (map fst (declared attrs)) /\
      (fix go l := match l with [] => True | x :: l => own_distinct x /\ go l end) kids
  end.

(** ** In the source *)

(** The element at a place. *)
Fixpoint src_at (s : src) (path : list nat) : option src :=
  match path with
  | [] => match s with SOther _ => None | _ => Some s end
  | i :: path => match s with SElem _ _ _ _ kids => match nth_error kids i with Some k => src_at k path | None => None end | _ => None end
  end.
Definition own_decls (s : src) : list decl :=
  match s with SElem own _ _ _ _ | SStyle own _ _ _ _ => own | SOther _ => [] end.
(** The prefixes that names are written with; no prefix counts for elements only, as the default
    namespace is not for attributes. *)
Definition attr_prefixes (attrs : list (option text * text * text)) : list (option text) :=
  flat_map (fun a => match fst (fst a) with Some p => [Some p] | None => [] end) attrs.
Fixpoint prefixes_in (s : src) : list (option text) :=
  match s with
  | SOther _ => []
  | SStyle _ pre _ attrs _ => pre :: attr_prefixes attrs
  | SElem _ pre _ attrs kids => pre :: attr_prefixes attrs ++ flat_map prefixes_in kids
  end.

(** ** Ids *)

(** An attribute other than an id refers to [id]. *)
Definition piece_refers (id : text) (p : IdsModel.piece) : Prop :=
  match p with
  | IdsModel.IdRef t => t = id
  | IdsModel.Url (35%N :: f) => f = id \/ IdsModel.url_decode f = Some id
  | _ => False
  end.
Definition carries_id (a : IdsModel.attr) (id : text) : Prop := a = IdsModel.Attr 0 [IdsModel.IdRef id].
Definition attr_refers (a : IdsModel.attr) (id : text) : Prop :=
  (forall t, ~ carries_id a t) /\ exists p, In p (IdsModel.apieces a) /\ piece_refers id p.
Definition css_refers (c : LintModel.css_item) (id : text) : Prop :=
  match c with
  | LintModel.CssId t => t = id
  | LintModel.CssUrl (35%N :: f) => f = id \/ IdsModel.url_decode f = Some id
  | _ => False
  end.
Definition refers (sheets : list LintModel.css_item) (elements : list (list IdsModel.attr)) (id : text) : Prop :=
  (exists c, In c sheets /\ css_refers c id) \/
  exists l a, In l elements /\ In a l /\ attr_refers a id.

(** Something refers to [id] without any encoding, other than a selector. *)
Definition exactly_refers (sheets : list LintModel.css_item) (elements : list (list IdsModel.attr)) (id : text) : Prop :=
  In (LintModel.CssUrl (35%N :: id)) sheets \/
  exists l a, In l elements /\ In a l /\ (forall t, ~ carries_id a t) /\
    (In (IdsModel.IdRef id) (IdsModel.apieces a) \/ In (IdsModel.Url (35%N :: id)) (IdsModel.apieces a)).

(** Nothing is percent-encoded, and no selector names an id. *)
Definition plain_piece (p : IdsModel.piece) : bool :=
  match p with IdsModel.Url t => negb (existsb (N.eqb 37) t) | _ => true end.
Definition plain_css (c : LintModel.css_item) : bool :=
  match c with LintModel.CssUrl t => negb (existsb (N.eqb 37) t) | LintModel.CssId _ => false end.
