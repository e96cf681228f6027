(** Vocabulary for the id properties (C16-C19). *)
From Coq Require Import String List NArith Bool Arith.
Import ListNotations.
From Verif Require Import Chars IdsModel.

(** * C16 *)
Definition letter (c : N) : Prop := (65 <= c <= 90)%N \/ (97 <= c <= 122)%N.
Definition letters (t : text) : Prop := t <> [] /\ Forall letter t.

(** States of the id generator that some sequence of calls leads to. *)
Inductive reachable : gen -> Prop :=
| reach_default : reachable gen_default
| reach_set g ids g' : reachable g -> set_prevent g ids = Some g' -> reachable g'
| reach_insert g id g' : reachable g -> insert_prevent g id = Some g' -> reachable g'
| reach_next g g' : reachable g -> next g = Some g' -> reachable g'.

(** Take [n] ids: use the current one, then advance. *)
Fixpoint hand_out (n : nat) (g : gen) : option (list text) :=
  match n with
  | O => Some []
  | S n => match next g with
           | Some g' => match hand_out n g' with Some l => Some (current g :: l) | None => None end
           | None => None end
  end.

(** The number a letter string stands for: digits a-z, A-Z worth 1 to 52, most significant first. *)
Definition digit (c : N) : N := if (c <=? 90)%N then (c - 38)%N else (c - 96)%N.
Fixpoint rval (r : text) : N := match r with [] => 0 | c :: r => digit c + 52 * rval r end.
Definition val (t : text) : N := rval (rev t).

(** * C17, C18 *)
Definition elements (doc : list tree) : list nat := preorder_forest doc.
Definition has_id (st : store) (e : nat) (t : text) : Prop :=
  exists a, In a (st e) /\ aname a = 0 /\ apieces a = [IdRef t].

(** The id a piece of an attribute value refers to: a fragment url after percent-decoding (the raw
    fragment when that is not UTF-8), or an id reference. *)
Definition names (p : piece) (t : text) : Prop :=
  match p with
  | Url (35%N :: f) => match url_decode f with Some d => d = t | None => f = t end
  | IdRef x => x = t
  | _ => False
  end.
(** The piece, in document state [st], refers to element [e]. *)
Definition points (st : store) (p : piece) (e : nat) : Prop := exists t, names p t /\ has_id st e t.
(** Some attribute other than an id refers to the id [t]. *)
Definition referenced (doc : list tree) (st : store) (t : text) : Prop :=
  exists e a p, In e (elements doc) /\ In a (st e) /\ aname a <> 0 /\ In p (apieces a) /\ names p t.

Definition unique_ids (doc : list tree) (st : store) : Prop :=
  forall e1 e2 t, In e1 (elements doc) -> In e2 (elements doc) ->
    has_id st e1 t -> has_id st e2 t -> e1 = e2.
(** Elements are distinct nodes, with attributes of distinct names, an id attribute being one id. *)
Definition well_formed (doc : list tree) (st : store) : Prop :=
  NoDup (elements doc) /\
  forall e, In e (elements doc) ->
    NoDup (map aname (st e)) /\
    forall a, In a (st e) -> aname a = 0 -> exists t, apieces a = [IdRef t].

(** An attribute that cannot mix up its own references: it refers to one id only, or none of the
    ids it refers to is made of letters alone or written with a percent sign. *)
Definition unmixed (a : attr) : Prop :=
  (forall p q t u, In p (apieces a) -> In q (apieces a) -> names p t -> names q u -> t = u) \/
  (forall p t, In p (apieces a) -> names p t ->
     ~ letters t /\ forall f, p = Url (35%N :: f) -> has_percent f = false).

Definition same_kind (p q : piece) : Prop :=
  p = q \/ (exists t u, p = Url (35%N :: t) /\ q = Url (35%N :: u)) \/ (exists t u, p = IdRef t /\ q = IdRef u).
(** Attributes before and after: same name, and piece by piece the same kind of reference to the
    same elements. *)
Definition same_references (doc : list tree) (st st' : store) (a a' : attr) : Prop :=
  aname a = aname a' /\
  Forall2 (fun p p' => same_kind p p' /\
             forall e, In e (elements doc) -> (points st p e <-> points st' p' e))
          (apieces a) (apieces a').
Definition not_id (a : attr) : bool := negb (Nat.eqb (aname a) 0).

(** * C19 *)
(** An element of a prefixed document has the id [t]. *)
Definition pe_has_id (e : pelem) (t : text) : Prop :=
  exists a, In a (pe_attrs e) /\ aname a = 0 /\ apieces a = [IdRef t].
(** ... carries the class [t]. *)
Definition pe_has_class (e : pelem) (t : text) : Prop :=
  exists a, In a (pe_attrs e) /\ In (ClassRef t) (apieces a).
(** The name a selector part or url of a style sheet refers to. *)
Definition css_names_id (c : css) (t : text) : Prop :=
  match c with
  | CssId x => x = t
  | CssUrl (35%N :: f) => match url_decode f with Some d => d = t | None => f = t end
  | _ => False end.
Definition css_names_class (c : css) (t : text) : Prop :=
  match c with CssClass x => x = t | _ => False end.
(** Piece [p] refers to element [e]; style sheet part [c] refers to, or matches, element [e]. *)
Definition pe_points (p : piece) (e : pelem) : Prop := exists t, names p t /\ pe_has_id e t.
Definition css_points (c : css) (e : pelem) : Prop := exists t, css_names_id c t /\ pe_has_id e t.
Definition css_matches (c : css) (e : pelem) : Prop := exists t, css_names_class c t /\ pe_has_class e t.
Definition pe_css_parts (e : pelem) : list css := match pe_css e with Some l => l | None => [] end.

(** Everything a document says about ids: the ids it defines and those it refers to. *)
Definition id_name (doc : list pelem) (t : text) : Prop :=
  exists e, In e doc /\
    ((exists a p, In a (pe_attrs e) /\ In p (apieces a) /\ names p t)
     \/ (exists c, In c (pe_css_parts e) /\ css_names_id c t)).
Definition class_name (doc : list pelem) (t : text) : Prop :=
  exists e, In e doc /\
    (pe_has_class e t \/ exists c, In c (pe_css_parts e) /\ css_names_class c t).

(** Prefixing relates the elements of [doc] and [doc'] position by position; every attribute keeps
    its name, every reference its targets, every selector part its matches. *)
Definition linked (doc doc' : list pelem) (e e' : pelem) : Prop :=
  Forall2 (fun a a' => aname a = aname a' /\
     Forall2 (fun p p' => forall t t', In (t, t') (combine doc doc') -> (pe_points p t <-> pe_points p' t'))
             (apieces a) (apieces a'))
    (pe_attrs e) (pe_attrs e') /\
  Forall2 (fun c c' => forall t t', In (t, t') (combine doc doc') ->
       (css_points c t <-> css_points c' t') /\ (css_matches c t <-> css_matches c' t'))
    (pe_css_parts e) (pe_css_parts e').

(** No name becomes another one by receiving the prefix. *)
Definition clash_free (p : text) (name : text -> Prop) : Prop :=
  forall t u, name t -> name u -> starts_with p t = false -> u <> p ++ t.
(** Fragment urls are written without percent signs. *)
Definition plain_urls (doc : list pelem) : Prop :=
  forall e, In e doc ->
    (forall a f, In a (pe_attrs e) -> In (Url (35%N :: f)) (apieces a) -> has_percent f = false) /\
    (forall f, In (CssUrl (35%N :: f)) (pe_css_parts e) -> has_percent f = false).
Definition pe_unique (doc : list pelem) : Prop :=
  forall i j e f t, nth_error doc i = Some e -> nth_error doc j = Some f ->
    pe_has_id e t -> pe_has_id f t -> i = j.

(** The last part of a path. *)
Fixpoint file_name (path : text) : text :=
  match path with
  | [] => []
  | c :: rest => if existsb (N.eqb 47) rest then file_name rest
                 else if (c =? 47)%N then rest else path
  end.

(** [str::chars().all(char::is_numeric)] restricted to ASCII, for examples. *)
Definition ascii_numeric (t : text) : bool := forallb is_ascii_digit t.
(** A store given by its non-empty entries. *)
Fixpoint store_of (l : list (nat * list attr)) : store :=
  match l with [] => fun _ => [] | (e, a) :: l => fun x => if Nat.eqb x e then a else store_of l x end.
