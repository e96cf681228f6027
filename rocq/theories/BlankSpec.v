(** What attributes without a value mean. *)
From Coq Require Import String List NArith Bool.
From Verif Require Import Chars NameModel AttrTable ElemTable ElemModel BlankModel.
Import ListNotations.

(** The attribute with a name, whatever it was recognised as. *)
Definition named (p : option text) (n : text) (a : attr_id * content) : bool :=
  match prefix_value (id_prefix (fst a)), p with
  | None, None => text_eqb (id_local (fst a)) n
  | Some q, Some p => text_eqb q p && text_eqb (id_local (fst a)) n
  | _, _ => false
  end.
Definition get (p : option text) (n : text) (l : attributes) : option content := option_map snd (find (named p n) l).
(** A value that is not empty; an empty one is in error for presentation attributes and most others, which is as if it were not there. *)
Definition value (p : option text) (n : text) (l : attributes) : option content :=
  match get p n l with Some c => if is_empty c then None else Some c | None => None end.
(** No name twice, which XML asks for. *)
Definition distinct (l : attributes) : Prop := NoDup (map (fun a => (prefix_value (id_prefix (fst a)), id_local (fst a))) l).

(** Namespaces in XML, 6.2: the namespace of names without prefix; an empty one takes it away. *)
Definition default_namespace (outer : content) (l : attributes) : content := match get None (lit "xmlns") l with Some c => c | None => outer end.
(** XML, 2.12: the language; an empty one says that there is none. *)
Definition language (outer : content) (l : attributes) : content := match get (Some (lit "xml")) (lit "lang") l with Some c => c | None => outer end.
(** SVG 2, linking: what is referred to; an empty reference is one to the document. *)
Definition reference (l : attributes) : option content :=
  match get None (lit "href") l with Some c => Some c | None => get (Some (lit "xlink")) (lit "href") l end.
(** SVG animations, 2.12: the values of an animation; [from], [to] and [by] are ignored when there is a list. *)
Definition animation (l : attributes) : list (option content) :=
  match get None (lit "values") l with
  | Some c => [Some c]
  | None => [None; get None (lit "from") l; get None (lit "to") l; get None (lit "by") l]
  end.
(** HTML, 2.3.2: a boolean attribute is true when it is there. *)
Definition switched (n : text) (l : attributes) : bool := match get None n l with Some _ => true | None => false end.
(** SVG 2, 5.9: an empty list of extensions or languages is not fulfilled, none is. *)
Definition fulfilled (supported : content -> bool) (n : text) (l : attributes) : bool := match get None n l with Some c => negb (is_empty c) && supported c | None => true end.
(** A value that is written as an empty text. *)
Inductive says_nothing : content -> Prop :=
| no_text : says_nothing (Textual [])
| no_declarations : says_nothing (Declarations 0 0)
| no_parts : says_nothing (Parts 0)
| nothing_defined : forall c, says_nothing c -> says_nothing (Defined c).
