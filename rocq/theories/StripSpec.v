(** What is drawn, what else matters for it, and which prefixes are declared. *)
From Coq Require Import String List NArith Bool.
From Verif Require Import Chars StripModel.
Import ListNotations.

Definition xhtml_uri : text := lit "http://www.w3.org/1999/xhtml".
Definition xlink_uri : text := lit "http://www.w3.org/1999/xlink".
Definition xml_uri : text := lit "http://www.w3.org/XML/1998/namespace".
(** Elements that are never rendered (SVG 2, 5.7 and 5.8), and those of other languages. *)
Definition descriptive (n : name) : bool := text_eqb (n_uri n) svg_uri && existsb (fun s => text_eqb (n_local n) (lit s)) ["metadata"; "title"; "desc"]%string.
Definition drawn (n : name) : bool := (text_eqb (n_uri n) svg_uri || text_eqb (n_uri n) xhtml_uri) && negb (descriptive n).
(** Attributes with a meaning: of SVG, which is what the program takes those without prefix for, of XLink and of XML. *)
Definition meaningful (n : name) : bool := existsb (text_eqb (n_uri n)) [svg_uri; xlink_uri; xml_uri].
(** The document as it is drawn: its elements with their attributes, and text. *)
Fixpoint rendered (n : node) : list node :=
  match n with
  | Elem m _ _ l k => if drawn m then [Elem m None [] (filter (fun a => meaningful (fst a)) l) (flat_map rendered k)] else []
  | Text t | CData t => [n]
  | Comment _ | Instruction _ _ | Doctype _ => []
  end.
(** All elements, with their attributes and text: what selectors see. *)
Fixpoint elements (n : node) : list node :=
  match n with
  | Elem m d ds l k => [Elem m d ds l (flat_map elements k)]
  | Text t | CData t => [n]
  | Comment _ | Instruction _ _ | Doctype _ => []
  end.
(** Something about every element, in order: say the stylesheets, or what can be referred to. *)
Fixpoint collect {A : Type} (f : name -> list (name * text) -> list node -> list A) (n : node) : list A :=
  match n with
  | Elem m _ _ l k => f m l k ++ flat_map (collect f) k
  | _ => []
  end.
Definition stylesheets (m : name) (l : list (name * text)) (k : list node) : list text :=
  if is_svg "style" m then [flat_map (fun n => match n with Text t | CData t => t | _ => [] end) k] else [].
Definition ids (m : name) (l : list (name * text)) (k : list node) : list text :=
  map snd (filter (fun a => match n_prefix (fst a) with None => text_eqb (n_local (fst a)) (lit "id") | Some _ => false end) l).
(** Nothing of the kind in the elements with these names. *)
Fixpoint none_within {A : Type} (p : name -> bool) (f : name -> list (name * text) -> list node -> list A) (n : node) : Prop :=
  match n with
  | Elem m _ _ l k => (p m = true -> collect f n = []) /\ (fix all l := match l with [] => True | x :: r => none_within p f x /\ all r end) k
  | _ => True
  end.

(** Namespaces in XML: prefixes stand for what the innermost declaration says, [xml] for its own. *)
Fixpoint find_prefix (p : text) (scope : list (text * text)) : option text :=
  match scope with [] => None | d :: r => if text_eqb (fst d) p then Some (snd d) else find_prefix p r end.
Definition stands (scope : list (text * text)) (default : text) (n : name) : Prop :=
  match n_prefix n with Some p => find_prefix p scope = Some (n_uri n) | None => n_uri n = default end.
Fixpoint declared (scope : list (text * text)) (default : text) (n : node) : Prop :=
  match n with
  | Elem m d ds l k =>
      let inner := match d with Some u => u | None => default end in
      stands (ds ++ scope) inner m /\ Forall (fun a => stands (ds ++ scope) svg_uri (fst a)) l /\
      (fix all l := match l with [] => True | x :: r => declared (ds ++ scope) inner x /\ all r end) k
  | _ => True
  end.
(** No element, attribute or declaration of these namespaces. *)
Fixpoint free (bad : text -> bool) (n : node) : Prop :=
  match n with
  | Elem m _ ds l k => bad (n_uri m) = false /\ Forall (fun d => bad (snd d) = false) ds /\ Forall (fun a => bad (n_uri (fst a)) = false) l /\
      (fix all l := match l with [] => True | x :: r => free bad x /\ all r end) k
  | _ => True
  end.
(** The processing instructions, say for stylesheets. *)
Fixpoint instructions (n : node) : list (text * text) :=
  match n with
  | Instruction t u => [(t, u)]
  | Elem _ _ _ _ k => flat_map instructions k
  | _ => []
  end.
(** What editors write in descriptions. *)
Definition by_editor (t : text) : Prop := exists r, t = lit "Created with" ++ r \/ t = lit "Created using" ++ r.
(** A description with nothing in it but white space. *)
Definition says_nothing (k : list node) : Prop := forall n, In n k -> exists t, n = Text t /\ Forall (fun c => white c = true) t.
(** What no element is like. *)
Fixpoint nowhere (p : name -> list node -> Prop) (n : node) : Prop :=
  match n with
  | Elem m _ _ _ k => ~ p m k /\ (fix all l := match l with [] => True | x :: r => nowhere p x /\ all r end) k
  | _ => True
  end.
