(** What the options of a component are for: how the rendered nodes change with them. *)
From Coq Require Import String List NArith ZArith QArith Bool.
From Verif Require Import Chars NameModel AttrTable ElemModel JsxModel JsxSpec PresetModel.
Import ListNotations.

(** The value that a component sees: of several properties with a name the last one counts. *)
Fixpoint value_of (k : text) (ps : list (text * option pval)) : option (option pval) :=
  match ps with
  | [] => None
  | (n, v) :: r => match value_of k r with Some w => Some w | None => if text_eqb n k then Some v else None end
  end.
Definition either {A} (a b : option A) : option A := match a with Some x => Some x | None => b end.
(** The elements of rendered nodes, from the top and from left to right. *)
Fixpoint elems (d : dom) : list dom := match d with DElem _ _ kids => d :: flat_map elems kids | DText _ => [] end.
Definition called (n : text) (d : dom) : Prop := match d with DElem m _ _ => m = n | DText _ => False end.
Definition without (n : text) (l : list dom) : Prop := forall d, In d (flat_map elems l) -> ~ called n d.
(** The first element with a name, and what it is changed to; nothing else changes. *)
Inductive at_first (n : text) (P : dom -> list dom -> Prop) : list dom -> list dom -> Prop :=
| af_here ps kids r l : P (DElem n ps kids) r -> at_first n P (DElem n ps kids :: l) (r ++ l)
| af_inside m ps kids kids' l : m <> n -> at_first n P kids kids' -> at_first n P (DElem m ps kids :: l) (DElem m ps kids' :: l)
| af_later d l l' : without n [d] -> at_first n P l l' -> at_first n P (d :: l) (d :: l').

(** The property of the svg element before the properties of the component: first the icon, then no width and height if so told, then the names of
    title and description, the reference, the properties of the configuration, and the attributes of the document. *)
Definition icon_value (o : options) : option pval :=
  match o_icon o with
  | Some (IBool true) => Some (if o_native o then PNum 24 else PStr (lit "1em"))
  | Some (IString t) => Some (PStr t)
  | Some (INumber q) => Some (PNum q)
  | _ => None
  end.
Definition is_dimension (k : text) : bool := text_eqb k (lit "width") || text_eqb k (lit "height").
Definition own (s : env) (o : options) (given : list (text * option pval)) (ps : list (text * option pval)) (k : text) : option (option pval) :=
  if is_dimension k then
    match icon_value o with
    | Some v => Some (Some v)
    | None => if o_dimensions o then either (value_of k given) (value_of k ps) else None
    end
  else if o_desc o && text_eqb k (lit "aria-describedby") then Some (option_map PStr (e_name s (lit "descId")))
  else if o_title o && text_eqb k (lit "aria-labelledby") then Some (option_map PStr (e_name s (lit "titleId")))
  else if o_ref o && text_eqb k (lit "ref") then Some (option_map PStr (e_name s (lit "ref")))
  else either (value_of k given) (value_of k ps).
Definition final (s : env) (o : options) (given ps : list (text * option pval)) (k : text) : option (option pval) :=
  let spread := value_of k (e_spread s (lit "props")) in
  match o_expand o with Start => either (own s o given ps k) spread | End => either spread (own s o given ps k) | Nowhere => own s o given ps k end.
Definition svg_changed (s : env) (o : options) (given : list (text * option pval)) (d : dom) (r : list dom) : Prop :=
  exists n ps kids ps', d = DElem n ps kids /\ r = [DElem n ps' kids] /\ (NoDup (map fst ps) -> forall k, value_of k ps' = final s o given ps k).

(** The values of the properties of the configuration. *)
Definition jval (s : env) (vs : list (text * jvalue)) : list (text * option pval) := map (fun p => (fst p, eval s (snd p))) vs.
(** The title, and likewise the description.  If the document has one, it stays unless there is another; its id gives way to the one of the component.
    If there is none and one is given, it comes first in the svg element. *)
Definition shown_name (s : env) (x : text) : list dom := match e_name s x with Some (c :: t) => [DText (c :: t)] | _ => [] end.
Definition or_else (s : env) (id : text) (v : option pval) : option pval := if truthy (e_name s id) then option_map PStr (e_name s id) else v.
Inductive id_changed (s : env) (id : text) : list (text * option pval) -> list (text * option pval) -> option pval -> Prop :=
| id_here v l : id_changed s id ((lit "id", v) :: l) ((lit "id", or_else s id v) :: l) (or_else s id v)
| id_later n v l l' x : n <> lit "id" -> id_changed s id l l' x -> id_changed s id ((n, v) :: l) ((n, v) :: l') x
| id_none : id_changed s id [] [] (option_map PStr (e_name s id)).
Definition replaced (s : env) (tag id child : text) (d : dom) (r : list dom) : Prop :=
  exists ps kids ps' x, d = DElem tag ps kids /\ id_changed s id ps ps' x /\
    r = match e_name s child with None => [DElem tag ps' kids] | Some _ => [DElem tag [(lit "id", x)] (shown_name s child)] end.
Definition put_first (s : env) (tag id child : text) (d : dom) (r : list dom) : Prop :=
  exists n ps kids, d = DElem n ps kids /\
    r = [DElem n ps ((if truthy (e_name s child) then [DElem tag [(lit "id", option_map PStr (e_name s id))] (shown_name s child)] else []) ++ kids)].
Definition titled (s : env) (root tag id child : text) (l l' : list dom) : Prop :=
  at_first tag (replaced s tag id child) l l' \/ (without tag l /\ at_first root (put_first s tag id child) l l').
(** All of it, for components of the web. *)
Definition component (s : env) (o : options) (given : list (text * option pval)) (l l' : list dom) : Prop :=
  exists l1 l2, at_first (lit "svg") (svg_changed s o given) l l1 /\
    (if o_desc o then titled s (lit "svg") (lit "desc") (lit "descId") (lit "desc") l1 l2 else l1 = l2) /\
    (if o_title o then titled s (lit "svg") (lit "title") (lit "titleId") (lit "title") l2 l' else l2 = l').
(** No title or svg element is inside of a description. *)
Definition simple_desc (l : list dom) : Prop :=
  forall ps kids, In (DElem (lit "desc") ps kids) (flat_map elems l) -> without (lit "title") kids /\ without (lit "svg") kids.

(** ** Elements of JSX *)
Fixpoint jelems (j : jsx) : list jsx :=
  match j with
  | JElement _ _ _ kids _ => j :: flat_map jelems kids
  | JFragment kids => flat_map jelems kids
  | JWhen _ _ yes no => jelems yes ++ match no with Some j => jelems j | None => [] end
  | _ => []
  end.
Definition jname (j : jsx) : text := match j with JElement n _ _ _ _ => n | _ => [] end.
(** The same tree up to the values of attributes. *)
Inductive revalued (R : jvalue -> jvalue -> Prop) : jsx -> jsx -> Prop :=
| rv_element n attrs attrs' sc kids kids' cl :
    Forall2 (fun a b => match a, b with JAttr x v, JAttr y w => x = y /\ R v w | JSpread x, JSpread y => x = y | _, _ => False end) attrs attrs' ->
    Forall2 (revalued R) kids kids' -> revalued R (JElement n attrs sc kids cl) (JElement n attrs' sc kids' cl)
| rv_fragment kids kids' : Forall2 (revalued R) kids kids' -> revalued R (JFragment kids) (JFragment kids')
| rv_text t : revalued R (JText t) (JText t)
| rv_empty : revalued R JEmpty JEmpty.
(** Elements for which react-native has a component, and anything else; trees in which each element with a closing tag keeps a child. *)
Definition converts (k : jsx) : Prop := match k with JElement n _ _ _ _ => native_name n <> None | _ => True end.
Inductive keeps : jsx -> Prop :=
| k_other n a sc kids cl : native_name n = None -> keeps (JElement n a sc kids cl)
| k_element n a sc kids cl : (sc = false -> exists k, In k kids /\ converts k) -> Forall keeps kids -> keeps (JElement n a sc kids cl)
| k_fragment kids : Forall keeps kids -> keeps (JFragment kids)
| k_leaf j : match j with JElement _ _ _ _ _ | JFragment _ => False | _ => True end -> keeps j.
(** A text is replaced by the value of the map. *)
Definition replacement (vs : list (text * jvalue)) (v w : jvalue) : Prop :=
  match v with
  | JStr t => (exists k, In (t, k) vs /\ w = k) \/ (w = v /\ forall k, ~ In (t, k) vs)
  | _ => w = v
  end.
(** The code between the braces of a value is no expression. *)
Definition invalid (parse : text -> option text) (t : text) : Prop := exists c, t = 123%N :: c ++ [125%N] /\ parse c = None.
