(** What JSX renders to, and when that is what a document shows. *)
From Coq Require Import String List NArith ZArith QArith Bool.
From Verif Require Import Chars NameModel AttrTable ElemModel TextSpec JsxNamesModel JsxModel.
Import ListNotations.

(** ** Rendering (https://facebook.github.io/jsx, https://react.dev) *)
Inductive pval : Type := PStr (t : text) | PBool (b : bool) | PNum (q : Q) | PObj (l : list (text * text)).
(** Rendered elements with the values of their properties, undefined as [None], and texts. *)
Inductive dom : Type := DElem (n : text) (props : list (text * option pval)) (kids : list dom) | DText (t : text).
(** What a component is called with: names, undefined or a text; the properties that are spread; the values of the expressions of the user; and the
    components in scope. *)
Record env : Type := mkEnv { e_name : text -> option text; e_spread : text -> list (text * option pval); e_user : text -> option pval; e_scope : list text }.
Definition truthy (v : option text) : bool := match v with None | Some [] => false | Some _ => true end.
Fixpoint eval (s : env) (v : jvalue) : option pval :=
  match v with
  | JStr t => Some (PStr t) | JBool b => Some (PBool b) | JNum q => Some (PNum q) | JObj l => Some (PObj l)
  | JIdent x => option_map PStr (e_name s x)
  | JOr x v => if truthy (e_name s x) then option_map PStr (e_name s x) else eval s v
  | JUser code => e_user s code
  end.
Definition eval_attrs (s : env) (l : list jattr) : list (text * option pval) :=
  flat_map (fun a => match a with JAttr n v => [(n, eval s v)] | JSpread x => e_spread s x end) l.

(** Lines of a text. *)
Fixpoint lines (s : text) : list text :=
  match s with
  | [] => [[]]
  | c :: r => if (N.eqb c 10 || N.eqb c 13)%bool then [] :: lines r
              else match lines r with l :: ls => (c :: l) :: ls | [] => [[c]] end
  end.
Fixpoint drop_spaces (s : text) : text := match s with c :: r => if N.eqb c 32 then drop_spaces r else s | [] => [] end.
(** One line: tabs are spaces, no spaces at the ends but at the ends of the text. *)
Definition line_text (first last : bool) (l : text) : text :=
  let l := map (fun c => if N.eqb c 9 then 32%N else c) l in
  let l := if first then l else drop_spaces l in
  if last then l else rev (drop_spaces (rev l)).
Definition blank_line (l : text) : bool := forallb (fun c => N.eqb c 32 || N.eqb c 9)%bool l.
(** Lines that are not blank are joined by a space. *)
Fixpoint join_lines (first : bool) (ls : list text) : text :=
  match ls with
  | [] => []
  | [l] => line_text first true l
  | l :: r => match line_text first false l with
              | [] => join_lines false r
              | t => if forallb blank_line r then t ++ join_lines false r else t ++ 32%N :: join_lines false r
              end
  end.
(** Characters that are not text in JSX: braces, angle brackets, and the ampersand of an entity. *)
Definition special (c : N) : bool := (N.eqb c 123 || N.eqb c 125 || N.eqb c 60 || N.eqb c 62 || N.eqb c 38)%bool.
Definition jsx_text (raw : text) : option text := if existsb special raw then None else Some (join_lines true (lines raw)).
(** A tag that is an element and not a component. *)
Definition intrinsic (n : text) : bool :=
  match n with c :: _ => ((97 <=? c) && (c <=? 122))%N || existsb (N.eqb 45) n | [] => false end && negb (existsb (N.eqb 46) n).
Fixpoint seq {A} (l : list (option (list A))) : option (list A) :=
  match l with
  | [] => Some []
  | Some a :: r => match seq r with Some b => Some (a ++ b) | None => None end
  | None :: _ => None
  end.
(** Texts that are next to each other are one text when they are printed. *)
Fixpoint pairs_apart (l : list jsx) : bool :=
  match l with
  | JText _ :: ((JText _ :: _) as r) => false
  | _ :: r => pairs_apart r
  | [] => true
  end.
Definition apart (l : list jsx) : bool := pairs_apart (filter (fun j => match j with JText [] => false | _ => true end) l).
(** What is rendered; [None] if this is no program or not the one that the tree says. *)
Fixpoint render (s : env) (j : jsx) {struct j} : option (list dom) :=
  match j with
  | JElement n attrs self_closing kids closing =>
      if (intrinsic n || existsb (text_eqb n) (e_scope s)) && (if self_closing then none_left kids && none_left (match closing with Some _ => [tt] | None => [] end)
          else match closing with Some m => text_eqb m n | None => false end)
        && apart kids
      then match seq (map (render s) kids) with Some l => Some [DElem n (eval_attrs s attrs) l] | None => None end
      else None
  | JFragment kids => if apart kids then seq (map (render s) kids) else None
  | JText raw => match jsx_text raw with Some [] => Some [] | Some t => Some [DText t] | None => None end
  | JEmpty => Some []
  | JName x => Some (match e_name s x with Some (c :: t) => [DText (c :: t)] | _ => [] end)
  | JWhen undefined x yes no =>
      if (if undefined then match e_name s x with None => true | Some _ => false end else truthy (e_name s x)) then render s yes
      else match no with Some j => render s j | None => Some [] end
  end.

(** ** What a document shows *)
Inductive shown (camel : text -> text) : value -> pval -> Prop :=
| sh_bool b : shown camel (VBool b) (PBool b)
| sh_tri b : shown camel (VTri (Some b)) (PBool b)
| sh_undefined : shown camel (VTri None) (PStr (lit "undefined"))
| sh_num q : shown camel (VNum q) (PNum q)
| sh_int z : shown camel (VInt z) (PNum (inject_Z z))
| sh_px q : shown camel (VPx q) (PNum q)
| sh_style normal l : Forall2 (fun d p => snd d = snd p /\ fst p = if fst (fst d) : bool then snd (fst d) else camel (snd (fst d))) normal l -> shown camel (VStyle normal []) (PObj l)
| sh_other t : shown camel (VOther t) (PStr t).
(** The properties for the attributes: those without a name in JSX (C95) are left out, and so is the namespace of an svg element. *)
Inductive props_of (uni : N -> bool) (camel : text -> text) (svg : bool) : list (attr_id * value) -> list (text * option pval) -> Prop :=
| p_nil : props_of uni camel svg [] []
| p_keep a v n p l ps : jsx_name uni a = Named n -> shown camel v p -> props_of uni camel svg l ps -> props_of uni camel svg ((a, v) :: l) ((n, Some p) :: ps)
| p_drop a v e l ps : jsx_name uni a = Dropped e -> props_of uni camel svg l ps -> props_of uni camel svg ((a, v) :: l) ps
| p_xmlns a v k l ps : svg = true -> id_unaliased a = BKnown k -> kind_id k = lit "XMLNS" -> props_of uni camel svg l ps -> props_of uni camel svg ((a, v) :: l) ps.
Definition same_words (s t : text) : Prop := forall ws, words_of s ws <-> words_of t ws.
(** The rendered nodes show the document: elements in order with their attributes; texts up to white space; comments, instructions and
    elements of other namespaces with a prefix not at all. *)
Inductive same (uni : N -> bool) (camel : text -> text) : xnode -> list dom -> Prop :=
| s_document kids l : sames uni camel kids l -> same uni camel (XDocument kids) l
| s_element e attrs kids ps l : prefix_value (elem_prefix e) = None -> props_of uni camel (elem_is e (lit "Svg")) attrs ps -> sames uni camel kids l ->
    same uni camel (XElement e attrs kids) [DElem (elem_local e) ps l]
| s_foreign e attrs kids : prefix_value (elem_prefix e) <> None -> prefix_ns (elem_prefix e) <> NSKnown SVG -> same uni camel (XElement e attrs kids) []
| s_text t u : same_words t u -> u <> [] -> same uni camel (XText (Some t)) [DText u]
| s_blank t : words_of t [] -> same uni camel (XText (Some t)) []
| s_none : same uni camel (XText None) []
| s_comment t : same uni camel (XComment t) []
| s_pi t : same uni camel (XPI t) []
| s_style t u : same_words t u -> u <> [] -> same uni camel (XStyle t) [DText u]
| s_style_blank t : words_of t [] -> same uni camel (XStyle t) []
with sames (uni : N -> bool) (camel : text -> text) : list xnode -> list dom -> Prop :=
| ss_nil : sames uni camel [] []
| ss_cons n l ns ms : same uni camel n l -> sames uni camel ns ms -> sames uni camel (n :: ns) (l ++ ms).

(** Documents that JSX can show: no SVG element with a prefix, no name of a component, no important declaration, no special character in a text,
    no instruction with a value inside an element. *)
Definition plain (t : text) : Prop := Forall (fun c => special c = false) t.
Definition unimportant (a : attr_id * value) : Prop := match snd a with VStyle _ (_ :: _) => False | _ => True end.
(** Nodes that are texts, and nodes without anything to show. *)
Definition texty (n : xnode) : bool := match n with XText (Some _) | XStyle _ => true | _ => false end.
Definition blank (n : xnode) : bool :=
  match n with XText (Some t) | XPI (Some t) => forallb is_whitespace t | XStyle [] => true | _ => false end.
(** Between two texts there is something else. *)
Fixpoint spaced_out (l : list xnode) : Prop :=
  match l with a :: ((b :: _) as r) => (texty a && texty b = false) /\ spaced_out r | _ => True end.
Definition spaced (l : list xnode) : Prop := spaced_out (filter (fun n => negb (blank n)) l).
Inductive tame : xnode -> Prop :=
| t_document kids : Forall (fun k => (exists e attrs ks, k = XElement e attrs ks) -> tame k) kids ->
    Forall (fun k => match k with XDocument _ | XStyle _ => False | XText (Some t) => Forall white t | _ => True end) kids -> tame (XDocument kids)
| t_element e attrs kids : prefix_value (elem_prefix e) = None -> intrinsic (elem_local e) = true -> Forall unimportant attrs ->
    Forall tame kids -> Forall (fun k => match k with XDocument _ => False | _ => True end) kids -> spaced kids -> tame (XElement e attrs kids)
| t_foreign e attrs kids : prefix_value (elem_prefix e) <> None -> prefix_ns (elem_prefix e) <> NSKnown SVG -> tame (XElement e attrs kids)
| t_text t : plain t -> tame (XText (Some t))
| t_none : tame (XText None)
| t_comment t : tame (XComment t)
| t_pi t : Forall white t -> tame (XPI (Some t))
| t_pi_none : tame (XPI None)
| t_style t : plain t -> tame (XStyle t).
(** The text that is shown. *)
Fixpoint shown_text (d : dom) : text := match d with DElem _ _ kids => flat_map shown_text kids | DText t => t end.
(** The text of a document. *)
Fixpoint text_content (n : xnode) : text :=
  match n with
  | XDocument kids | XElement _ _ kids => flat_map text_content kids
  | XText (Some t) => t
  | _ => []
  end.
(** Nothing is left out of the program: each tag is closed. *)
Inductive closed : jsx -> Prop :=
| c_empty n attrs : closed (JElement n attrs true [] None)
| c_element n attrs kids : Forall closed kids -> closed (JElement n attrs false kids (Some n))
| c_fragment kids : Forall closed kids -> closed (JFragment kids)
| c_text t : closed (JText t)
| c_nothing : closed JEmpty
| c_name x : closed (JName x)
| c_when u x yes no : closed yes -> (forall j, no = Some j -> closed j) -> closed (JWhen u x yes no).
