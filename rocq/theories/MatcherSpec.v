(** What selectors mean (Selectors Level 4, CSS Namespaces), for a tree of nodes. *)
From Coq Require Import String List NArith ZArith Bool.
From Verif Require Import Chars NameModel ElemModel PruneSpec MatcherModel.
Import ListNotations.

(** The node at a place. *)
Inductive node_in (d : list tnode) : place -> tnode -> Prop :=
| top_in i n : nth_error d i = Some n -> node_in d [i] n
| under_in i p e a k n : node_in d p (TElem e a k) -> nth_error k i = Some n -> node_in d (i :: p) n.
Definition element_at (d : list tnode) (p : place) (e : elem_id) (attrs : list (attr_id * text)) : Prop := exists k, node_in d p (TElem e attrs k).
Definition element_in (d : list tnode) (p : place) : Prop := exists e a, element_at d p e a.
(** The nodes among which a place is. *)
Definition among (d : list tnode) (p : place) (l : list tnode) : Prop :=
  match p with [] => False | [_] => l = d | _ :: up => exists e a, node_in d up (TElem e a l) end.

Definition css_white (c : N) : Prop := In c [32; 9; 10; 12; 13]%N.
Definition space_of (p : prefix) : text := ns_uri (prefix_ns p).
Definition unprefixed (a : attr_id) : Prop := prefix_value (id_prefix a) = None.
Definition small (s : text) : text := map (fun c => if (65 <=? c)%N && (c <=? 90)%N then (c + 32)%N else c) s.

(** What the operators of attribute selectors ask of a value. *)
Definition op_means (o : attr_op) (s v : text) : Prop :=
  match o with
  | OEqual => v = s
  | OIncludes => s <> [] /\ Forall (fun c => ~ css_white c) s /\ exists x y, v = x ++ s ++ y /\ (x = [] \/ exists x' c, x = x' ++ [c] /\ css_white c) /\ (y = [] \/ exists c y', y = c :: y' /\ css_white c)
  | ODash => v = s \/ exists t, v = s ++ 45%N :: t
  | OPrefix => s <> [] /\ exists t, v = s ++ t
  | OSuffix => s <> [] /\ exists t, v = t ++ s
  | OSubstring => s <> [] /\ exists x y, v = x ++ s ++ y
  end.
(** Case matters unless the selector says otherwise. *)
Definition value_means (o : option (attr_op * text * option bool)) (v : text) : Prop :=
  match o with
  | None => True
  | Some (op, s, Some true) => op_means op (small s) (small v)
  | Some (op, s, _) => op_means op s v
  end.
Definition has_attr (d : list tnode) (p : place) (any : bool) (n : text) (P : text -> Prop) : Prop :=
  exists e attrs a v, element_at d p e attrs /\ In (a, v) attrs /\ (any = true \/ unprefixed a) /\ id_local a = n /\ P v.

(** [m] of the nodes of a list satisfy [P]. *)
Inductive counts (P : tnode -> Prop) : list tnode -> nat -> Prop :=
| counts_nil : counts P [] 0
| counts_yes n l m : P n -> counts P l m -> counts P (n :: l) (S m)
| counts_no n l m : ~ P n -> counts P l m -> counts P (n :: l) m.
(** An element, with the same name as another if the type is asked for. *)
Definition alike (t : bool) (e : elem_id) (n : tnode) : Prop :=
  match n with TElem f _ _ => t = true -> elem_local f = elem_local e /\ space_of (elem_prefix f) = space_of (elem_prefix e) | _ => False end.

(** What a component asks of the element at a place; [scope]: the element the search is from. *)
Fixpoint means (d : list tnode) (scope : option place) (s : simple) (p : place) : Prop :=
  match s with
  | SAny => True
  | SType n => exists e a, element_at d p e a /\ elem_local e = n
  | SId i => has_attr d p false (lit "id") (fun v => v = i)
  | SClass c => has_attr d p false (lit "class") (fun v => op_means OIncludes c v)
  | SAttr any n o => has_attr d p any n (value_means o)
  | SNot c => ~ (fix all (l : list simple) : Prop := match l with [] => True | s :: l => means d scope s p /\ all l end) c
  | SRoot => exists i, p = [i]
  | SEmpty => exists e a k, node_in d p (TElem e a k) /\ Forall (fun n => match n with TElem _ _ _ => False | TText t => Forall css_white t | TNote => True end) k
  | SNth t f a b => exists i up l e at_ m n, p = i :: up /\ among d p l /\ element_at d p e at_ /\
      counts (alike t e) (if f then skipn (S i) l else firstn i l) m /\ (0 <= n /\ a * n + b = 1 + Z.of_nat m)%Z
  | SScope => match scope with Some q => p = q | None => exists i, p = [i] end
  | SPseudo _ => False
  end.
(** The element [q] that the combinator leads to from [p]. *)
Definition leads (d : list tnode) (c : comb) (p q : place) : Prop :=
  match c with
  | Child => exists i, p = i :: q
  | Descendant => exists l, l <> [] /\ p = l ++ q
  | NextSibling => exists i j up, p = i :: up /\ q = j :: up /\ j < i /\ forall k, j < k < i -> ~ element_in d (k :: up)
  | LaterSibling => exists i j up, p = i :: up /\ q = j :: up /\ j < i
  end.
Fixpoint rest_means (d : list tnode) (scope : option place) (rest : list (comb * list simple)) (p : place) : Prop :=
  match rest with
  | [] => True
  | (c, s) :: rest => exists q, element_in d q /\ leads d c p q /\ Forall (fun s => means d scope s q) s /\ rest_means d scope rest q
  end.
Definition complex_means (d : list tnode) (scope : option place) (c : complex) (p : place) : Prop :=
  Forall (fun s => means d scope s p) (c_last c) /\ rest_means d scope (c_rest c) p.
Definition selects (d : list tnode) (scope : option place) (sel : list complex) (p : place) : Prop := Exists (fun c => complex_means d scope c p) sel.

(** Documents as they are usually: one root; prefixes that are bound; no attribute twice; the names id and class are recognised, an id is one word, and classes
    have single spaces between them. *)
Definition named (a : attr_id) (id : string) : Prop := exists k, id_unaliased a = BKnown k /\ kind_id k = lit id.
Definition usual_attr (a : attr_id) (v : text) : Prop :=
  (named a "Id" <-> unprefixed a /\ id_local a = lit "id") /\ (named a "Class" <-> unprefixed a /\ id_local a = lit "class") /\
  (named a "Id" -> word v) /\ (named a "Class" -> exists ws, v = spaced ws /\ Forall (fun w => word w /\ unquoted w) ws).
Definition usual_doc (d : list tnode) : Prop :=
  (forall i j, element_in d [i] -> element_in d [j] -> i = j) /\
  forall p e attrs, element_at d p e attrs ->
    (exists uri name, elem_prefix e = prefix_new uri name) /\
    NoDup (map (fun a => (prefix_value (id_prefix (fst a)), id_local (fst a))) attrs) /\ forall a v, In (a, v) attrs -> usual_attr a v.

(** Selectors that ask only for what is compared as it is written: names without capitals, attributes that print as they were written and whose case HTML does not
    ignore, any namespace only where there are no prefixes, and [:empty] only where there are neither comments nor unusual spaces. *)
Definition no_capitals (n : text) : Prop := small n = n.
Definition attr_somewhere (d : list tnode) (a : attr_id) (v : text) : Prop := exists p e attrs, element_at d p e attrs /\ In (a, v) attrs.
Fixpoint plain (d : list tnode) (show : attr_id -> text -> option text) (s : simple) : Prop :=
  match s with
  | SType n => no_capitals n
  | SAttr any n o => no_capitals n /\
      (forall a v, attr_somewhere d a v -> id_local a = n -> match o with None => show a v <> None | Some _ => show a v = Some v end) /\
      (any = true -> forall a v, attr_somewhere d a v -> id_local a = n -> unprefixed a) /\
      (any = false -> match o with Some (_, _, None) => ~ In n html_caseless | _ => True end)
  | SNot c => (fix all (l : list simple) : Prop := match l with [] => True | s :: l => plain d show s /\ all l end) c
  | SEmpty => forall p n, node_in d p n -> match n with TElem _ _ _ => True | TText t => Forall (fun c => is_whitespace c = true -> css_white c) t | TNote => False end
  | SPseudo _ => False
  | _ => True
  end.
(** Whether elements are counted, other than for the first and the last, or compared with the scope. *)
Fixpoint counting (s : simple) : bool :=
  match s with
  | SNth t _ a b => negb (Z.eqb a 0 && Z.eqb b 1 && negb t)
  | SScope => true
  | SNot c => (fix any (l : list simple) := match l with [] => false | s :: l => counting s || any l end) c
  | _ => false
  end.
Definition components (sel : list complex) : list simple := flat_map (fun c => c_last c ++ flat_map snd (c_rest c)) sel.
Definition all_plain (d : list tnode) show (sel : list complex) : Prop := Forall (plain d show) (components sel).
Definition none_counting (sel : list complex) : Prop := Forall (fun s => counting s = false) (components sel).
(** Elements are told apart. *)
Definition told_apart (d : list tnode) (opaque : place -> N) : Prop := forall p q, opaque p = opaque q -> p = q.
(** [p] is inside [q]. *)
Definition inside (p q : place) : Prop := exists l, l <> [] /\ p = l ++ q.
