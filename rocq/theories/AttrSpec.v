(** Independent vocabulary for the name, attribute and class-list properties. *)
From Coq Require Import String List NArith Bool Arith.
From Verif Require Import Chars NameModel AttrModel.
Import ListNotations.

(** A comparator that may be used for sorting. *)
Definition total_preorder {A} (cmp : A -> A -> comparison) : Prop :=
  (forall x y, cmp y x = CompOpp (cmp x y)) /\
  (forall x y z, cmp x y <> Gt -> cmp y z <> Gt -> cmp x z <> Gt).
(** A boolean equivalence. *)
Definition equivalence {A} (eqb : A -> A -> bool) : Prop :=
  (forall x, eqb x x = true) /\ (forall x y, eqb y x = eqb x y) /\
  (forall x y z, eqb x y = true -> eqb y z = true -> eqb x z = true).

(** Every item is followed only by items that are not smaller. *)
Fixpoint ordered {A} (cmp : A -> A -> comparison) (l : list A) : Prop :=
  match l with
  | [] => True
  | x :: r => (forall y, In y r -> cmp x y <> Gt) /\ ordered cmp r
  end.
(** Items that compare equal keep their relative order. *)
Definition stable {A} (cmp : A -> A -> comparison) (before after : list A) : Prop :=
  forall x, filter (fun y => match cmp x y with Eq => true | _ => false end) after =
            filter (fun y => match cmp x y with Eq => true | _ => false end) before.

(** The namespace a prefix stands for: an unprefixed name without a namespace counts as SVG. *)
Definition namespace (uri : text) (name : option text) : text :=
  match uri, name with [], None => lit "http://www.w3.org/2000/svg" | _, _ => uri end.

(** The prefixes of one document, as declared: a list of (name, uri) pairs. *)
Definition declared (scope : list (option text * text)) (p : prefix) : Prop :=
  exists name uri, In (name, uri) scope /\ p = prefix_new uri name.
(** One uri per name and one name per uri. *)
Definition one_to_one (scope : list (option text * text)) : Prop :=
  forall n u n' u', In (n, u) scope -> In (n', u') scope ->
  (n = n' <-> namespace u n = namespace u' n').

(* ------------------------------------------------------------------ attributes *)

(** Edits of an attribute list. *)
Inductive edit : Type := ESet (a : attr) | ERemove (i : attr_id) | ERetain (f : attr -> bool).
Definition apply_edit (l : list attr) (e : edit) : list attr :=
  match e with
  | ESet a => fst (set_named_item l a)
  | ERemove i => fst (remove_named_item l i)
  | ERetain f => retain l f
  end.

(** The names mentioned by an edit. *)
Definition edit_names (e : edit) : list attr_id :=
  match e with ESet a => [attr_name a] | ERemove i => [i] | ERetain _ => [] end.
(** Two ids with the same namespace and local name. *)
Definition same_name (i j : attr_id) : bool :=
  prefix_eqb (id_prefix i) (id_prefix j) && text_eqb (id_local i) (id_local j).
(** What reading a name should give after one more edit, given what it gave before. *)
Definition expect (i : attr_id) (now : option attr) (e : edit) : option attr :=
  match e with
  | ESet a => if same_name (attr_name a) i then Some a else now
  | ERemove j => if same_name j i then None else now
  | ERetain f => match now with Some a => if f a then Some a else None | None => None end
  end.

(** The namespaces of a prefix are ones the parser makes. *)
Fixpoint prefix_ok (p : prefix) : Prop :=
  match p with
  | PKnown _ => True
  | PUnknown _ (NSUnknown _) => True
  | PUnknown _ (NSKnown _) => False
  | PAliased p _ => prefix_ok p
  end.
(** The attributes an edit puts in. *)
Definition edit_attrs (e : edit) : list attr := match e with ESet a => [a] | _ => [] end.
(** The alias of an attribute is for the namespace of its name. *)
Definition alias_ok (a : attr) : Prop :=
  prefix_ok (attr_prefix a) /\ prefix_ok (id_prefix (attr_name a)) /\
  prefix_eqb (attr_prefix a) (id_prefix (attr_name a)) = true.
(** Within these names, being the same id and having the same qualified name is the same thing. *)
Definition coherent (names : list attr_id) : Prop :=
  Forall (fun i => prefix_ok (id_prefix i)) names /\
  forall i j, In i names -> In j names -> id_eqb i j = same_name i j.
(** No two attributes share a name. *)
Fixpoint distinct_names (l : list attr) : Prop :=
  match l with
  | [] => True
  | a :: l => (forall b, In b l -> same_name (attr_name a) (attr_name b) = false) /\ distinct_names l
  end.

(** The documented sort key: xmlns, then xmlns-prefixed, then other prefixed, then plain names;
    then the position of the part before the hyphen in the order list, listed names first; then
    the prefix and local name alphabetically. *)
Definition group (front : bool) (a : attr) : nat :=
  match id_unaliased (attr_name a), prefix_unaliased (id_prefix (attr_name a)) with
  | BKnown k, p =>
      if front && text_eqb (kind_id k) (lit "XMLNS") then 0
      else match p with PKnown XMLNS => if front then 1 else 2 | PKnown SVG => 3 | _ => 2 end
  | BUnknown _, p => match p with PKnown XMLNS => if front then 1 else 2 | PKnown SVG => 3 | _ => 2 end
  end.
Fixpoint rank (order : list text) (s : text) : nat :=
  match order with
  | [] => 0
  | x :: order => if text_eq_dec x s then 0 else S (rank order s)
  end.
Definition shown_name (a : attr) : option text * text :=
  (prefix_value (id_prefix (attr_name a)), attr_local a).
Definition key_cmp (order : list text) (front : bool) (a b : attr) : comparison :=
  match Nat.compare (group front a) (group front b) with
  | Eq => match Nat.compare (rank order (part (attr_local a))) (rank order (part (attr_local b))) with
          | Eq => match option_cmp (fst (shown_name a)) (fst (shown_name b)) with
                  | Eq => text_cmp (snd (shown_name a)) (snd (shown_name b))
                  | c => c
                  end
          | c => c
          end
  | c => c
  end.

(* ------------------------------------------------------------------ class lists *)

(** The class tokens an element has according to its attributes. *)
Definition tokens (l : list attr) : list text :=
  match get_named_item l (ABase (BKnown class_kind)) with
  | Some (Plain (Known _ (VClasses t))) => t
  | _ => []
  end.
(** The class attribute, if present, is a parsed, unaliased one, and there is at most one. *)
Definition class_ok (l : list attr) : Prop :=
  distinct_names l /\
  (forall a, In a l -> same_name (attr_name a) (ABase (BKnown class_kind)) = true ->
     exists t, a = Plain (Known class_kind (VClasses t))) /\
  (forall a, In a l -> same_name (attr_name a) (ABase (BKnown class_kind)) = false ->
     id_eqb (attr_name a) (ABase (BKnown class_kind)) = false) /\
  Forall alias_ok l.

Inductive class_edit : Type :=
| CAdd (t : text) | CRemove (t : text) | CToggle (t : text) | CReplace (old new : text)
| CRetain (f : text -> bool) | CContains (t : text) | CLength | CItem (n : nat).
Inductive answer : Type := ANone | ABool (b : bool) | ANat (n : nat) | AText (t : option text).
Definition class_step (c : class_list) (e : class_edit) : class_list * answer :=
  match e with
  | CAdd t => (cl_add c t, ANone)
  | CRemove t => (cl_remove c t, ANone)
  | CToggle t => let (c, b) := cl_toggle c t in (c, ABool b)
  | CReplace old new => let (c, b) := cl_replace c old new in (c, ABool b)
  | CRetain f => (cl_retain c f, ANone)
  | CContains t => let (c, b) := cl_contains c t in (c, ABool b)
  | CLength => let (c, n) := cl_length c in (c, ANat n)
  | CItem n => let (c, t) := cl_item c n in (c, AText t)
  end.
Fixpoint class_run (c : class_list) (es : list class_edit) : class_list * list answer :=
  match es with
  | [] => (c, [])
  | e :: es => let (c, a) := class_step c e in let (c, r) := class_run c es in (c, a :: r)
  end.

(** The same operations on a plain list of tokens. *)
Fixpoint swap_first (old new : text) (l : list text) : list text :=
  match l with
  | [] => []
  | x :: l => if text_eq_dec x old then new :: l else x :: swap_first old new l
  end.
Definition token_step (l : list text) (e : class_edit) : list text * answer :=
  match e with
  | CAdd t => (if in_dec text_eq_dec t l then l else l ++ [t], ANone)
  | CRemove t => (remove text_eq_dec t l, ANone)
  | CToggle t => if in_dec text_eq_dec t l then (remove text_eq_dec t l, ABool false)
                 else (l ++ [t], ABool true)
  | CReplace old new => (swap_first old new l, ABool (if in_dec text_eq_dec old l then true else false))
  | CRetain f => (filter f l, ANone)
  | CContains t => (l, ABool (if in_dec text_eq_dec t l then true else false))
  | CLength => (l, ANat (length l))
  | CItem n => (l, AText (nth_error l n))
  end.
Fixpoint token_run (l : list text) (es : list class_edit) : list text * list answer :=
  match es with
  | [] => (l, [])
  | e :: es => let (l, a) := token_step l e in let (l, r) := token_run l es in (l, a :: r)
  end.
(** A string that is one class token. *)
Definition is_token (t : text) : Prop := t <> [] /\ forallb (fun c => negb (is_whitespace c)) t = true.
(** The attributes other than the class. *)
Definition others (l : list attr) : list attr :=
  filter (fun a => negb (same_name (attr_name a) (ABase (BKnown class_kind)))) l.
(** Not a replacement. *)
Definition no_replace (e : class_edit) : Prop := match e with CReplace _ _ => False | _ => True end.
