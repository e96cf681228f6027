(** Model of attribute collections and class lists: crates/oxvg_ast/src/attribute.rs and
    class_list.rs, with the naming part of [Attr] (crates/oxvg_collections/src/attribute.rs). *)
From Coq Require Import String List NArith Bool Arith.
From Verif Require Import Chars NameModel AttrTable.
Import ListNotations.

(** Attribute values.  Simplification: the class list is kept as its tokens
    (core_attrs.rs [Class], list_of.rs [ListOf]); every other value is an opaque text (crates/oxvg_collections/src/attribute/core_attrs.rs:37, list_of.rs:201). *)
Inductive value : Type := VClasses (tokens : list text) | VOther (v : text).
(** collections attribute.rs 305-335 [Attr] without [Aliased]. *)
Inductive base_attr : Type :=
| Known (k : kind) (v : value)
| Unparsed (i : attr_id) (v : text)
| CSSUnknown (i : attr_id) (v : text).
(** collections attribute.rs 305-335 [Attr]; an alias of an alias is not representable. *)
Inductive attr : Type := Plain (a : base_attr) | Aliased (p : prefix) (a : base_attr).

(** collections attribute.rs 435-442 [Attr::name]. *)
Definition base_name (a : base_attr) : attr_id :=
  match a with Known k _ => ABase (BKnown k) | Unparsed i _ => i | CSSUnknown i _ => i end.
(** collections attribute.rs 435-442 [Attr::name]: the alias is dropped. *)
Definition attr_name (a : attr) : attr_id := match a with Plain a => base_name a | Aliased _ a => base_name a end.
(** collections attribute.rs 447-449 [Attr::local_name]. *)
Definition attr_local (a : attr) : text := id_local (attr_name a).
(** collections attribute.rs 454-460 [Attr::prefix]. *)
Definition attr_prefix (a : attr) : prefix :=
  match a with Plain a => id_prefix (base_name a) | Aliased p _ => p end.

(** attribute.rs 154-159 [get_named_item]. *)
Definition get_named_item (l : list attr) (i : attr_id) : option attr :=
  find (fun a => id_eqb (attr_name a) i) l.
(** attribute.rs 162-168 [get_named_item_local]. *)
Definition get_named_item_local (l : list attr) (local : text) : option attr :=
  find (fun a => prefix_is_empty (attr_prefix a) && text_eqb (attr_local a) local) l.
(** attribute.rs 171-177 [get_named_item_mut]. *)
Definition get_named_item_mut (l : list attr) (i : attr_id) : option attr :=
  find (fun a => prefix_eqb (attr_prefix a) (id_prefix i) && text_eqb (attr_local a) (id_local i)) l.
(** attribute.rs 180-190 [get_named_item_ns]. *)
Definition get_named_item_ns (l : list attr) (n : ns) (local : text) : option attr :=
  find (fun a => is_ns (attr_prefix a) n && text_eqb (attr_local a) local) l.
(** attribute.rs 212-216 [remove_named_item]: the new list and the removed attribute. *)
Fixpoint remove_named_item (l : list attr) (i : attr_id) : list attr * option attr :=
  match l with
  | [] => ([], None)
  | a :: l => if id_eqb (attr_name a) i then (l, Some a)
              else let (l', r) := remove_named_item l i in (a :: l', r)
  end.
(** attribute.rs 222-233 [set_named_item]: the new list and the replaced attribute. *)
Fixpoint set_named_item (l : list attr) (x : attr) : list attr * option attr :=
  match l with
  | [] => ([x], None)
  | a :: l =>
      if prefix_eqb (attr_prefix a) (attr_prefix x) && text_eqb (attr_local a) (attr_local x)
      then (x :: l, Some a)
      else let (l', r) := set_named_item l x in (a :: l', r)
  end.
(** attribute.rs 341-346 [retain]. *)
Definition retain (l : list attr) (f : attr -> bool) : list attr := filter f l.

(** attribute.rs 289-302 [get_ns_priority]. *)
Definition kind_eqb_id (b : base_id) (i : text) : bool :=
  match b with BKnown k => text_eqb (kind_id k) i | BUnknown _ => false end.
(** name.rs 7-12 [is_prefix!]. *)
Definition is_prefix (a : attr_id) (k : known) : bool :=
  match prefix_unaliased (id_prefix a) with PKnown k' => known_eqb k k' | _ => false end.
(** attribute.rs 289-302 [get_ns_priority]. *)
Definition get_ns_priority (a : attr_id) (xmlns_front : bool) : N :=
  if xmlns_front && kind_eqb_id (id_unaliased a) (lit "XMLNS") then 3
  else if xmlns_front && is_prefix a XMLNS then 2
  else if negb (is_prefix a SVG) then 1 else 0%N.
(** attribute.rs 313-320: the local name up to the first hyphen. *)
Fixpoint part (s : text) : text :=
  match s with
  | [] => []
  | c :: s => if N.eqb c 45 then [] else c :: part s
  end.
(** std [Iterator::position], as used at attribute.rs 322-323. *)
Fixpoint position (order : list text) (s : text) : option nat :=
  match order with
  | [] => None
  | x :: order => if text_eqb x s then Some 0
                  else option_map S (position order s)
  end.
(** attribute.rs 304-336: the comparator. *)
Definition attr_cmp (order : list text) (xmlns_front : bool) (a b : attr) : comparison :=
  let pa := get_ns_priority (attr_name a) xmlns_front in
  let pb := get_ns_priority (attr_name b) xmlns_front in
  if negb (N.eqb pa pb) then N.compare pb pa else
  let by_name := id_cmp (attr_name a) (attr_name b) in
  let part_a := part (attr_local a) in
  let part_b := part (attr_local b) in
  if negb (text_eqb part_a part_b) then
    match position order part_a, position order part_b with
    | Some i, Some j => Nat.compare i j
    | Some _, None => Lt
    | None, Some _ => Gt
    | None, None => by_name
    end
  else by_name.
(** std [slice::sort_by], called at attribute.rs 304: a stable sort.  Modelled by insertion;
    [C14_sort_by_unique] shows that every stable sorted permutation is this one, so the choice of
    algorithm is immaterial once the comparator is a total preorder. *)
Fixpoint insert_by {A} (cmp : A -> A -> comparison) (x : A) (l : list A) : list A :=
  match l with
  | [] => [x]
  | y :: r => match cmp x y with Gt => y :: insert_by cmp x r | _ => x :: l end
  end.
(** std [slice::sort_by] (called at attribute.rs:304). *)
Fixpoint stable_sort {A} (cmp : A -> A -> comparison) (l : list A) : list A :=
  match l with
  | [] => []
  | x :: r => insert_by cmp x (stable_sort cmp r)
  end.
(** attribute.rs 288-337 [sort]. *)
Definition sort_attributes (order : list text) (xmlns_front : bool) (l : list attr) : list attr :=
  stable_sort (attr_cmp order xmlns_front) l.

(* ------------------------------------------------------------------ class_list.rs *)

(** collections attribute.rs, the [Class] variant (crates/oxvg_collections/src/attribute.rs:861). *)
Definition class_kind : kind := mkKind (lit "Class") SVG (lit "class").
(** class_list.rs 33, 43: the pattern [Attr::Class(class)]. *)
Definition class_of (a : attr) : option (list text) :=
  match a with
  | Plain (Known k (VClasses t)) => if text_eqb (kind_id k) (lit "Class") then Some t else None
  | _ => None
  end.
(** class_list.rs 19-22 [ClassList]: the element's attributes and the memoised index. *)
Record class_list : Type := mkCL { cl_attrs : list attr; memo : nat }.

(** class_list.rs 39-50 [attr_by_search]: position and tokens. *)
Fixpoint search (l : list attr) : option (nat * list text) :=
  match l with
  | [] => None
  | a :: l => match class_of a with
              | Some t => Some (0, t)
              | None => option_map (fun '(i, t) => (S i, t)) (search l)
              end
  end.
(** class_list.rs 25-37 [attr]: by memo, else by search, which updates the memo. *)
Definition cl_attr (c : class_list) : class_list * option (nat * list text) :=
  match match nth_error (cl_attrs c) (memo c) with Some a => class_of a | None => None end with
  | Some t => (c, Some (memo c, t))
  | None =>
      match search (cl_attrs c) with
      | Some (i, t) => (mkCL (cl_attrs c) i, Some (i, t))
      | None => (c, None)
      end
  end.
(** Writing through the [RefMut] returned by [attr]: replace the tokens at the position (class_list.rs:25-37). *)
Fixpoint put (l : list attr) (i : nat) (t : list text) : list attr :=
  match l, i with
  | [], _ => []
  | _ :: l, 0 => Plain (Known class_kind (VClasses t)) :: l
  | a :: l, S i => a :: put l i t
  end.

(** class_list.rs 55-57 [length]. *)
Definition cl_length (c : class_list) : class_list * nat :=
  let (c, r) := cl_attr c in (c, match r with Some (_, t) => length t | None => 0 end).
(** class_list.rs 92-97 [contains]. *)
Definition cl_contains (c : class_list) (token : text) : class_list * bool :=
  let (c, r) := cl_attr c in
  (c, match r with Some (_, t) => existsb (fun x => text_eqb x token) t | None => false end).
(** class_list.rs 73-87 [add] (the debug assertion on whitespace is not modelled). *)
Definition cl_add (c : class_list) (token : text) : class_list :=
  let (c, b) := cl_contains c token in
  if b then c else
  let (c, r) := cl_attr c in
  match r with
  | None => mkCL (fst (set_named_item (cl_attrs c) (Plain (Known class_kind (VClasses [token]))))) (memo c)
  | Some (i, t) => mkCL (put (cl_attrs c) i (t ++ [token])) (memo c)
  end.
(** class_list.rs 112-120 [item]. *)
Definition cl_item (c : class_list) (n : nat) : class_list * option text :=
  let (c, r) := cl_attr c in (c, match r with Some (_, t) => nth_error t n | None => None end).
(** class_list.rs 131-140 [remove]. *)
Definition cl_remove (c : class_list) (token : text) : class_list :=
  let (c, r) := cl_attr c in
  match r with
  | None => c
  | Some (i, t) =>
      let t' := filter (fun x => negb (text_eqb x token)) t in
      let l := put (cl_attrs c) i t' in
      match t' with
      | [] => mkCL (fst (remove_named_item l (ABase (BKnown class_kind)))) (memo c)
      | _ => mkCL l (memo c)
      end
  end.
(** class_list.rs 151-157: replacement of the first occurrence. *)
Fixpoint replace_first (l : list text) (old new : text) : option (list text) :=
  match l with
  | [] => None
  | x :: l => if text_eqb x old then Some (new :: l) else option_map (cons x) (replace_first l old new)
  end.
(** class_list.rs 146-160 [replace]. *)
Definition cl_replace (c : class_list) (old new : text) : class_list * bool :=
  let (c, r) := cl_attr c in
  match r with
  | None => (c, false)
  | Some (i, t) =>
      match replace_first t old new with
      | None => (c, false)
      | Some t' => (mkCL (put (cl_attrs c) i t') (memo c), true)
      end
  end.
(** class_list.rs 165-173 [toggle]. *)
Definition cl_toggle (c : class_list) (token : text) : class_list * bool :=
  let (c, b) := cl_contains c token in
  if b then (cl_remove c token, false) else (cl_add c token, true).
(** class_list.rs 176-183 [retain]. *)
Definition cl_retain (c : class_list) (f : text -> bool) : class_list :=
  let (c, r) := cl_attr c in
  match r with
  | None => c
  | Some (i, t) => mkCL (put (cl_attrs c) i (filter f t)) (memo c)
  end.
(** list_of.rs 338-360 with [Space]: the class attribute as serialised. *)
Fixpoint join (sep : text) (l : list text) : text :=
  match l with
  | [] => []
  | [x] => x
  | x :: l => x ++ sep ++ join sep l
  end.
