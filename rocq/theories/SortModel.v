(** sortAttrs and sortDefsChildren (crates/oxvg_optimiser/src/jobs/sort_attrs.rs, sort_defs_children.rs). *)
From Coq Require Import String List NArith Bool Arith.
From Verif Require Import Chars.
Import ListNotations.

(** [slice::sort_by] of the standard library, for at most twenty items: each is moved to the front while it is less than the one before
    (element.rs:684 and attribute.rs:304, crates/oxvg_ast/src).  For more items another algorithm gives the same, if the order is one, and may panic if it is not. *)
Section Sort.
  Context {A : Type}.
  (** The comparison that is given. *)
  Variable cmp : A -> A -> comparison.
  (** Insertion from the end; the last item comes first (element.rs:684, crates/oxvg_ast/src). *)
  Fixpoint insert_tail (x : A) (l : list A) : list A :=
    match l with
    | [] => [x]
    | y :: r => match cmp x y with Lt => y :: insert_tail x r | _ => x :: l end
    end.
  (** element.rs:684 and attribute.rs:304 (crates/oxvg_ast/src). *)
  Definition sort_by (l : list A) : list A := rev (fold_left (fun r x => insert_tail x r) l []).
End Sort.

(** Comparison of strings (atom.rs:100-104, crates/oxvg_collections/src). *)
Fixpoint text_cmp (a b : text) : comparison :=
  match a, b with
  | [], [] => Eq
  | [], _ => Lt
  | _, [] => Gt
  | x :: r, y :: s => match N.compare x y with Eq => text_cmp r s | c => c end
  end.
(** Comparison of prefixes by their names (name.rs:351-355, crates/oxvg_collections/src). *)
Definition prefix_cmp (a b : option text) : comparison :=
  match a, b with
  | None, None => Eq
  | None, Some _ => Lt
  | Some _, None => Gt
  | Some x, Some y => text_cmp x y
  end.
(** Prefixes by their namespace, as far as it is asked for (name.rs:311-334, crates/oxvg_collections/src). *)
Inductive space : Type := SVG | XMLNS | Other (uri : text).
(** A qualified name: the namespace, the name of the prefix, the local name (name.rs:265-273, crates/oxvg_collections/src). *)
Record name : Type := mkName { ns : space; prefix : option text; local : text }.
(** attribute.rs:525-531 and element.rs:310-316 (crates/oxvg_collections/src). *)
Definition name_cmp (a b : name) : comparison := match prefix_cmp (prefix a) (prefix b) with Eq => text_cmp (local a) (local b) | c => c end.

(** attribute.rs:289-302 (crates/oxvg_ast/src) [get_ns_priority]. *)
Definition ns_priority (front : bool) (a : name) : nat :=
  if front && match ns a with SVG => text_eqb (local a) (lit "xmlns") | _ => false end then 3
  else if front && match ns a with XMLNS => true | _ => false end then 2
  else match ns a with SVG => 0 | _ => 1 end.
(** [split_once('-')] and what comes before it, or all (attribute.rs:313-320, crates/oxvg_ast/src). *)
Fixpoint stem (t : text) : text := match t with [] => [] | c :: r => if N.eqb c 45 then [] else c :: stem r end.
(** [position] (attribute.rs:322-323, crates/oxvg_ast/src). *)
Fixpoint position (t : text) (l : list text) : option nat :=
  match l with [] => None | x :: r => if text_eqb x t then Some 0 else option_map S (position t r) end.
(** attribute.rs:304-336 (crates/oxvg_ast/src): the comparison. *)
Definition attr_cmp (order : list text) (front : bool) (a b : name) : comparison :=
  if negb (Nat.eqb (ns_priority front a) (ns_priority front b)) then Nat.compare (ns_priority front b) (ns_priority front a)
  else
    let sa := stem (local a) in
    let sb := stem (local b) in
    if text_eqb sa sb then name_cmp a b
    else match position sa order, position sb order with
         | Some i, Some j => Nat.compare i j
         | Some _, None => Lt
         | None, Some _ => Gt
         | None, None => name_cmp a b
         end.
(** sort_attrs.rs:79-82. *)
Definition default_order : list text :=
  map lit ["id"; "width"; "height"; "x"; "x1"; "x2"; "y"; "y1"; "y2"; "cx"; "cy"; "r"; "fill"; "stroke"; "marker"; "d"; "points"]%string.
(** sort_attrs.rs:64-76; attributes have a value.  [alphabetical]: [XMLNSOrder::Alphabetical] was asked for. *)
Definition sort_attrs (order : option (list text)) (alphabetical : bool) (l : list (name * text)) : list (name * text) :=
  sort_by (fun a b => attr_cmp (match order with Some o => o | None => default_order end) (negb alphabetical) (fst a) (fst b)) l.

(** The children of [defs]: elements, or other nodes; with what they have in them (sort_defs_children.rs:61-70). *)
Inductive child : Type := Elem (n : name) (content : nat) | Node (content : nat).
(** Names are equal if they have the same namespace and local name (element.rs:291-301, crates/oxvg_collections/src). *)
Definition same_name (a b : name) : bool :=
  match ns a, ns b with SVG, SVG | XMLNS, XMLNS => true | Other u, Other v => text_eqb u v | _, _ => false end && text_eqb (local a) (local b).
(** sort_defs_children.rs:61-69: how often a name occurs. *)
Definition frequency (l : list child) (n : name) : nat := length (filter (fun c => match c with Elem m _ => same_name m n | Node _ => false end) l).
(** The length of a name with its prefix (element.rs:278-283, crates/oxvg_collections/src); in characters rather than bytes. *)
Definition name_len (n : name) : nat := match prefix n with Some p => length p + 1 + length (local n) | None => length (local n) end.
(** sort_defs_children.rs:70-88; every name has a frequency. *)
Definition element_cmp (l : list child) (a b : name) : comparison :=
  match Nat.compare (frequency l b) (frequency l a) with
  | Eq => match Nat.compare (name_len b) (name_len a) with Eq => name_cmp b a | c => c end
  | c => c
  end.
(** element.rs:684-692 (crates/oxvg_ast/src): the comparison of children. *)
Definition child_cmp (l : list child) (a b : child) : comparison :=
  match a with
  | Node _ => Lt
  | Elem m _ => match b with Node _ => Gt | Elem n _ => element_cmp l m n end
  end.
(** sort_defs_children.rs:53-91, for the children of a [defs]. *)
Definition sort_defs (on : bool) (l : list child) : list child := if on then sort_by (child_cmp l) l else l.
