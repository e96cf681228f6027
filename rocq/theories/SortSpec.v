(** What sorting is. *)
From Coq Require Import String List NArith Bool Arith Sorting.Permutation.
From Verif Require Import Chars SortModel.
Import ListNotations.

(** What the standard library asks of a comparison: a total order, up to items that are equal. *)
Definition order_like {A : Type} (cmp : A -> A -> comparison) : Prop :=
  (forall x y, cmp y x = CompOpp (cmp x y)) /\ (forall c x y z, cmp x y = c -> cmp y z = c -> cmp x z = c).
(** One item is before another. *)
Definition before {A : Type} (l : list A) (a b : A) : Prop := exists l1 l2 l3, l = l1 ++ a :: l2 ++ b :: l3.
(** The value of an attribute. *)
Definition get (l : list (name * text)) (n : name) : list text := map snd (filter (fun a => same_name (fst a) n) l).
(** Attributes of one element have different qualified names. *)
Definition qualified (n : name) : option text * text := (prefix n, local n).
Definition well_formed (l : list (name * text)) : Prop := NoDup (map (fun a => qualified (fst a)) l).
(** The first element with an id is the one that is referred to; contents have ids. *)
Definition refers (ids : nat -> option nat) (l : list child) (i : nat) : option child :=
  find (fun c => match c with Elem _ x => match ids x with Some j => Nat.eqb i j | None => false end | Node _ => false end) l.
Definition ids_of (ids : nat -> option nat) (l : list child) : list nat :=
  flat_map (fun c => match c with Elem _ x => match ids x with Some j => [j] | None => [] end | Node _ => [] end) l.
Definition is_elem (c : child) : bool := match c with Elem _ _ => true | Node _ => false end.
(** Nodes that are not elements: their content. *)
Definition others (l : list child) : list nat := flat_map (fun c => match c with Node x => [x] | Elem _ _ => [] end) l.
(** A listed name stands for itself and for names that go on with a hyphen. *)
Definition stands_for (s t : text) : Prop := ~ In 45%N s /\ (t = s \/ exists r, t = s ++ 45%N :: r).
(** Alphabetical order. *)
Definition alphabetical (a b : text) : Prop := (exists r, b = a ++ r) \/ exists p x y r s, a = p ++ x :: r /\ b = p ++ y :: s /\ (x < y)%N.
(** Attributes that are neither of other namespaces nor declarations of namespaces. *)
Definition ordinary (n : name) : Prop := ns n = SVG /\ local n <> lit "xmlns".
Definition declares (n : name) : Prop := ns n = XMLNS \/ (ns n = SVG /\ local n = lit "xmlns").
(** How many elements have the namespace and the local name. *)
Definition same_space (a b : space) : bool := match a, b with SVG, SVG | XMLNS, XMLNS => true | Other u, Other v => text_eqb u v | _, _ => false end.
Fixpoint times (n : name) (l : list child) : nat :=
  match l with
  | [] => 0
  | Elem m _ :: r => (if same_space (ns m) (ns n) && text_eqb (local m) (local n) then 1 else 0) + times n r
  | Node _ :: r => times n r
  end.
(** Elements with exactly this name. *)
Definition named (n : name) (c : child) : bool :=
  match c with
  | Elem m _ => same_space (ns m) (ns n) && text_eqb (local m) (local n) && match prefix m, prefix n with None, None => true | Some p, Some q => text_eqb p q | _, _ => false end
  | Node _ => false
  end.
