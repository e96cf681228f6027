(** What removing empty containers and useless definitions should leave. *)
From Coq Require Import String List NArith Bool.
From Verif Require Import Chars NameModel AttrTable ElemModel WalkSpec NodeModel ScriptsSpec.
Import ListNotations.

(** ** Empty containers *)
Definition white_text (d : ninfo) : bool := match d with NText t => forallb is_whitespace t | _ => false end.
Definition is_container (d : ninfo) : bool := match d with NElem e _ => contains (elem_cats e) 4 | _ => false end.
Definition no_attrs (d : ninfo) : bool := match d with NElem _ [] => true | _ => false end.

Section Containers.
  (** The elements with a filter. *)
  Variable filtered : nat -> bool.
  (** An empty container that may be there for a reason: the [svg] element, a [pattern] with attributes, a [mask] with an id,
      a group with a filter, and a branch of a [switch] (other than a pattern or a mask). *)
  Definition excused (above : ninfo) (n : nat) (d : ninfo) : bool :=
    node_is d (lit "Svg") || (node_is d (lit "Pattern") && negb (no_attrs d)) ||
    (node_is d (lit "Mask") && has_attr d (lit "Id")) || (node_is d (lit "G") && filtered n) ||
    (negb (node_is d (lit "Pattern")) && negb (node_is d (lit "Mask")) && node_is above (lit "Switch")).
  (** Nothing but white space and containers without an excuse. *)
  Fixpoint hollow (above : ninfo) (t : wtree ninfo) : bool :=
    match t with W n d kids =>
      white_text d || (is_container d && negb (excused above n d) && forallb (hollow d) kids)
    end.
  (** The document without its hollow elements. *)
  Fixpoint pruned (above : ninfo) (t : wtree ninfo) : list (wtree ninfo) :=
    match t with W n d kids =>
      if negb (is_elem d) then [t]
      else if hollow above t then []
      else [W n d (flat_map (pruned d) kids)]
    end.
  (** No element is an empty container without an excuse. *)
  Inductive lean (above : ninfo) : wtree ninfo -> Prop :=
  | Lean n d kids : is_container d && negb (excused above n d) && forallb (fun k => white_text (wdata k)) kids = false ->
      (is_elem d = true -> Forall (lean d) kids) -> lean above (W n d kids).
End Containers.

(** Neither a container nor white space. *)
Definition solid (d : ninfo) : bool := negb (is_container d) && negb (white_text d).
(** The nodes in document order. *)
Fixpoint nodes_of (t : wtree ninfo) : list (nat * ninfo) :=
  match t with W n d kids => (n, d) :: flat_map nodes_of kids end.

(** ** Definitions *)
(** An element that can be referred to or styled by id or class, or is itself a style sheet. *)
Definition marked (d : ninfo) : bool := has_attr d (lit "Id") || has_attr d (lit "Class").
Definition useful (d : ninfo) : bool := is_elem d && (node_is d (lit "Style") || marked d).
(** An element that is not drawn and cannot be referred to. *)
Definition never_drawn (d : ninfo) : bool := match d with NElem e _ => contains (elem_info e) 1 | _ => false end.
Definition unreferred (d : ninfo) : bool :=
  negb (marked d) && (node_is d (lit "Defs") || node_is d (lit "SolidColor") || never_drawn d).
(** Something useful among the elements of the tree. *)
Fixpoint has_useful (t : wtree ninfo) : bool :=
  match t with W _ d kids => useful d || (is_elem d && existsb has_useful kids) end.
(** What should be left, each node with its parent: all that is useful, everything else unless it is in an unreferred
    definition and not in something useful there, and the unreferred definitions with something useful. *)
Fixpoint survivors (parent : nat) (loose : bool) (t : wtree ninfo) : list row :=
  match t with W n d kids =>
    if useful d then (parent, n, d) :: flat_map (survivors n false) kids
    else if loose then (if is_elem d then flat_map (survivors parent true) kids else [])
    else if unreferred d then
      (if existsb has_useful kids then (parent, n, d) :: flat_map (survivors n true) kids else [])
    else (parent, n, d) :: flat_map (survivors n false) kids
  end.
(** The names of elements are what recognising some name gives. *)
Definition recognised (d : ninfo) : Prop := match d with NElem e _ => exists p local, e = elem_new p local | _ => True end.
