(** What is drawn of a shape: its stroke and its fill, after CSS and SVG. *)
From Coq Require Import List Bool Arith.
From Verif Require Import CascadeModel CascadeSpec PaintModel.
Import ListNotations.

(** Properties that have to do with the stroke, the fill and the markers (numbers as in PaintModel). *)
Definition stroke_props : list prop := [0; 1; 2; 3; 4; 5; 6; 7].
Definition fill_props : list prop := [8; 9; 10].
Definition marker_props : list prop := [11; 12; 13].
Definition is_in (p : prop) (l : list prop) : bool := existsb (Nat.eqb p) l.

Section Look.
  Variable inheritable : prop -> bool.
  (** Whether a value is one (others are ignored), whether it is the keyword [inherit], and whether nothing is drawn with it ([none], 0). *)
  Variable valid : prop -> value -> bool.
  Variable inherits : prop -> value -> bool.
  Variable blank : prop -> value -> bool.

  Definition from (l : list (prop * value)) (p : prop) : option value := last_of (filter (valid p) (values p l)).
  Definition styled (f : block -> list (prop * value)) (e : elem) : list (prop * value) := match e_style e with Some b => f b | None => [] end.
  (** What the element itself says. *)
  Definition own (e : elem) (p : prop) : option value :=
    first_of [from (styled b_important e) p; from (styled b_normal e) p; from (e_attrs e) p].
  (** The value in use for an element and its ancestors, nearest first; [None]: the initial one. *)
  Fixpoint used (chain : list elem) (p : prop) : option value :=
    match chain with
    | [] => None
    | e :: rest =>
        match own e p with
        | Some v => if inherits p v then used rest p else Some v
        | None => if inheritable p then used rest p else None
        end
    end.
  Definition is_blank (chain : list elem) (p : prop) : bool := match used chain p with Some v => blank p v | None => false end.
  (** Is there a stroke? Its paint is [none] at first, its width and opacity 1. *)
  Definition stroked (chain : list elem) : bool :=
    match used chain 0 with Some v => negb (blank 0 v) | None => false end && negb (is_blank chain 1) && negb (is_blank chain 2).
  (** A fill? Its paint is black at first. *)
  Definition filled (chain : list elem) : bool := negb (is_blank chain 8) && negb (is_blank chain 9).
  Definition draws (chain : list elem) (p : prop) : bool := match used chain p with Some v => negb (blank p v) | None => false end.
  (** Markers? Their size and paint may depend on the stroke. *)
  Definition marked (chain : list elem) : bool := existsb (draws chain) marker_props.
  (** A shape looks the same: it is stroked as before if it was, it is filled as before if it was, and its other properties are the same. *)
  Definition same_look (a b : list elem) : Prop :=
    stroked a = stroked b /\ (stroked a || marked a = true -> forall p, is_in p stroke_props = true -> used a p = used b p) /\
    filled a = filled b /\ (filled a = true -> forall p, is_in p fill_props = true -> used a p = used b p) /\
    forall p, is_in p (stroke_props ++ fill_props) = false -> used a p = used b p.

  (** The shapes that are drawn, with their ancestors, in order.  What is in a shape is not drawn. *)
  Fixpoint shapes (ancestors : list elem) (d : doc) {struct d} : list (list elem) :=
    match d with
    | Doc true _ e _ => [e :: ancestors]
    | Doc false _ e kids => (fix go (l : list doc) := match l with [] => [] | k :: l => shapes (e :: ancestors) k ++ go l end) kids
    end.
  (** Attributes are of different names, declarations in a style attribute as well; a style attribute that has a paint has [none]; markers are at the end of lines
      that have a width. *)
  Definition no_paint (e : elem) (p : prop) : Prop :=
    forall v, In v (values p (styled b_important e ++ styled b_normal e)) -> valid p v = true -> inherits p v = false /\ blank p v = true.
  Definition plain (chain : list elem) : Prop :=
    match chain with
    | [] => True
    | e :: _ => NoDup (map fst (e_attrs e)) /\ NoDup (map fst (styled b_important e)) /\ NoDup (map fst (styled b_normal e)) /\
                no_paint e 0 /\ no_paint e 8 /\ (marked chain = true -> draws chain 13 = true /\ is_blank chain 1 = false)
    end.
End Look.
(** Elements with an id, each with all that is in it: other elements may refer to it. *)
Fixpoint identified (d : doc) {struct d} : list doc :=
  match d with
  | Doc _ true _ _ => [d]
  | Doc _ false _ kids => (fix go (l : list doc) := match l with [] => [] | k :: l => identified k ++ go l end) kids
  end.
(** During an animation a property of an element has another value. *)
Definition animated (p : prop) (v : value) (chain : list elem) : list elem :=
  match chain with
  | [] => []
  | e :: rest => mkElem (e_id e) (e_attrs e) (Some (mkBlock (styled b_important e ++ [(p, v)]) (styled b_normal e))) :: rest
  end.
