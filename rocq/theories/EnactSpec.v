(** What acting on a selection means (the documentation of the actions, crates/oxvg_actions/src/spec; SVG 1.1 for who takes a
    transform; CSS for importance), apart from the model's functions. *)
From Coq Require Import String List NArith ZArith Bool Arith.
From Verif Require Import Chars ActionModel EnactModel.
Import ListNotations.

(** An id names a node; a selection names it, and does so once. *)
Definition names (table : list nat) (id : Z) (n : nat) : Prop := (0 <= id)%Z /\ nth_error table (Z.to_nat id) = Some n.
Definition named (table : list nat) (ids : list Z) (n : nat) : Prop := exists id, In id ids /\ names table id n.
Definition named_once (table : list nat) (ids : list Z) (n : nat) : Prop :=
  exists a id b, ids = a ++ id :: b /\ names table id n /\ ~ named table (a ++ b) n.

Section Spec.
  Context {num decl path : Type}.
  Notation node := (@node num decl path).
  Notation action := (@action num).
  (** Attributes have different names, and only [class] has classes. *)
  Definition well (d : list node) : Prop :=
    Forall (fun n => NoDup (map fst (n_attrs n)) /\ forall x l, In (x, Classes l) (n_attrs n) -> x = lit "class") d.
  Definition is_element (n : node) : Prop := n_name n <> None.
  (** The attribute that an action is about. *)
  Inductive about : action -> text -> Prop :=
  | about_attr x v : about (Attr x v) x
  | about_class c : about (Class c) (lit "class")
  | about_style p v : about (Style p v) (lit "style")
  | about_matrix a b c d e f : about (Matrix a b c d e f) (lit "transform")
  | about_translate x y : about (Translate x y) (lit "transform")
  | about_scale x y : about (Scale x y) (lit "transform")
  | about_rotate a o : about (Rotate a o) (lit "transform")
  | about_skew_x x : about (SkewX x) (lit "transform")
  | about_skew_y y : about (SkewY y) (lit "transform").
  (** Nothing but the attribute [x] of the elements [which] is other than it was. *)
  Definition only (x : text) (which : nat -> Prop) (d d' : list node) : Prop :=
    List.length d' = List.length d /\
    forall n m, nth_error d n = Some m ->
      exists m', nth_error d' n = Some m' /\ n_name m' = n_name m /\ n_kids m' = n_kids m /\
        (~ (which n /\ is_element m) -> m' = m) /\
        NoDup (map fst (n_attrs m')) /\ forall y v, y <> x -> (In (y, v) (n_attrs m') <-> In (y, v) (n_attrs m)).

  (** The function a transform action stands for, with its defaults. *)
  Inductive asked (zero : num) : action -> tf (num := num) -> Prop :=
  | asked_matrix a b c d e f : asked zero (Matrix a b c d e f) (TMatrix a b c d e f)
  | asked_translate x y : asked zero (Translate x (Some y)) (TTranslate x y)
  | asked_translate1 x : asked zero (Translate x None) (TTranslate x zero)
  | asked_scale x y : asked zero (Scale x (Some y)) (TScale x y)
  | asked_scale1 x : asked zero (Scale x None) (TScale x x)
  | asked_rotate a x y : asked zero (Rotate a (Some (x, y))) (TRotate a x y)
  | asked_rotate1 a : asked zero (Rotate a None) (TRotate a zero zero)
  | asked_skew_x x : asked zero (SkewX x) (TSkewX x)
  | asked_skew_y y : asked zero (SkewY y) (TSkewY y).
  (** No attribute of that name. *)
  Definition lacks (m : node) (x : text) : Prop := ~ In x (map fst (n_attrs m)).
  (** The transforms, classes and declarations of a node. *)
  Definition transforms (m : node) (l : list tf) : Prop :=
    In (lit "transform", Transforms (Some l)) (n_attrs m) \/
    (l = [] /\ (In (lit "transform", Transforms None) (n_attrs m) \/ lacks m (lit "transform"))).
  Definition classes (m : node) (l : list text) : Prop :=
    In (lit "class", Classes l) (n_attrs m) \/ (l = [] /\ lacks m (lit "class")).
  Definition declares (m : node) (i n : list decl) : Prop :=
    In (lit "style", Declared i n) (n_attrs m) \/ (i = [] /\ n = [] /\ lacks m (lit "style")).
  (** The declaration that wins among those of an attribute: the last important one, or else the last one. *)
  Variable property_of : decl -> text.
  Definition last_of (p : text) (l : list decl) (x : decl) : Prop :=
    exists a b, l = a ++ x :: b /\ property_of x = p /\ Forall (fun y => property_of y <> p) b.
  Definition none_of (p : text) (l : list decl) : Prop := Forall (fun y => property_of y <> p) l.
  Definition wins (p : text) (i n : list decl) (x : decl) : Prop := last_of p i x \/ (none_of p i /\ last_of p n x).

  (** A path that can be merged: without prefix, with data, without children. *)
  Definition leaf_path (d : list node) (n : nat) (p : path) : Prop :=
    exists m, nth_error d n = Some m /\ n_name m = Some (EName None (lit "path") true) /\ n_kids m = [] /\ In (lit "d", Data p) (n_attrs m).
  (** The paths that ids select, in their order, with their data. *)
  Inductive selects (table : list nat) (d : list node) : list Z -> list (nat * path) -> Prop :=
  | selects_nil : selects table d [] []
  | selects_skip id ids l : (forall n p, names table id n -> ~ leaf_path d n p) -> selects table d ids l -> selects table d (id :: ids) l
  | selects_take id ids l n p : names table id n -> leaf_path d n p -> selects table d ids l -> selects table d (id :: ids) ((n, p) :: l).
  (** One path after the other is merged into the first; what comes out is evenodd. *)
  Fixpoint merged (op : path * bool -> path * bool -> path) (p : path * bool) (l : list (path * bool)) : path * bool :=
    match l with [] => p | q :: l => merged op (op p q, true) l end.
  (** A list without some of its members. *)
  Definition apart_from (ks l : list nat) : list nat := filter (fun j => if in_dec Nat.eq_dec j ks then false else true) l.
  (** A path as it goes into a merge: its data and whether its fill rule is evenodd. *)
  Definition as_given (from_svg : path -> path) (evenodd : list node -> nat -> bool) (d : list node) (x : nat * path) : path * bool := (from_svg (snd x), evenodd d (fst x)).
End Spec.

(** The elements with a transform attribute (SVG 1.1, the attribute index). *)
Definition transformed_elements : list string :=
  ["a"; "circle"; "clipPath"; "defs"; "ellipse"; "foreignObject"; "g"; "image"; "line"; "path"; "polygon"; "polyline"; "rect"; "switch"; "text"; "use"]%string.
(** The elements that may be in a rect (SVG 2, 10.2). *)
Definition rect_content : list string :=
  ["animate"; "animateMotion"; "animateTransform"; "animateColor"; "discard"; "set"; "desc"; "title"; "metadata"; "linearGradient"; "radialGradient"; "pattern";
   "meshgradient"; "hatch"; "solidcolor"; "clipPath"; "marker"; "mask"; "script"; "style"]%string.
(** White space, and small letters. *)
Definition blank (s : text) : Prop := Forall (fun c => c = 32%N \/ (9 <= c <= 13)%N) s.
Definition small (c : N) : N := if ((65 <=? c) && (c <=? 90))%N then (c + 32)%N else c.
(** A value with a mark of importance (CSS Syntax 3, 5.4.6): [!] and [important] in any letters, white space between and after. *)
Definition marked (s : text) : Prop := exists v a w k, s = v ++ 33%N :: a ++ w ++ k /\ blank a /\ blank k /\ map small w = lit "important".
