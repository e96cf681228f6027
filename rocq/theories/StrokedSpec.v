(** Where a path is drawn, and with what stroke and fill. *)
From Coq Require Import Reals List Bool.
From Verif Require Import StrokedModel.
Import ListNotations.
Open Scope R_scope.

(** Media queries and the like either hold or they do not. *)
Definition holds {A} (on : bool) (c : option (A * mode)) : option A :=
  match c with Some (a, Static) => Some a | Some (a, Unclear) => if on then Some a else None | None => None end.
(** The value of a property that is inherited. *)
Fixpoint used {A} (on : bool) (initial : A) (a : el -> option (inh A)) (c : el -> option (inh A * mode)) (chain : list el) : A :=
  match chain with
  | [] => initial
  | e :: rest =>
      match match holds on (c e) with Some v => Some v | None => a e end with
      | Some (Defined v) => v
      | Some Inherited | None => used on initial a c rest
      end
  end.
Definition unit : mat := Mat 1 0 0 1 0 0.
(** The transform of an element; one in a stylesheet is in place of the attribute. [None]: not a matrix that is known. *)
Definition local (on : bool) (e : el) : option mat :=
  match holds on (c_transform e) with
  | Some m => m
  | None => match a_transform e with TMatrix m => Some m | TSpatial => None | _ => Some unit end
  end.
Definition times (m n : mat) : mat :=
  Mat (m0 m * m0 n + m2 m * m1 n) (m1 m * m0 n + m3 m * m1 n) (m0 m * m2 n + m2 m * m3 n) (m1 m * m2 n + m3 m * m3 n)
      (m0 m * m4 n + m2 m * m5 n + m4 m) (m1 m * m4 n + m3 m * m5 n + m5 m).
Definition fixed (on : bool) (e : el) : bool :=
  match holds on (c_fixed e) with Some b => b | None => match a_fixed e with Some b => b | None => false end end.
(** The points of the rim of the pen that draws the stroke, about its middle. *)
Definition pen (fixed : bool) (m : mat) (width x y : R) : Prop :=
  exists u v, u * u + v * v = (width / 2) * (width / 2) /\
    if fixed then x = u /\ y = v else x = m0 m * u + m2 m * v /\ y = m1 m * u + m3 m * v.
(** All lengths become [k] times as long. *)
Definition stretches (m : mat) (k : R) : Prop :=
  0 <= k /\ forall x y, (m0 m * x + m2 m * y) * (m0 m * x + m2 m * y) + (m1 m * x + m3 m * y) * (m1 m * x + m3 m * y) = k * k * (x * x + y * y).
(** Dashes: lengths along the path as it is drawn, unless they are fixed, or parts of the length of the path. *)
Definition same_dashes (relative : bool) (m n : mat) (dash dash' : list R) (offset offset' : R) : Prop :=
  (dash = [] /\ dash' = []) \/
  if relative then dash' = dash /\ offset' = offset
  else exists k k', stretches m k /\ stretches n k' /\ map (Rmult k') dash' = map (Rmult k) dash /\ k' * offset' = k * offset.
(** The element [e'] with the path data of [e] multiplied by [m] looks like [e]: its points are at the same places; its stroke, if there is one, has the
    same paint, pen and dashes; a gradient or pattern is at the same place. *)
Definition same_look (on : bool) (m : mat) (e e' : el) (ancestors : list el) : Prop :=
  exists l l', local on e = Some l /\ local on e' = Some l' /\ times l' m = l /\
  let stroke := used on PNone a_stroke c_stroke in let fill := used on (PColor 0) a_fill c_fill in
  stroke (e' :: ancestors) = stroke (e :: ancestors) /\ fill (e' :: ancestors) = fill (e :: ancestors) /\
  (stroke (e :: ancestors) <> PNone ->
    (forall x y, pen (fixed on e) l (used on 1 a_width c_width (e :: ancestors)) x y <-> pen (fixed on e') l' (used on 1 a_width c_width (e' :: ancestors)) x y) /\
    same_dashes (fixed on e || path_length e) l l' (used on [] a_dash c_dash (e :: ancestors)) (used on [] a_dash c_dash (e' :: ancestors))
                (used on 0 a_offset c_offset (e :: ancestors)) (used on 0 a_offset c_offset (e' :: ancestors))) /\
  (forall n, stroke (e :: ancestors) = PServer n \/ fill (e :: ancestors) = PServer n -> l' = l).
(** No stylesheet says something about the element itself, but for its paint; [inherit] is not written; dashes are its own; its paint is no gradient or pattern. *)
Definition no_inherit {A} (a : el -> option (inh A)) (c : el -> option (inh A * mode)) (chain : list el) : Prop :=
  forall e, In e chain -> a e <> Some Inherited /\ forall d, c e <> Some (Inherited, d).
Definition ordinary (e : el) (ancestors : list el) : Prop :=
  c_transform e = None /\ c_width e = None /\ c_dash e = None /\ c_offset e = None /\ c_fixed e = None /\
  no_inherit a_stroke c_stroke (e :: ancestors) /\ no_inherit a_width c_width (e :: ancestors) /\
  (forall x, In x ancestors -> a_dash x = None /\ c_dash x = None /\ a_offset x = None /\ c_offset x = None) /\
  path_length e = false /\
  (forall on n, used on PNone a_stroke c_stroke (e :: ancestors) <> PServer n /\ used on (PColor 0) a_fill c_fill (e :: ancestors) <> PServer n).
