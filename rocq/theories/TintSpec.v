(** The colours with which elements are drawn. *)
From Coq Require Import List NArith Bool.
From Verif Require Import TintModel.
Import ListNotations.

(** The elements from the root to a place. *)
Fixpoint chain (t : ctree) (p : list nat) : option (list celem) :=
  match t, p with
  | CNode e _, [] => Some [e]
  | CNode e kids, i :: p => match nth_error kids i with Some k => match chain k p with Some l => Some (e :: l) | None => None end | None => None end
  end.
(** The value that an element has of its own for a property: of the last declaration, or else of the attribute. *)
Definition declared (q : N) (a : cattr) : option cvalue :=
  match a with AStyle decls => match find (fun d => N.eqb (fst d) q) (rev decls) with Some d => Some (snd d) | None => None end | AAttr _ _ => None end.
Definition attribute (q : N) (a : cattr) : option cvalue := match a with AAttr n v => if N.eqb n q then Some v else None | AStyle _ => None end.
Fixpoint first {A B} (f : A -> option B) (l : list A) : option B := match l with [] => None | x :: l => match f x with Some y => Some y | None => first f l end end.
Definition own (e : celem) (q : N) : option cvalue := match first (declared q) (c_attrs e) with Some v => Some v | None => first (attribute q) (c_attrs e) end.
(** The property color is 0; the text colour at an element, if it is [outer] outside. *)
Definition colour_at (outer : N) (es : list celem) : N := fold_left (fun c e => match own e 0 with Some (VColor (Rgb n)) => n | _ => c end) es outer.
(** The value of a property at an element, if it is [v] outside; [None]: the initial value.  Some properties are inherited. *)
Definition value_at (inherits : N -> bool) (q : N) (v : option cvalue) (es : list celem) : option cvalue :=
  fold_left (fun v e => match own e q with Some VInherit => v | Some x => Some x | None => if inherits q then v else None end) es v.
(** A value with all its colours replaced by the text colour. *)
Definition to_current (v : cvalue) : cvalue :=
  match v with
  | VColor _ => VColor Current
  | VPaint (PColor _) => VPaint (PColor Current)
  | VPaint (PUrl u (Some (FColor _))) => VPaint (PUrl u (Some (FColor Current)))
  | VDeco _ n => VDeco Current n
  | v => v
  end.
(** No attribute has a colour for a missing paint server. *)
Definition no_fallback (e : celem) : Prop := forall q u c, ~ In (AAttr q (VPaint (PUrl u (Some (FColor c))))) (c_attrs e).
