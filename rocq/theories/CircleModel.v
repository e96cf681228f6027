(** Model of convertEllipseToCircle (crates/oxvg_optimiser/src/jobs/convert_ellipse_to_circle.rs).

    Simplifications: numbers are rationals; [calc()] is left out; an attribute that cannot be read counts as absent; attributes the job does not touch are left out. *)
From Coq Require Import List QArith Qcanon Bool Arith.
Import ListNotations.
Local Close Scope Q_scope.
Local Open Scope nat_scope.

(** [LengthPercentage] (crates/oxvg_collections/src/attribute/presentation.rs:1025): a number with a unit, or a percentage (as a fraction). *)
Inductive length : Type := Dim (unit : nat) (n : Qc) | Percent (n : Qc).
(** [Radius] (crates/oxvg_collections/src/attribute/uncategorised.rs:565-570). *)
Inductive radius : Type := Len (l : length) | Auto.
(** Names of elements (convert_ellipse_to_circle.rs:57, 90). *)
Inductive kind : Type := Ellipse | Circle | Other (n : nat).
(** An element with [rx], [ry] and [r] (convert_ellipse_to_circle.rs:61-62, 93). *)
Record element : Type := mkElement { name : kind; rx : option radius; ry : option radius; r : option length }.
(** Derived [PartialEq] of [LengthPercentage] (convert_ellipse_to_circle.rs:75). *)
Definition length_eqb (a b : length) : bool :=
  match a, b with
  | Dim u n, Dim v m => Nat.eqb u v && (if Qc_eq_dec n m then true else false)
  | Percent n, Percent m => if Qc_eq_dec n m then true else false
  | _, _ => false
  end.
(** [LengthPercentage::px(0.0)] (convert_ellipse_to_circle.rs:93); unit 0 is [px]. *)
Definition zero : length := Dim 0 0%Qc.
(** convert_ellipse_to_circle.rs:67-83: [None] if nothing is to be done, else the radius if there is one. *)
Definition derived (e : element) : option (option length) :=
  match rx e with
  | None | Some Auto => match ry e with None | Some Auto => Some None | Some (Len l) => Some (Some l) end
  | Some (Len l) =>
      match ry e with
      | None | Some Auto => Some (Some l)
      | Some (Len m) => if length_eqb l m then Some (Some l) else None
      end
  end.
(** convert_ellipse_to_circle.rs:52-96 [element]. *)
Definition convert (e : element) : element :=
  match name e with
  | Ellipse =>
      match derived e with
      | None => e
      | Some l => mkElement Circle None None (Some match l with Some l => l | None => zero end)
      end
  | _ => e
  end.
