(** What the documentation of the options promises, stated for the style that a path is drawn with. *)
From Coq Require Import List Bool.
From Verif Require Import OptionsModel.

(** The style that a path is drawn with: whether it has a stroke, a cap other than butt and so on, after all rules have been applied. *)
Record look := mkLook { stroke : paint; cap : linecap; join : linejoin; rule : fill_rule; m_start : marker; m_mid : marker; m_end : marker }.
Definition has_stroke (l : look) : Prop := stroke l <> NoPaint.
Definition has_cap (l : look) : Prop := cap l <> Butt.

(** The safety of each option, as documented (crates/oxvg_path/src/optimize.rs:12-81). *)
Definition documented (f : flag) (l : look) : Prop :=
  match f with
  | CloseSegments => (has_stroke l -> (cap l = RoundCap \/ cap l = Square) /\ join l = RoundJoin) /\ m_mid l = NoMarker /\ m_end l = NoMarker
  | UniteSegments => rule l = Evenodd /\ ~ has_stroke l /\ m_start l = NoMarker /\ m_mid l = NoMarker /\ m_end l = NoMarker
  | JoinNodes => m_mid l = NoMarker
  | RemoveEmptySegments => m_start l = NoMarker /\ m_mid l = NoMarker /\ m_end l = NoMarker
  | RemoveNoopCommands => ~ (has_stroke l /\ has_cap l)
  | RemoveCloseLine => ~ has_stroke l /\ m_mid l = NoMarker /\ m_end l = NoMarker
  | StraightCurves | ArcCurves | SmartArcRounding => True
  end.

(** The values that a property may have when the path is drawn: a static one has its value, one that is set by a condition, that is not understood or
    that is inherited may have any, and one that is not set has its initial value. *)
Definition may {A} (initial : A) (c : computed (inheritable A)) (a : A) : Prop :=
  match c with
  | Some_ (Defined b) Static => a = b
  | Some_ _ _ | Unparsed => True
  | None_ => a = initial
  end.
(** A marker is set by its own property or by the shorthand. *)
Definition may_marker (short own : computed (inheritable marker)) (a : marker) : Prop := may NoMarker short a \/ may NoMarker own a.
Definition drawn (s : styles) (l : look) : Prop :=
  may NoPaint (st_stroke s) (stroke l) /\ may Butt (st_cap s) (cap l) /\ may Miter (st_join s) (join l) /\ may Nonzero (st_rule s) (rule l) /\
  may_marker (st_marker s) (st_start s) (m_start l) /\ may_marker (st_marker s) (st_mid s) (m_mid l) /\ may_marker (st_marker s) (st_end s) (m_end l).

(** A path that is drawn by a use element gets from there what is not set where it is. *)
Definition may_use {A} (c : computed (inheritable A)) (a : A) : Prop :=
  match c with Some_ (Defined b) Static => a = b | _ => True end.
Definition drawn_by_use (s : styles) (l : look) : Prop :=
  may_use (st_stroke s) (stroke l) /\ may_use (st_cap s) (cap l) /\ may_use (st_join s) (join l) /\ may_use (st_rule s) (rule l) /\
  may_use (st_start s) (m_start l) /\ may_use (st_mid s) (m_mid l) /\ may_use (st_end s) (m_end l).

(** What the user asked for. *)
Definition asked (c : config) (f : flag) : bool :=
  match f with CloseSegments => close_segments c | UniteSegments => unite_segments c | JoinNodes => join_nodes c | RemoveEmptySegments => remove_empty_segments c
  | RemoveNoopCommands => remove_zero_segments c | RemoveCloseLine => remove_close_line c | StraightCurves => straight_curves c | ArcCurves => arc_curves c
  | SmartArcRounding => smart_arc_rounding c end.
(** The cap is not set by a condition. *)
Definition static_cap (s : styles) : Prop := forall c, st_cap s <> Some_ c Dynamic.
