(** C90: paths are simplified in those ways only that their style allows. *)
From Coq Require Import List NArith Bool.
From Verif Require Import OptionsModel OptionsSpec OptionsProofs.
Import ListNotations.

(** Where the cap is not set by a condition, every option that is used is documented as safe for every style that the path may be drawn with. *)
Theorem C90_safe_partial : forall c s l f, static_cap s -> f <> UniteSegments -> drawn s l -> has (options c s) f = true -> documented f l.
Proof. exact safe. Qed.
Print Assumptions C90_safe_partial.
(** Segments are united only without stroke and markers and where the fill rule is known, whichever it is. *)
Theorem C90_unite_partial : forall c s l, drawn s l -> has (options c s) UniteSegments = true ->
  rule l = fst (gather s) /\ ~ has_stroke l /\ m_start l = NoMarker /\ m_mid l = NoMarker /\ m_end l = NoMarker.
Proof. exact unite. Qed.
Print Assumptions C90_unite_partial.
(** Nothing is done that was not asked for. *)
Theorem C90_asked : forall c s f, has (options c s) f = true -> asked c f = true.
Proof. exact asked_for. Qed.
Print Assumptions C90_asked.
(** What was asked for is done where it is documented as safe for all the styles that are possible. *)
Theorem C90_used_partial : forall c s f, f <> CloseSegments -> f <> UniteSegments -> (forall l, drawn s l -> documented f l) -> has (options c s) f = asked c f.
Proof. exact used. Qed.
Print Assumptions C90_used_partial.

Definition plain : styles := mkStyles None_ None_ None_ None_ None_ None_ None_ None_.
Definition lines : styles := mkStyles (Some_ (Defined (Paint 1)) Static) (Some_ (Defined Square) Static) None_ None_ None_ None_ (Some_ Inherited Static) None_.
Example C90_ex_plain : map (has (options default plain)) [CloseSegments; UniteSegments; JoinNodes; RemoveEmptySegments; RemoveNoopCommands; RemoveCloseLine; StraightCurves; ArcCurves; SmartArcRounding]
  = [false; false; true; true; true; false; true; true; true].
Proof. vm_compute. reflexivity. Qed.
Definition every : config := mkConfig true true true true true true true true true.
Example C90_ex_every : map (has (options every plain)) [CloseSegments; UniteSegments; RemoveCloseLine] = [true; true; true].
Proof. vm_compute. reflexivity. Qed.
Example C90_ex_lines : map (has (options every lines)) [CloseSegments; UniteSegments; JoinNodes; RemoveEmptySegments; RemoveNoopCommands; RemoveCloseLine; StraightCurves; ArcCurves; SmartArcRounding]
  = [false; false; false; false; false; false; true; true; true].
Proof. vm_compute. reflexivity. Qed.
Example C90_ex_drawn : static_cap lines /\ drawn lines (mkLook (Paint 1) Square Miter Nonzero NoMarker (MarkerUrl 3) NoMarker).
Proof. split; [discriminate|]. repeat split; first [left; reflexivity|right; exact Logic.I|right; reflexivity]. Qed.
Example C90_ex_round : has (options every (mkStyles (Some_ (Defined (Paint 1)) Static) (Some_ (Defined RoundCap) Static) (Some_ (Defined RoundJoin) Static) None_ None_ None_ None_ None_)) CloseSegments = true.
Proof. vm_compute. reflexivity. Qed.

(** Where a condition (a media query or a pseudo-class) sets the cap, commands of no length are removed, although they may be drawn as dots. *)
Theorem C90_cap_refuted : exists s l f, drawn s l /\ has (options default s) f = true /\ ~ documented f l.
Proof.
  exists (mkStyles (Some_ (Defined (Paint 1)) Static) (Some_ (Defined RoundCap) Dynamic) None_ None_ None_ None_ None_ None_), (mkLook (Paint 1) RoundCap Miter Nonzero NoMarker NoMarker NoMarker), RemoveNoopCommands.
  split; [repeat split; left; reflexivity|]. split; [vm_compute; reflexivity|]. intros H. apply H. split; discriminate.
Qed.
Print Assumptions C90_cap_refuted.
(** Segments are united for nonzero, which is documented as unsafe. *)
Theorem C90_nonzero_refuted : exists s l, drawn s l /\ has (options every s) UniteSegments = true /\ ~ documented UniteSegments l.
Proof.
  exists plain, (mkLook NoPaint Butt Miter Nonzero NoMarker NoMarker NoMarker).
  split; [repeat split; left; reflexivity|]. split; [vm_compute; reflexivity|]. intros (H & _). discriminate.
Qed.
Print Assumptions C90_nonzero_refuted.
(** Segments are not closed for square caps, which is documented as safe. *)
Theorem C90_square_refuted : exists s, (forall l, drawn s l -> documented CloseSegments l) /\ has (options every s) CloseSegments <> asked every CloseSegments.
Proof.
  exists (mkStyles (Some_ (Defined (Paint 1)) Static) (Some_ (Defined Square) Static) (Some_ (Defined RoundJoin) Static) None_ None_ None_ None_ None_). split; [|vm_compute; discriminate].
  intros l (_ & C & J & _ & _ & M & E). cbn in *. destruct M as [M|M], E as [E|E]; tauto.
Qed.
Print Assumptions C90_square_refuted.
(** A path in defs takes its markers and its stroke from the use that draws it, which is not looked at. *)
Theorem C90_use_refuted : exists s l f, drawn_by_use s l /\ has (options default s) f = true /\ ~ documented f l.
Proof.
  exists plain, (mkLook NoPaint Butt Miter Nonzero NoMarker (MarkerUrl 1) NoMarker), JoinNodes.
  split; [repeat split|]. split; [vm_compute; reflexivity|]. discriminate.
Qed.
Print Assumptions C90_use_refuted.
