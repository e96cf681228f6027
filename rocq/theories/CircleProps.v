(** convertEllipseToCircle: what is drawn has the same radii (C75). *)
From Coq Require Import List QArith Qcanon Bool Arith.
From Verif Require Import CircleModel CircleSpec CircleProofs.
Import ListNotations.
Local Close Scope Q_scope.
Local Open Scope nat_scope.

(** Partial: false with percentages in a viewport that is not a square, and where CSS says something about the radii (below). *)
Theorem C75_radii_partial : forall v c e, proper v ->
  css_rx c Ellipse = None -> css_ry c Ellipse = None -> css_r c Circle = None ->
  (percent (rx e) \/ percent (ry e) -> vw v = vh v) -> radii v c (convert e) = radii v c e.
Proof. exact radii_kept. Qed.
Print Assumptions C75_radii_partial.
Theorem C75_converted : forall e l, name e = Ellipse -> rx e = Some (Len l) -> ry e = Some (Len l) -> name (convert e) = Circle.
Proof. exact converted. Qed.
Print Assumptions C75_converted.
(** Nothing else is changed. *)
Theorem C75_others : forall e, name e <> Ellipse -> convert e = e.
Proof. exact others_stay. Qed.
Print Assumptions C75_others.

Definition q (n : Z) : Qc := Q2Qc (n # 1).
(** A viewport of 7 by 1: percentages of [r] refer to 5. *)
Definition wide : viewport := mkViewport (q 7) (q 1) (q 5) (fun _ => q 1).
Example C75_example : proper wide /\ ~ percent (Some (Len (Dim 0 (q 3)))) /\
  convert (mkElement Ellipse (Some (Len (Dim 0 (q 3)))) (Some Auto) None) = mkElement Circle None None (Some (Dim 0 (q 3))) /\
  radii wide no_css (mkElement Ellipse (Some (Len (Dim 0 (q 3)))) (Some Auto) None) = Some ((q 3 * q 1)%Qc, (q 3 * q 1)%Qc).
Proof. split; [|split; [intros []|split; reflexivity]]. unfold proper. cbn [vw vh vd px wide]. repeat split; vm_compute; discriminate. Qed.

(** [<ellipse rx="100%" ry="100%"/>]. *)
Theorem C75_percent_refuted : exists v e, proper v /\ radii v no_css (convert e) <> radii v no_css e.
Proof.
  exists wide, (mkElement Ellipse (Some (Len (Percent (q 1)))) (Some (Len (Percent (q 1)))) None). split; [unfold proper; cbn [vw vh vd px wide]; repeat split; vm_compute; discriminate|].
  intros E. assert (X : forall a b, a = b -> option_map (fun p => this (fst p)) a = option_map (fun p : Qc * Qc => this (fst p)) b) by (intros a b ->; reflexivity). apply X in E. vm_compute in E. discriminate.
Qed.
(** [<ellipse style="rx:5px;ry:3px"/>] is not drawn afterwards. *)
Theorem C75_style_refuted : exists c e, (forall k, css_r c k = None) /\
  radii wide c (convert e) = Some (q 0, q 0) /\ radii wide c e = Some ((q 5 * q 1)%Qc, (q 3 * q 1)%Qc) /\ (q 5 * q 1)%Qc <> q 0.
Proof.
  exists (mkCss (fun _ => Some (Len (Dim 0 (q 5)))) (fun _ => Some (Len (Dim 0 (q 3)))) (fun _ => None)), (mkElement Ellipse None None None). split; [reflexivity|].
  split; [unfold radii; cbn; f_equal; f_equal; apply Qc_is_canon; vm_compute; reflexivity|]. split; [reflexivity|]. intros E. apply (f_equal this) in E. vm_compute in E. discriminate.
Qed.
(** [circle{r:5px}] starts to apply to what was an ellipse of 3 by 3; likewise any other rule for circles or ellipses. *)
Theorem C75_selector_refuted : exists c e, (forall k, css_rx c k = None) /\ (forall k, css_ry c k = None) /\ css_r c Ellipse = None /\
  radii wide c (convert e) = Some ((q 5 * q 1)%Qc, (q 5 * q 1)%Qc) /\ radii wide c e = Some ((q 3 * q 1)%Qc, (q 3 * q 1)%Qc) /\ (q 5 * q 1)%Qc <> (q 3 * q 1)%Qc.
Proof.
  exists (mkCss (fun _ => None) (fun _ => None) (fun k => match k with Circle => Some (Dim 0 (q 5)) | _ => None end)), (mkElement Ellipse (Some (Len (Dim 0 (q 3)))) (Some (Len (Dim 0 (q 3)))) None).
  repeat (split; [reflexivity|]). intros E. apply (f_equal this) in E. vm_compute in E. discriminate.
Qed.
