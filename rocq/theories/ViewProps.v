From Coq Require Import QArith List Bool.
From Verif Require Import ViewModel ViewSpec ViewProofs.
Import ListNotations.

(** C53: a view box is removed only when it is 0 0 width height, and nothing else is changed. *)
Theorem C53_view_box_equal : forall e, remove_view_box e <> e ->
  remove_view_box e = drop_box e /\ exists b w h, v_box e = Some (VRead b) /\ px_attr (v_width e) = Some w /\ px_attr (v_height e) = Some h /\
    min_x b == 0 /\ min_y b == 0 /\ box_w b == w /\ box_h b == h /\ v_kind e <> KElse /\ (v_kind e = KSvg -> v_top e = true).
Proof. exact view_box_removed. Qed.
Print Assumptions C53_view_box_equal.
(** C53: and then it is removed. *)
Theorem C53_view_box_taken : forall e b w h, v_kind e <> KElse -> (v_kind e = KSvg -> v_top e = true) -> v_box e = Some (VRead b) ->
  px_attr (v_width e) = Some w -> px_attr (v_height e) = Some h ->
  min_x b == 0 -> min_y b == 0 -> box_w b == w -> box_h b == h -> remove_view_box e = drop_box e.
Proof. exact view_box_taken. Qed.
Print Assumptions C53_view_box_taken.
(** C53: the content stays where it is, for every [preserveAspectRatio].  Missing: sizes set by CSS, by a [use], or
    by a bounding box (refuted below). *)
Theorem C53_view_box_shown_partial : forall e par c, plain c -> ~ used_w c e == 0 -> ~ used_h c e == 0 ->
  same_place (shown par c (remove_view_box e)) (shown par c e).
Proof. exact view_box_kept. Qed.
Print Assumptions C53_view_box_shown_partial.
(** C53: removing dimensions keeps the view box or makes the one of the size that was removed. *)
Theorem C53_dimensions : forall e, remove_dimensions e = e \/
  (v_kind e = KSvg /\ v_width (remove_dimensions e) = None /\ v_height (remove_dimensions e) = None /\ v_kind (remove_dimensions e) = KSvg /\
   v_top (remove_dimensions e) = v_top e /\
   ((exists b, v_box e = Some b /\ v_box (remove_dimensions e) = Some b) \/
    (exists w h, v_box e = None /\ px_attr (v_width e) = Some w /\ px_attr (v_height e) = Some h /\ v_box (remove_dimensions e) = Some (VRead (mkBox 0 0 w h))))).
Proof. exact dimensions_removed. Qed.
Print Assumptions C53_dimensions.
(** C53: the dimensions are removed when there is a view box or one can be made. *)
Theorem C53_dimensions_taken : forall e, v_kind e = KSvg ->
  (v_box e <> None \/ (px_attr (v_width e) <> None /\ px_attr (v_height e) <> None)) ->
  v_width (remove_dimensions e) = None /\ v_height (remove_dimensions e) = None.
Proof. exact dimensions_taken. Qed.
Print Assumptions C53_dimensions_taken.
(** C53: in a viewport of the size the element had, the content is placed as before, unless the view box could not be read.
    Missing: that the viewport keeps its size (refuted below), unreadable view boxes (refuted below). *)
Theorem C53_dimensions_shown_partial : forall e par w h, v_box e <> Some VText -> ~ w == 0 -> ~ h == 0 ->
  (v_box e = None -> px_attr (v_width e) = Some w /\ px_attr (v_height e) = Some h) ->
  same_place (place_of par (box_of (remove_dimensions e)) w h) (place_of par (box_of e) w h).
Proof. exact dimensions_kept. Qed.
Print Assumptions C53_dimensions_shown_partial.

(** C53: widths and heights are compared as lengths: what is taken for the number of pixels is as many inches as what was given. *)
Theorem C53_units : forall l, match to_px l, per_inch l with Some p, Some (q, u) => p / 96 == q / u | None, None => True | _, _ => False end.
Proof. exact units. Qed.
Print Assumptions C53_units.

Definition no_sur : surroundings := mkSur None None None None None 200 100.
Definition icon : velem := mkView KSvg true (Some (VRead (mkBox 0 0 96 48))) (Some (LIn 1)) (Some (LPt 36)).
Example C53_witness : plain no_sur /\ ~ used_w no_sur icon == 0 /\ ~ used_h no_sur icon == 0 /\ remove_view_box icon = drop_box icon.
Proof. split; [repeat split|]. split; [discriminate|]. split; [discriminate|]. vm_compute. reflexivity. Qed.
Example C53_dimensions_witness :
  remove_dimensions (mkView KSvg true None (Some (LPx 4)) (Some (LPx 2))) = mkView KSvg true (Some (VRead (mkBox 0 0 4 2))) None None.
Proof. reflexivity. Qed.

(** A symbol shown larger by its [use], a pattern fitted to a bounding box, a size set in CSS. *)
Theorem C53_view_box_shown_refuted : exists par,
  (exists c e, v_kind e = KSymbol /\ use_w c <> None /\ ~ same_place (shown par c (remove_view_box e)) (shown par c e)) /\
  (exists c e, v_kind e = KPattern /\ fitted c <> None /\ ~ same_place (shown par c (remove_view_box e)) (shown par c e)) /\
  (exists c e, v_kind e = KSvg /\ css_w c <> None /\ ~ same_place (shown par c (remove_view_box e)) (shown par c e)).
Proof.
  exists (Fit false (1 # 2) (1 # 2)). split; [|split].
  - exists (mkSur None None (Some 20) (Some 20) None 200 100), (mkView KSymbol false (Some (VRead (mkBox 0 0 10 10))) (Some (LPx 10)) (Some (LPx 10))).
    split; [reflexivity|]. split; [discriminate|]. intros (H & _). vm_compute in H. discriminate.
  - exists (mkSur None None None None (Some (50, 50)) 200 100), (mkView KPattern false (Some (VRead (mkBox 0 0 1 1))) (Some (LPx 1)) (Some (LPx 1))).
    split; [reflexivity|]. split; [discriminate|]. intros (H & _). vm_compute in H. discriminate.
  - exists (mkSur (Some 50) (Some 50) None None None 200 100), (mkView KSvg true (Some (VRead (mkBox 0 0 10 10))) (Some (LPx 10)) (Some (LPx 10))).
    split; [reflexivity|]. split; [discriminate|]. intros (H & _). vm_compute in H. discriminate.
Qed.
Print Assumptions C53_view_box_shown_refuted.
(** An inner [svg] loses its size and is shown at the size of the viewport around; a view box that cannot be read counts as one. *)
Theorem C53_dimensions_shown_refuted : exists par c, plain c /\
  (exists e, v_top e = false /\ ~ same_place (shown par c (remove_dimensions e)) (shown par c e)) /\
  (exists e, v_top e = true /\ v_box e = Some VText /\ v_width e <> None /\ box_of (remove_dimensions e) = None /\ v_width (remove_dimensions e) = None).
Proof.
  exists (Fit false (1 # 2) (1 # 2)), no_sur. split; [repeat split|]. split.
  - exists (mkView KSvg false None (Some (LPx 10)) (Some (LPx 10))). split; [reflexivity|]. intros (H & _). vm_compute in H. discriminate.
  - exists (mkView KSvg true (Some VText) (Some (LPx 10)) (Some (LPx 10))). repeat split; discriminate.
Qed.
Print Assumptions C53_dimensions_shown_refuted.
