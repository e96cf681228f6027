From Coq Require Import String List NArith ZArith QArith Qcanon Bool Arith.
From Verif Require Import Chars SegmentModel SegmentSpec ShapeModel ShapeSpec ShapeProofs.
Import ListNotations.
Local Close Scope Q_scope.
Local Open Scope nat_scope.
Local Open Scope string_scope.

(** C52: a shape with straight sides that no selector names becomes a path along its vertices, each rounded, in order, closed
    exactly for rect and polygon, and its other attributes stay.  Missing: points that are not just coordinates, fewer than two vertices, and
    shapes that are not shown at all (refuted below). *)
Theorem C52_traced_partial : forall (K : Type) p arcs sheet (e : shape K) vs closed,
  outline_of e vs closed -> 2 <= List.length vs ->
  ~ named sheet (lit "path") -> (forall n, local_name (s_kind e) = Some n -> ~ named sheet n) ->
  exists e' path vs', convert_shape p arcs sheet e = Some e' /\ s_kind e' = KPath /\ get AD (s_attrs e') = Some (VPath path) /\
    drawing path = sides vs' closed /\ Forall2 (rounded_point p) vs vs' /\ others (s_kind e) (s_attrs e') = others (s_kind e) (s_attrs e).
Proof. intros K. exact traced. Qed.
Print Assumptions C52_traced_partial.
(** C52: everything else is left unchanged: other elements; shapes a selector names (an ellipse aside); rects with rounded corners and
    shapes with lengths other than pixels; round shapes unless asked for.  A polyline or polygon goes if it has fewer than two
    commands, and only then. *)
Theorem C52_kept : forall (K : Type) p arcs sheet (e : shape K), lengths_read (s_attrs e) ->
  convert_shape p arcs sheet e = Some e \/
  ((~ named sheet (lit "path") /\ (forall n, s_kind e <> KEllipse -> local_name (s_kind e) = Some n -> ~ named sheet n)) /\
   ((poly (s_kind e) = true /\ convert_shape p arcs sheet e = None /\
     (forall l, get APoints (s_attrs e) = Some (VPath l) -> List.length l <= 1)) \/
    (poly (s_kind e) = true /\ exists l, get APoints (s_attrs e) = Some (VPath l) /\ 2 <= List.length l) \/
    (straight (s_kind e) = true /\ poly (s_kind e) = false /\ exists vs closed, outline_of e vs closed /\ 2 <= List.length vs) \/
    (round_shape (s_kind e) = true /\ arcs = true))).
Proof. intros K. exact only_then. Qed.
Print Assumptions C52_kept.
(** C52, for round shapes whose numbers need no rounding: two arcs of the radii given, between the ends of the vertical axis and in the same
    direction, which make up the whole ellipse. *)
Theorem C52_round_partial : forall (K : Type) p arcs sheet (e : shape K) cx cy rx ry,
  arcs = true -> ~ named sheet (lit "path") -> ~ named sheet (lit "circle") ->
  (s_kind e = KCircle /\ get AR (s_attrs e) = Some (VPx rx) /\ ry = rx \/
   s_kind e = KEllipse /\ get ARX (s_attrs e) = Some (VPx rx) /\ get ARY (s_attrs e) = Some (VPx ry)) ->
  coordinate (s_attrs e) ACX cx -> coordinate (s_attrs e) ACY cy -> rx <> 0%Qc -> ry <> 0%Qc ->
  on_grid p cx -> on_grid p (cy - ry)%Qc -> on_grid p (cy + ry)%Qc -> on_grid p rx -> on_grid p ry ->
  exists e' path, convert_shape p arcs sheet e = Some e' /\ s_kind e' = KPath /\ get AD (s_attrs e') = Some (VPath path) /\
    others (s_kind e) (s_attrs e') = others (s_kind e) (s_attrs e) /\ exists large sweep,
    drawing path = [EArc rx ry 0%Qc large sweep (P cx (cy - ry)%Qc) (P cx (cy + ry)%Qc);
                    EArc rx ry 0%Qc large sweep (P cx (cy + ry)%Qc) (P cx (cy - ry)%Qc);
                    ELine (P cx (cy - ry)%Qc) (P cx (cy - ry)%Qc)].
Proof. intros K. exact round_traced. Qed.
Print Assumptions C52_round_partial.
(** C52: none of the attributes that described the shape stay on the path, given that no attribute is written twice. *)
Theorem C52_attributes : forall (K : Type) p arcs sheet (e e' : shape K), NoDup (map fst (s_attrs e)) -> s_kind e <> KPath ->
  convert_shape p arcs sheet e = Some e' -> s_kind e' = KPath -> forall n, geometric (s_kind e) n = true -> n <> AD -> get n (s_attrs e') = None.
Proof. exact @geometry_gone. Qed.
Print Assumptions C52_attributes.

Definition q (n : Z) (d : positive) : Qc := Q2Qc (Qmake n d).
Definition tri : shape nat := mkShape KPolygon [(AOther 1, VText 7); (APoints, VPath [Move false (P (q 1 3) (q 0 1)); Line false (P (q 4 1) (q 0 1)); Line false (P (q 4 1) (q 7 2))])] [].
(** A triangle with a corner that is rounded. *)
Example C52_witness : outline_of tri [P (q 1 3) (q 0 1); P (q 4 1) (q 0 1); P (q 4 1) (q 7 2)] true /\
  convert_shape 1 false [[CLocal (lit "rect")]] tri =
    Some (mkShape KPath [(AOther 1, VText 7); (AD, VPath [Move false (P (q 3 10) (q 0 10)); Line false (P (q 40 10) (q 0 10)); Line false (P (q 40 10) (q 35 10)); Close])] []).
Proof. split; [|vm_compute; reflexivity]. apply (o_polygon tri (P (q 1 3) (q 0 1)) [P (q 4 1) (q 0 1); P (q 4 1) (q 7 2)]); reflexivity. Qed.
Example C52_attributes_witness : exists e' : shape nat, NoDup (map fst (s_attrs tri)) /\ convert_shape 1 false [] tri = Some e' /\ s_kind e' = KPath /\
  geometric (s_kind tri) APoints = true /\ get APoints (s_attrs tri) <> None /\ get APoints (s_attrs e') = None.
Proof.
  eexists. split; [repeat constructor; cbn; intuition discriminate|]. split; [vm_compute; reflexivity|]. split; [reflexivity|]. split; [reflexivity|]. split; [discriminate|reflexivity].
Qed.
(** The points as text. *)
Example C52_points_read : points_value (lit " 0,0 4-1.5,4 3.5x1") =
  Some (VPath [Move false (P (q 0 1) (q 0 1)); Line false (P (q 4 1) (q (-15) 10)); Line false (P (q 4 1) (q 35 10))]).
Proof. vm_compute. reflexivity. Qed.

(** A rect without width is not shown, but the path that takes its place has a side. *)
Theorem C52_invisible_refuted : exists (e e' : shape nat) path h, s_kind e = KRect /\ get AWidth (s_attrs e) = Some (VPx 0%Qc) /\ get AHeight (s_attrs e) = Some (VPx h) /\
  convert_shape 3 false [] e = Some e' /\ get AD (s_attrs e') = Some (VPath path) /\ existsb seen (drawing path) = true.
Proof.
  exists (mkShape KRect [(AWidth, VPx 0%Qc); (AHeight, VPx (q 5 1))] []). eexists _, _, _.
  split; [reflexivity|]. split; [reflexivity|]. split; [reflexivity|]. split; [reflexivity|]. split; [reflexivity|]. vm_compute. reflexivity.
Qed.
Print Assumptions C52_invisible_refuted.
(** A polyline of one point, where markers and line caps are drawn, is removed; points with the letters of path data are taken for such. *)
Theorem C52_points_refuted : exists one letters (e1 e2 e2' : shape nat) v path,
  points_value (lit "3 4") = Some one /\ s_kind e1 = KPolyline /\ s_attrs e1 = [(APoints, one)] /\ outline_of e1 [v] false /\ convert_shape 3 false [] e1 = None /\
  points_value (lit "3 4h5") = Some letters /\ s_kind e2 = KPolyline /\ s_attrs e2 = [(APoints, letters)] /\
  convert_shape 3 false [] e2 = Some e2' /\ get AD (s_attrs e2') = Some (VPath path) /\ existsb seen (drawing path) = true.
Proof.
  exists (VPath [Move false (P (q 3 1) (q 4 1))]), (VPath [Move false (P (q 3 1) (q 4 1)); Hor true (q 5 1)]).
  exists (mkShape KPolyline [(APoints, VPath [Move false (P (q 3 1) (q 4 1))])] []), (mkShape KPolyline [(APoints, VPath [Move false (P (q 3 1) (q 4 1)); Hor true (q 5 1)])] []).
  eexists _, _, _.
  split; [vm_compute; reflexivity|]. split; [reflexivity|]. split; [reflexivity|].
  split; [apply (o_polyline _ (P (q 3 1) (q 4 1)) []); reflexivity|]. split; [reflexivity|].
  split; [vm_compute; reflexivity|]. split; [reflexivity|]. split; [reflexivity|]. split; [vm_compute; reflexivity|]. split; [reflexivity|]. vm_compute. reflexivity.
Qed.
Print Assumptions C52_points_refuted.
(** A selector names the shape, and it is converted: an ellipse, and any shape named inside [:is] or [:not].  An ellipse with one radius
    given, the other one automatic, becomes a line. The children of a shape are lost. *)
Theorem C52_named_refuted :
  (exists (e e' : shape nat) sheet, s_kind e = KEllipse /\ named sheet (lit "ellipse") /\ convert_shape 3 true sheet e = Some e' /\ s_kind e' = KPath) /\
  (exists (e e' : shape nat) sheet, s_kind e = KRect /\ named_anywhere sheet (lit "rect") /\ convert_shape 3 false sheet e = Some e' /\ s_kind e' = KPath) /\
  (exists (e e' : shape nat) path rx, s_kind e = KEllipse /\ get ARX (s_attrs e) = Some (VPx rx) /\ get ARY (s_attrs e) = None /\ convert_shape 3 true [] e = Some e' /\
     get AD (s_attrs e') = Some (VPath path) /\ forallb (fun d => match d with ELine _ _ => true | _ => false end) (drawing path) = true) /\
  (exists (e e' : shape nat), s_kids e <> [] /\ convert_shape 3 false [] e = Some e' /\ s_kids e' = []).
Proof.
  split; [|split; [|split]].
  - exists (mkShape KEllipse [(ARX, VPx (q 2 1)); (ARY, VPx (q 1 1))] []). eexists _, [[CLocal (lit "ellipse")]].
    split; [reflexivity|]. split; [exists [CLocal (lit "ellipse")]; split; left; reflexivity|]. split; reflexivity.
  - exists (mkShape KRect [(AWidth, VPx (q 2 1)); (AHeight, VPx (q 1 1))] []). eexists _, [[CHolds [CLocal (lit "rect")]]].
    split; [reflexivity|].
    split; [eexists _, _; split; [left; reflexivity|]; split; [left; reflexivity|]; eapply w_inside; [left; reflexivity|apply w_here]|]. split; reflexivity.
  - exists (mkShape KEllipse [(ARX, VPx (q 2 1))] []). eexists _, _, _.
    split; [reflexivity|]. split; [reflexivity|]. split; [reflexivity|]. split; [reflexivity|]. split; [reflexivity|]. vm_compute. reflexivity.
  - exists (mkShape KLine [(AX2, VPx (q 2 1))] [5]). eexists. split; [discriminate|]. split; reflexivity.
Qed.
Print Assumptions C52_named_refuted.
