(** Properties of path segments: C24, C25, C60. *)
From Coq Require Import Ascii String List NArith ZArith QArith Qcanon Bool Arith Lia.
From Verif Require Import Chars PathModel SegmentModel SegmentSpec SegmentProofs SegmentProofs2 SegmentProofs3 SegmentProofs4.
Import ListNotations.
Local Close Scope Q_scope.
Local Close Scope string_scope.
Local Open Scope nat_scope.

(** ** Shorthand for the examples *)
Definition z (n : Z) : Qc := Q2Qc (inject_Z n).
Definition zz (a b : Z) : point := P (z a) (z b).
(** [Tolerance::default] (geometry.rs:51-60). *)
Definition usual : tolerance := Tol (Q2Qc (1 # 1000)) 3.
(** The text written for a path. *)
Definition text_of (l : list cmd) : string :=
  match optimize usual l with
  | Some o => string_of_list_ascii (map ascii_of_N (format_path (map (to_data 3) o)))
  | None => ""%string
  end.
Definition read (l : list cmd) : list segment := match from_svg usual l with Some gs => gs | None => [] end.
Definition written (l : list cmd) : list cmd := match optimize usual l with Some o => map snd o | None => [] end.

(** ** C24: reading and writing a path does not move points *)

(** Reading: the segments draw what the commands do. *)
Theorem C24_read_partial : forall t l gs,
  from_svg t l = Some gs -> smooth_matches l -> arcs_ok l -> ends_apart t l ->
  same_drawing (drawing l) (segments_drawing gs).
Proof. exact from_svg_drawing. Qed.
Print Assumptions C24_read_partial.

(** Writing: the commands draw what the segments do. *)
Theorem C24_write_partial : forall t gs, writable t gs ->
  exists o, to_svg t gs = Some o /\ same_drawing (segments_drawing gs) (drawing (map snd o)).
Proof. exact to_svg_spec. Qed.
Print Assumptions C24_write_partial.

(** Both. *)
Theorem C24_optimize_partial : forall t l gs,
  from_svg t l = Some gs -> smooth_matches l -> arcs_ok l -> ends_apart t l -> writable t gs ->
  exists o, optimize t l = Some o /\ same_drawing (drawing l) (drawing (map snd o)).
Proof. exact optimize_spec. Qed.
Print Assumptions C24_optimize_partial.

(** Relative and absolute commands, smooth curves, quadratic curves, two subpaths, a closepath
    followed by a drawing command. *)
Definition figure : list cmd :=
  [Move false (zz 10 90); Cubic true (zz 20 0) (zz 15 (-80)) (zz 40 (-80)); Smooth true (zz 20 80) (zz 40 80);
   Hor false (z 5); Close; Line true (zz 3 4); Ver true (z 7);
   Move true (zz 10 50); Line false (zz 1 2); Quad true (zz 15 (-24)) (zz 30 0); SmoothQuad true (zz 30 0); Line true (zz 1 1)].
Example figure_met :
  from_svg usual figure = Some (read figure) /\ smooth_matches figure /\ arcs_ok figure /\ ends_apart usual figure /\
  writable usual (read figure) /\
  text_of figure = "M10 90c20 0 15-80 40-80s20 80 40 80H5Zm0 0 3 4v7M23 151 1 2q15-24 30 0t30 0l1 1"%string.
Proof.
  split; [reflexivity|]. split; [apply matches_by; reflexivity|]. split; [apply arcs_by; reflexivity|].
  split; [apply apart_by; vm_compute; reflexivity|]. split; [apply writable_by; vm_compute; reflexivity|]. vm_compute. reflexivity.
Qed.

(** A line of no length away from the start is written as a closepath, which moves the rest of
    the path: M0 0L5 5L5 5L6 0. *)
Theorem C24_no_length_refuted : exists l o,
  optimize usual l = Some o /\ ~ same_drawing (drawing l) (drawing (map snd o)) /\
  ~ In Close l /\ In Close (map snd o).
Proof.
  exists [Move false (zz 0 0); Line false (zz 5 5); Line false (zz 5 5); Line false (zz 6 0)].
  exists (got [] (optimize usual [Move false (zz 0 0); Line false (zz 5 5); Line false (zz 5 5); Line false (zz 6 0)])).
  split; [apply got_some; vm_compute; reflexivity|]. split; [apply drawing_differs; vm_compute; reflexivity|].
  split; [apply no_close|apply close_in]; vm_compute; reflexivity.
Qed.
Example C24_no_length_text :
  text_of [Move false (zz 0 0); Line false (zz 5 5); Line false (zz 5 5); Line false (zz 6 0)] = "m0 0 5 5Zl1-5"%string.
Proof. vm_compute. reflexivity. Qed.

(** A smooth cubic after a quadratic curve is read as if the quadratic's control point counted:
    M0 0Q5 5 10 0S20 5 30 0. *)
Theorem C24_read_smooth_refuted : exists l gs,
  from_svg usual l = Some gs /\ ~ same_drawing (drawing l) (segments_drawing gs).
Proof.
  exists [Move false (zz 0 0); Quad false (zz 5 5) (zz 10 0); Smooth false (zz 20 5) (zz 30 0)].
  exists (got [] (from_svg usual [Move false (zz 0 0); Quad false (zz 5 5) (zz 10 0); Smooth false (zz 20 5) (zz 30 0)])).
  split; [apply got_some; vm_compute; reflexivity|]. apply drawing_differs. vm_compute. reflexivity.
Qed.

(** The control point at the end of one segment makes the first curve of the next one smooth:
    M0 0C0 5 5 5 5 0M10 0C15 -5 20 -5 20 0. *)
Theorem C24_control_across_refuted : exists gs o,
  to_svg usual gs = Some o /\ ~ same_drawing (segments_drawing gs) (drawing (map snd o)).
Proof.
  exists (read [Move false (zz 0 0); Cubic false (zz 0 5) (zz 5 5) (zz 5 0);
                Move false (zz 10 0); Cubic false (zz 15 (-5)) (zz 20 (-5)) (zz 20 0)]).
  exists (got [] (to_svg usual (read [Move false (zz 0 0); Cubic false (zz 0 5) (zz 5 5) (zz 5 0);
                Move false (zz 10 0); Cubic false (zz 15 (-5)) (zz 20 (-5)) (zz 20 0)]))).
  split; [apply got_some; vm_compute; reflexivity|]. apply drawing_differs. vm_compute. reflexivity.
Qed.
Example C24_control_across_text :
  text_of [Move false (zz 0 0); Cubic false (zz 0 5) (zz 5 5) (zz 5 0);
           Move false (zz 10 0); Cubic false (zz 15 (-5)) (zz 20 (-5)) (zz 20 0)] = "M0 0c0 5 5 5 5 0M10 0s10-5 10 0"%string.
Proof. vm_compute. reflexivity. Qed.

(** A cubic curve continuing a quadratic one is written as a smooth cubic, which takes no control
    point from a quadratic: M0 0Q5 5 10 0C15 -5 20 -5 30 0. *)
Theorem C24_smooth_after_quad_refuted : exists l o,
  optimize usual l = Some o /\ smooth_matches l /\ arcs_ok l /\ ends_apart usual l /\
  ~ same_drawing (drawing l) (drawing (map snd o)).
Proof.
  exists [Move false (zz 0 0); Quad false (zz 5 5) (zz 10 0); Cubic false (zz 15 (-5)) (zz 20 (-5)) (zz 30 0)].
  exists (got [] (optimize usual [Move false (zz 0 0); Quad false (zz 5 5) (zz 10 0); Cubic false (zz 15 (-5)) (zz 20 (-5)) (zz 30 0)])).
  split; [apply got_some; vm_compute; reflexivity|]. split; [apply matches_by; reflexivity|]. split; [apply arcs_by; reflexivity|].
  split; [apply apart_by; vm_compute; reflexivity|]. apply drawing_differs. vm_compute. reflexivity.
Qed.
Example C24_smooth_after_quad_text :
  text_of [Move false (zz 0 0); Quad false (zz 5 5) (zz 10 0); Cubic false (zz 15 (-5)) (zz 20 (-5)) (zz 30 0)]
  = "M0 0q5 5 10 0s10-5 20 0"%string.
Proof. vm_compute. reflexivity. Qed.

(** ** C25: which subpaths are closed *)

(** A segment is marked closed iff its piece ends in a closepath or within the tolerance of where
    the next piece begins (its own start, for the last piece). *)
Theorem C25_closed_partial : forall t l gs, from_svg t l = Some gs ->
  map summary (filter nonempty gs) = map (piece_of t) (pieces rest false l).
Proof. exact closed_spec. Qed.
Print Assumptions C25_closed_partial.

(** The property as it should be holds when no piece left open by a moveto comes near the target
    of the moveto, other than by coming back to its start. *)
Theorem C25_apart_partial : forall t l gs, from_svg t l = Some gs ->
  Forall (fun q => p_closed q = false -> near t (p_next q) (p_end q) = near t (p_start q) (p_end q)) (pieces rest false l) ->
  map summary (filter nonempty gs) = map (truly_closed t) (pieces rest false l).
Proof. exact closed_apart. Qed.
Print Assumptions C25_apart_partial.
Example C25_met :
  pieces rest false figure =
    [Piece (zz 10 90) (zz 5 90) true (zz 10 90); Piece (zz 10 90) (zz 13 101) false (zz 23 151);
     Piece (zz 23 151) (zz 62 3) false (zz 23 151)] /\
  map s_closed (read figure) = [true; false; false].
Proof.
  assert (E : forall a b c d, Piece a b c d = Piece a b c d) by reflexivity.
  split; [|vm_compute; reflexivity].
  unfold figure, rest. cbn [pieces step snd fst cur sub hand app to_ origin].
  repeat (apply f_equal2; [apply f_equal4; try reflexivity; apply point_eq; apply Qc_is_canon; vm_compute; reflexivity|]). reflexivity.
Qed.

(** An open subpath ending where the next one begins is taken as closed: M0 0L5 5M5 5L6 6. *)
Theorem C25_next_refuted : exists l gs,
  from_svg usual l = Some gs /\
  map summary (filter nonempty gs) <> map (truly_closed usual) (pieces rest false l) /\
  exists o, optimize usual l = Some o /\ ~ same_drawing (drawing l) (drawing (map snd o)).
Proof.
  exists [Move false (zz 0 0); Line false (zz 5 5); Move false (zz 5 5); Line false (zz 6 6)].
  exists (got [] (from_svg usual [Move false (zz 0 0); Line false (zz 5 5); Move false (zz 5 5); Line false (zz 6 6)])).
  split; [apply got_some; vm_compute; reflexivity|]. split.
  - intros E. apply (f_equal (map snd)) in E. vm_compute in E. discriminate E.
  - exists (got [] (optimize usual [Move false (zz 0 0); Line false (zz 5 5); Move false (zz 5 5); Line false (zz 6 6)])).
    split; [apply got_some; vm_compute; reflexivity|]. apply drawing_differs. vm_compute. reflexivity.
Qed.
Example C25_next_text :
  text_of [Move false (zz 0 0); Line false (zz 5 5); Move false (zz 5 5); Line false (zz 6 6)] = "m0 0 5 5Zm5 5 1 1"%string.
Proof. vm_compute. reflexivity. Qed.

(** Writing puts a closepath into a subpath that passes its start, ending it early — the
    subpath has no closepath and ends away from its start: M0 0L5 5L0 0L6 1. *)
Theorem C25_written_refuted : exists l o,
  optimize usual l = Some o /\ ~ In Close l /\ In Close (map snd o) /\
  cur (pen_after rest l) <> sub (pen_after rest l).
Proof.
  exists [Move false (zz 0 0); Line false (zz 5 5); Line false (zz 0 0); Line false (zz 6 1)].
  exists (got [] (optimize usual [Move false (zz 0 0); Line false (zz 5 5); Line false (zz 0 0); Line false (zz 6 1)])).
  split; [apply got_some; vm_compute; reflexivity|]. split; [apply no_close; reflexivity|].
  split; [apply close_in; vm_compute; reflexivity|]. apply point_eqb_false. vm_compute. reflexivity.
Qed.
(** A subpath that is only closed is written open: M5 5Z. *)
Theorem C25_empty_refuted : exists l o,
  optimize usual l = Some o /\ In Close l /\ ~ In Close (map snd o).
Proof.
  exists [Move false (zz 5 5); Close].
  exists (got [] (optimize usual [Move false (zz 5 5); Close])).
  split; [apply got_some; vm_compute; reflexivity|]. split; [right; left; reflexivity|].
  apply no_close. vm_compute. reflexivity.
Qed.

(** ** C60: rounding does not move points far *)

(** Points already on the grid stay where they are: [C24_write_partial]. Otherwise the errors of
    relative commands add up: each of these forty lines is written with its own rounding
    error, and the path ends more than eleven units of the last digit away. *)
Theorem C60_drift_refuted : exists l o,
  optimize usual l = Some o /\
  ltb (Q2Qc (11 # 1000) * Q2Qc (11 # 1000))%Qc (distance_squared (cur (pen_after rest l)) (cur (pen_after rest (map snd o)))) = true.
Proof.
  exists (Move false (zz 0 0) :: repeat (Line true (P (Q2Qc (14 # 10000)) (z 1))) 40).
  exists (got [] (optimize usual (Move false (zz 0 0) :: repeat (Line true (P (Q2Qc (14 # 10000)) (z 1))) 40))).
  split; [apply got_some; vm_compute; reflexivity|]. vm_compute. reflexivity.
Qed.
Example C60_drift_text :
  text_of (Move false (zz 0 0) :: repeat (Line true (P (Q2Qc (14 # 10000)) (z 1))) 4) = "m0 0 .001 1 .001 1 .001 1 .001 1"%string.
Proof. vm_compute. reflexivity. Qed.

(** On the grid nothing moves, and the rounding of a single number is at most half a unit. *)
Theorem C60_rounding_partial : forall p x,
  ((1 + 1) * (rnd p x - x) <= Q2Qc (1 # pow10 p))%Qc /\ ((1 + 1) * (x - rnd p x) <= Q2Qc (1 # pow10 p))%Qc /\
  (on_grid p x -> rnd p x = x).
Proof. exact rnd_spec. Qed.
Print Assumptions C60_rounding_partial.
Example C60_rounding_met : rnd 3 (Q2Qc (14 # 10000)) = Q2Qc (1 # 1000).
Proof. apply Qc_is_canon. vm_compute. reflexivity. Qed.
