(** C69: merging paths. *)
From Coq Require Import String List NArith QArith Qcanon Bool Arith.
From Verif Require Import Chars TextModel PathModel PathSpec SegmentModel SegmentSpec JoinModel JoinSpec JoinProofs.
Import ListNotations.
Local Close Scope Q_scope.
Local Open Scope nat_scope.

(** What becomes of the children of an element. *)
Theorem C69_groups : forall intersects force (apart : list subpath -> list subpath -> Prop) l,
  (forall x y, force = true \/ intersects x y = false -> apart (outline_of x) (outline_of y)) -> Forall child_ok l ->
  exists gs, concat gs = l /\ Forall2 (joined apart) gs (merge intersects force l).
Proof. exact merge_groups. Qed.
Print Assumptions C69_groups.

(** The same subpaths are drawn in the same order. *)
Theorem C69_outlines : forall intersects force l, Forall child_ok l -> flat_map outline (merge intersects force l) = flat_map outline l.
Proof. exact merge_outlines. Qed.
Print Assumptions C69_outlines.

(** The new data is written as commands that mean the same (see [follows]). *)
Theorem C69_written : forall intersects force l, Forall child_ok l -> Forall child_ok (merge intersects force l).
Proof. exact merge_ok. Qed.
Print Assumptions C69_written.

(** ** Examples *)
Definition pt (x y : Z) : point := P (Q2Qc (inject_Z x)) (Q2Qc (inject_Z y)).
Definition path_ (k : nat) (attrs : list (text * text)) (d : list out) : child := mkChild k true true attrs (Some d) false.
Definition red : list (text * text) := [(lit "fill", lit "red")].
(** [M0 0l5 5M9 9], [m10 10 5 5], [<g>], [M20 20h5z] *)
Definition ex : list child :=
  [path_ 1 red [(false, Move false (pt 0 0)); (false, Line true (pt 5 5)); (false, Move false (pt 9 9))];
   path_ 2 red [(false, Move true (pt 10 10)); (true, Line true (pt 5 5))];
   mkChild 3 false false [] None false;
   path_ 4 red [(false, Move false (pt 20 20)); (false, Hor true (px (pt 5 0))); (false, Close)]].
Example C69_example : Forall child_ok ex /\
  merge (fun _ _ => false) false ex =
  [path_ 2 red [(false, Move false (pt 0 0)); (false, Line true (pt 5 5)); (false, Move false (pt 10 10)); (false, Line true (pt 5 5))];
   mkChild 3 false false [] None false;
   path_ 4 red [(false, Move false (pt 20 20)); (false, Hor true (px (pt 5 0))); (false, Close)]].
Proof.
  split; [|reflexivity]. repeat constructor; cbn; try discriminate; try (intros []; fail); try (intros d [= <-]; cbn; repeat split; try discriminate; reflexivity).
Qed.

(** ** What is false *)
(** Of the children of a [switch] only the first one is drawn; it is merged with the others. *)
Theorem C69_switch_refuted : exists a b, child_ok a /\ child_ok b /\
  forall intersects, (forall x y, outline_of x <> outline_of y -> intersects x y = false) ->
  exists c, merge intersects false [a; b] = [c] /\ outline c <> outline a.
Proof.
  exists (path_ 1 [] [(false, Move false (pt 0 0)); (true, SegmentModel.Line false (pt 5 5))]), (path_ 2 [] [(false, Move false (pt 10 10)); (true, SegmentModel.Line false (pt 15 15))]).
  split; [split; [constructor|intros d [= <-]; cbn; repeat split; reflexivity]|]. split; [split; [constructor|intros d [= <-]; cbn; repeat split; reflexivity]|].
  intros intersects H. eexists. split.
  - cbn [merge merge_loop path_ c_path c_empty c_d negb orb has_id find_attr c_attrs absolute_start set_d c_forbidden count List.length Nat.add Nat.eqb attr_diff existsb pop_move].
    rewrite H; [reflexivity|]. intros E. vm_compute in E. discriminate E.
  - intros E. vm_compute in E. discriminate E.
Qed.
Print Assumptions C69_switch_refuted.

(** The author's length of a path, by which dashes are scaled, is no longer that of its outline. *)
Theorem C69_length_refuted : exists a b, child_ok a /\ child_ok b /\ In (lit "pathLength", lit "10") (c_attrs a) /\ In (lit "pathLength", lit "10") (c_attrs b) /\
  total_length (outline a) = px (pt 10 0) /\ total_length (outline b) = px (pt 10 0) /\
  forall intersects, (forall x y, outline_of x <> outline_of y -> intersects x y = false) ->
  exists c, merge intersects false [a; b] = [c] /\ In (lit "pathLength", lit "10") (c_attrs c) /\ total_length (outline c) = px (pt 20 0).
Proof.
  set (at_ := [(lit "pathLength", lit "10")]). assert (N : NoDup (map fst at_)) by (constructor; [exact (fun H => H)|constructor]).
  exists (path_ 1 at_ [(false, Move false (pt 0 0)); (true, SegmentModel.Line false (pt 10 0))]), (path_ 2 at_ [(false, Move false (pt 0 5)); (true, SegmentModel.Line false (pt 10 5))]).
  split; [split; [exact N|intros d [= <-]; cbn; repeat split; reflexivity]|]. split; [split; [exact N|intros d [= <-]; cbn; repeat split; reflexivity]|].
  split; [left; reflexivity|]. split; [left; reflexivity|]. split; [apply Qc_is_canon; vm_compute; reflexivity|]. split; [apply Qc_is_canon; vm_compute; reflexivity|].
  intros intersects H. eexists. split; [cbn; rewrite H; [reflexivity|intros E; vm_compute in E; discriminate E]|].
  split; [left; reflexivity|apply Qc_is_canon; vm_compute; reflexivity].
Qed.
Print Assumptions C69_length_refuted.

(** Two translucent strokes of width 20 that overlap, of lines that do not: the point between them was painted twice. *)
Theorem C69_stroke_refuted : exists a b p, child_ok a /\ child_ok b /\
  (forall n v, In (n, v) [(lit "stroke-width", lit "20"); (lit "stroke-opacity", lit ".5")] -> In (n, v) (c_attrs a) /\ In (n, v) (c_attrs b)) /\
  painted (px (pt 10 0)) p [a; b] 2 /\
  forall intersects, (forall x y, outline_of x <> outline_of y -> intersects x y = false) -> painted (px (pt 10 0)) p (merge intersects false [a; b]) 1.
Proof.
  set (at_ := [(lit "stroke-width", lit "20"); (lit "stroke-opacity", lit ".5")]).
  exists (path_ 1 at_ [(false, Move false (pt 0 0)); (true, SegmentModel.Line false (pt 10 0))]), (path_ 2 at_ [(false, Move false (pt 0 5)); (true, SegmentModel.Line false (pt 10 5))]), (pt 5 2).
  assert (N : NoDup (map fst at_)) by (repeat constructor; cbn; [intros [E|[]]; discriminate E|intros []]).
  split; [split; [exact N|intros d [= <-]; cbn; repeat split; reflexivity]|]. split; [split; [exact N|intros d [= <-]; cbn; repeat split; reflexivity]|].
  split; [intros n v H; split; exact H|]. split.
  - apply p_yes; [|apply p_yes; [|apply p_none]].
    + eexists. eexists. split; [left; reflexivity|]. split; [left; reflexivity|]. cbn [covers]. split; [apply Qc_is_canon; vm_compute; reflexivity|]. repeat split; vm_compute; discriminate.
    + eexists. eexists. split; [left; reflexivity|]. split; [left; reflexivity|]. cbn [covers]. split; [apply Qc_is_canon; vm_compute; reflexivity|]. repeat split; vm_compute; discriminate.
  - intros intersects H.
    assert (E : merge intersects false [path_ 1 at_ [(false, Move false (pt 0 0)); (true, SegmentModel.Line false (pt 10 0))]; path_ 2 at_ [(false, Move false (pt 0 5)); (true, SegmentModel.Line false (pt 10 5))]] =
      [path_ 2 at_ [(false, Move false (pt 0 0)); (true, SegmentModel.Line false (pt 10 0)); (false, Move false (pt 0 5)); (true, SegmentModel.Line false (pt 10 5))]]).
    { cbn. rewrite H; [reflexivity|]. intros E. vm_compute in E. discriminate E. }
    rewrite E. apply p_yes; [|apply p_none]. eexists. eexists. split; [left; reflexivity|]. split; [left; reflexivity|]. cbn [covers]. split; [apply Qc_is_canon; vm_compute; reflexivity|]. repeat split; vm_compute; discriminate.
Qed.
Print Assumptions C69_stroke_refuted.
