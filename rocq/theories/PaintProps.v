(** C70: removing useless strokes and fills. *)
From Coq Require Import List Bool Arith Lia.
From Verif Require Import Chars CascadeModel CascadeSpec PaintModel PaintSpec PaintProofs.
Import ListNotations.

(** C70: shapes look the same.  Missing: shapes with a paint other than [none] in the style attribute, ones with markers other than at the end or with a stroke of
    width 0, style attributes that declare a property twice, and removal of shapes without a stroke or a fill (all refuted below).  What is a value, what is
    inherited by keyword and what draws nothing is arbitrary, as long as values read as [none] or 0 are values that draw nothing. *)
Theorem C70_look_partial : forall inheritable zero valid inherits blank,
  (forall p, p < 14 -> inheritable p = true) ->
  (forall p v, zero p v = true -> valid p v = true /\ inherits p v = false /\ blank p v = true) ->
  zero 0 v_none = true /\ zero 8 v_none = true ->
  forall o script sheets d, o_remove_none o = false -> Forall (plain inheritable valid inherits blank) (shapes [] d) ->
  Forall2 (same_look inheritable valid inherits blank) (shapes [] d) (flat_map (shapes []) (run inheritable zero o script sheets d)).
Proof. exact run_look. Qed.
Print Assumptions C70_look_partial.
(** C70: elements with an id, with all they hold, stay as they are, so that what refers to them finds the same. *)
Theorem C70_identified : forall inheritable zero o script sheets d, o_remove_none o = false ->
  flat_map identified (run inheritable zero o script sheets d) = identified d.
Proof. exact run_ids. Qed.
Print Assumptions C70_identified.

(** A choice of values: 0 is [none] and 0, 1 is [inherit], 99 is no value. *)
Definition inh (p : prop) : bool := p <? 14.
Definition zer (p : prop) (v : value) : bool := v =? 0.
Definition vali (p : prop) (v : value) : bool := negb (v =? 99).
Definition inhe (p : prop) (v : value) : bool := v =? 1.
Definition svg (kids : list doc) : doc := Doc false false (mkElem 0 [] None) kids.
Definition shape (attrs : list (prop * value)) (style : list (prop * value)) : doc := Doc true false (mkElem 1 attrs (Some (mkBlock [] style))) [].
Definition result (o : options) (d : doc) := flat_map (shapes []) (run inh zer o false [] d).

(** A stroke in the style attribute appears, as stroke-opacity was an attribute: [style="stroke:red" stroke-opacity="0"]. *)
Theorem C70_style_refuted : exists d, exists a b, shapes [] d = [a] /\ result default_options d = [b] /\
  stroked inh vali inhe zer a = false /\ stroked inh vali inhe zer b = true.
Proof. exists (svg [shape [(2, 0)] [(0, 5)]]). eexists. eexists. repeat split; vm_compute; reflexivity. Qed.
Print Assumptions C70_style_refuted.
(** So does a fill. *)
Theorem C70_fill_style_refuted : exists d, exists a b, shapes [] d = [a] /\ result default_options d = [b] /\
  filled inh vali inhe zer a = false /\ filled inh vali inhe zer b = true.
Proof. exists (svg [shape [(9, 0)] [(8, 5)]]). eexists. eexists. repeat split; vm_compute; reflexivity. Qed.
Print Assumptions C70_fill_style_refuted.
(** Markers at the start of a line without a stroke lose the width they are scaled by. *)
Theorem C70_marker_start_refuted : exists d, exists a b, shapes [] d = [a] /\ result default_options d = [b] /\
  marked inh vali inhe zer a = true /\ used inh vali inhe a p_stroke_width = Some 5 /\ used inh vali inhe b p_stroke_width = None.
Proof. exists (svg [shape [(11, 7); (1, 5)] []]). eexists. eexists. repeat split; vm_compute; reflexivity. Qed.
Print Assumptions C70_marker_start_refuted.
(** Markers at the end of a line of width 0, which are not seen, get the size of a line of width 1. *)
Theorem C70_marker_end_refuted : exists d, exists a b, shapes [] d = [a] /\ result default_options d = [b] /\
  draws inh vali inhe zer a p_marker_end = true /\ used inh vali inhe a p_stroke_width = Some 0 /\ used inh vali inhe b p_stroke_width = None.
Proof. exists (svg [shape [(13, 7); (1, 0)] []]). eexists. eexists. repeat split; vm_compute; reflexivity. Qed.
Print Assumptions C70_marker_end_refuted.
(** Of two declarations in the style attribute the first is looked at, and the stroke is lost: [stroke="red" style="stroke-opacity:0;stroke-opacity:1"]. *)
Theorem C70_twice_refuted : exists d, exists a b, shapes [] d = [a] /\ result default_options d = [b] /\
  stroked inh vali inhe zer a = true /\ stroked inh vali inhe zer b = false.
Proof. exists (svg [shape [(0, 5)] [(2, 0); (2, 6)]]). eexists. eexists. repeat split; vm_compute; reflexivity. Qed.
Print Assumptions C70_twice_refuted.
(** A shape that is filled is removed with remove_none, as it has no stroke. *)
Theorem C70_remove_none_refuted : exists d a, shapes [] d = [a] /\ filled inh vali inhe zer a = true /\ result (mkOptions true true true) d = [].
Proof. exists (svg [shape [(8, 5); (0, 0)] []]). eexists. repeat split; vm_compute; reflexivity. Qed.
Print Assumptions C70_remove_none_refuted.
(** A stroke whose width is animated from 0 is lost. *)
Theorem C70_animation_refuted : exists d p v, exists a b, shapes [] d = [a] /\ result default_options d = [b] /\
  stroked inh vali inhe zer (animated p v a) = true /\ stroked inh vali inhe zer (animated p v b) = false.
Proof. exists (svg [shape [(0, 5); (1, 0)] []]), p_stroke_width, 6. eexists. eexists. repeat split; vm_compute; reflexivity. Qed.
Print Assumptions C70_animation_refuted.

(** In a group with a stroke: a shape of stroke width 0 whose fill is transparent; one with an id; one with a stroke and a fill. *)
Definition sample : doc :=
  svg [Doc false false (mkElem 2 [(0, 5); (3, 6)] None)
         [Doc true false (mkElem 3 [(1, 0); (4, 7); (9, 0); (20, 4)] (Some (mkBlock [] [(21, 3)]))) [];
          Doc true true (mkElem 4 [(1, 0)] None) [];
          Doc true false (mkElem 5 [(0, 8); (13, 2); (1, 4)] None) []]].
Example C70_witness :
  (forall p, p < 14 -> inh p = true) /\ (forall p v, zer p v = true -> vali p v = true /\ inhe p v = false /\ zer p v = true) /\
  Forall (plain inh vali inhe zer) (shapes [] sample) /\
  run inh zer default_options false [] sample =
    [svg [Doc false false (mkElem 2 [(0, 5); (3, 6)] None)
       [Doc true false (mkElem 3 [(20, 4); (0, 0); (8, 0)] (Some (mkBlock [] [(21, 3)]))) [];
        Doc true true (mkElem 4 [(1, 0)] None) [];
        Doc true false (mkElem 5 [(0, 8); (13, 2); (1, 4)] None) []]]].
Proof.
  split; [intros p H; apply Nat.ltb_lt; exact H|]. split.
  { intros p v H. unfold zer in *. apply Nat.eqb_eq in H. subst v. repeat split. }
  split; [|vm_compute; reflexivity]. unfold sample, svg. cbn [shapes app].
  assert (ND : forall l : list nat, nodup Nat.eq_dec l = l -> NoDup l) by (intros l <-; apply NoDup_nodup).
  assert (NP : forall e p, values p (styled b_important e ++ styled b_normal e) = [] -> no_paint vali inhe zer e p) by (intros e p H v; rewrite H; intros []).
  repeat (apply Forall_cons || apply Forall_nil); (split; [apply ND; vm_compute; reflexivity|]); (split; [apply ND; vm_compute; reflexivity|]);
    (split; [apply ND; vm_compute; reflexivity|]); (split; [apply NP; vm_compute; reflexivity|]); (split; [apply NP; vm_compute; reflexivity|]);
    vm_compute; try discriminate; split; reflexivity.
Qed.
