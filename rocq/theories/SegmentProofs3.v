(** Which segments are closed does not depend on control points and radii. *)
From Coq Require Import List NArith ZArith QArith Qcanon Bool Arith Lia.
From Verif Require Import SegmentModel SegmentSpec SegmentProofs.
Import ListNotations.
Local Close Scope Q_scope.
Local Open Scope nat_scope.

(** A command drawing a straight line to the same place. *)
Definition plain (c : cmd) : cmd :=
  match c with
  | Cubic rel _ _ p | Smooth rel _ p | Quad rel _ p | SmoothQuad rel p | Arc rel _ _ _ _ _ p => Line rel p
  | c => c
  end.

Lemma take_plain c st cu k k' z :
  let '(d, s) := take c (TS st cu k z) in
  let '(d', s') := take (plain c) (TS st cu k' z) in
  option_map end_point d = option_map end_point d' /\ t_start s = t_start s' /\ t_cursor s = t_cursor s' /\ t_z s = t_z s'.
Proof.
  destruct c; cbn [take plain]; try (repeat split; reflexivity).
  destruct (is_arc_to_line _ _ _ _); repeat split; reflexivity.
Qed.

Lemma take_loop_plain : forall l st cu k k' z acc acc', map end_point acc = map end_point acc' ->
  let '(d, s, r) := take_loop l (TS st cu k z) acc in
  let '(d', s', r') := take_loop (map plain l) (TS st cu k' z) acc' in
  map end_point d = map end_point d' /\ t_start s = t_start s' /\ t_cursor s = t_cursor s' /\ t_z s = t_z s' /\ r' = map plain r.
Proof.
  induction l as [|c l IH]; intros st cu k k' z acc acc' H.
  - cbn. rewrite !map_rev, H. repeat split; reflexivity.
  - cbn [take_loop map]. pose proof (take_plain c st cu k k' z) as T.
    destruct (take c (TS st cu k z)) as [d [st1 cu1 k1 z1]], (take (plain c) (TS st cu k' z)) as [d' [st2 cu2 k2 z2]].
    cbn [t_start t_cursor t_z] in T. destruct T as (Td & -> & -> & ->).
    destruct d as [d|], d' as [d'|]; try discriminate Td.
    + apply IH. cbn in *. congruence.
    + rewrite !map_rev, H. repeat split; reflexivity.
Qed.

Lemma last_end d l l' : map end_point l = map end_point l' -> end_point (last l d) = end_point (last l' d).
Proof.
  revert l'. induction l as [|a l IH]; intros [|b l'] H; try discriminate H; [reflexivity|].
  injection H as H K. destruct l as [|a2 l], l' as [|b2 l']; try discriminate K; [exact H|].
  apply (IH (b2 :: l')). exact K.
Qed.
Lemma data_end_eq a l l' : map end_point l = map end_point l' -> data_end a l = data_end a l'.
Proof. intros H. rewrite !data_end_last. apply last_end. exact H. Qed.

Lemma from_loop_plain t : forall fuel l st cu,
  map summary (filter nonempty (from_loop t fuel l st cu)) = map summary (filter nonempty (from_loop t fuel (map plain l) st cu)).
Proof.
  induction fuel as [|fuel IH]; intros l st cu; [reflexivity|].
  destruct l as [|c l]; [reflexivity|]. cbn [map from_loop].
  change (plain c :: map plain l) with (map plain (c :: l)). unfold take_segment.
  pose proof (take_loop_plain (c :: l) st cu None None false [] [] eq_refl) as T.
  destruct (take_loop (c :: l) _ _) as [[d s] r], (take_loop (map plain (c :: l)) _ _) as [[d' s'] r'].
  destruct T as (Td & Ts & Tc & Tz & ->).
  destruct d as [|e d], d' as [|e' d']; try discriminate Td.
  - cbn [filter nonempty s_data]. rewrite Ts, Tc. apply IH.
  - rewrite Tz. destruct (t_z s').
    + cbn [filter nonempty s_data map]. f_equal; [|rewrite Ts; apply IH].
      unfold summary. cbn [s_start s_data s_closed]. rewrite (data_end_eq _ _ _ Td). reflexivity.
    + cbn [filter nonempty s_data map]. f_equal; [|rewrite Ts, Tc; apply IH].
      unfold summary. cbn [s_start s_data s_closed]. rewrite (data_end_eq _ _ _ Td), (last_end _ _ _ Td), Ts. reflexivity.
Qed.

Lemma from_svg_plain t l gs : from_svg t l = Some gs -> exists gs', from_svg t (map plain l) = Some gs' /\
  map summary (filter nonempty gs) = map summary (filter nonempty gs').
Proof.
  destruct l as [|c l]; [intros [= <-]; eexists; split; reflexivity|].
  destruct c; try discriminate. cbn [from_svg map plain]. intros [= <-]. eexists. split; [reflexivity|].
  rewrite map_length.
  pose proof (from_loop_plain t (List.length l) l p p) as H.
  assert (G : forall gs, filter nonempty (match gs with [] => [Seg p [] false] | g :: r => g :: r end) = filter nonempty gs)
    by (intros []; reflexivity).
  etransitivity; [|etransitivity; [exact H|]].
  - f_equal. apply (G (from_loop t (List.length l) l p p)).
  - f_equal. symmetry. apply (G (from_loop t (List.length l) (map plain l) p p)).
Qed.

Lemma step_plain c s h : cur (snd (step c s)) = cur (snd (step (plain c) (Pen (cur s) (sub s) h))) /\
  sub (snd (step c s)) = sub (snd (step (plain c) (Pen (cur s) (sub s) h))).
Proof. destruct c; cbn; split; reflexivity. Qed.
Lemma pieces_plain : forall l s h d, pieces s d l = pieces (Pen (cur s) (sub s) h) d (map plain l).
Proof.
  induction l as [|c l IH]; intros s h d; [reflexivity|]. cbn [map].
  pose proof (step_plain c s h) as [E1 E2].
  assert (G : forall d, pieces (snd (step c s)) d l = pieces (snd (step (plain c) (Pen (cur s) (sub s) h))) d (map plain l)).
  { intros d'. rewrite (IH _ (hand (snd (step (plain c) (Pen (cur s) (sub s) h))))). rewrite E1, E2.
    destruct (snd (step (plain c) _)); reflexivity. }
  destruct c; cbn [pieces plain]; cbn [plain] in G; rewrite G; reflexivity.
Qed.

Lemma plain_matches l : smooth_matches (map plain l).
Proof.
  intros pre a b post E. destruct b; trivial; exfalso.
  all: assert (I0 : In (plain a) (map plain [a])) by (left; reflexivity); clear I0.
  - assert (I0 : In (Smooth rel c2 p) (map plain l)) by (rewrite E; apply in_or_app; right; right; left; reflexivity).
    apply in_map_iff in I0. destruct I0 as ([] & I0 & _); discriminate I0.
  - assert (I0 : In (SmoothQuad rel p) (map plain l)) by (rewrite E; apply in_or_app; right; right; left; reflexivity).
    apply in_map_iff in I0. destruct I0 as ([] & I0 & _); discriminate I0.
Qed.
Lemma plain_arcs l : arcs_ok (map plain l).
Proof. intros ? ? ? ? ? ? ? I0. apply in_map_iff in I0. destruct I0 as ([] & I0 & _); discriminate I0. Qed.

Lemma closed_spec t l gs : from_svg t l = Some gs ->
  map summary (filter nonempty gs) = map (piece_of t) (pieces rest false l).
Proof.
  intros E. destruct (from_svg_plain t l gs E) as (gs' & E' & ->).
  rewrite (pieces_plain l rest NoHandle). change (Pen (cur rest) (sub rest) NoHandle) with rest.
  destruct l as [|c l]; [injection E' as <-; reflexivity|]. destruct c; try discriminate E.
  cbn [map plain] in *. apply (from_svg_spec t rel p _ gs' E').
  - exact (plain_matches (Move rel p :: l)).
  - exact (plain_arcs (Move rel p :: l)).
Qed.

(** If no open piece ends within the tolerance of the next moveto, closed means ending in a
    closepath or back at the start. *)
Lemma piece_next_sub : forall l s d q, In q (pieces s d l) -> p_closed q = true -> p_next q = p_start q.
Proof.
  induction l as [|c l IH]; intros s d q I0 H; cbn [pieces] in I0.
  - destruct d; [|destruct I0]. destruct I0 as [<-|[]]. discriminate H.
  - destruct c; try (apply (IH _ _ _ I0 H)); apply in_app_or in I0; destruct I0 as [I0|I0]; try (apply (IH _ _ _ I0 H)).
    + destruct d; [|destruct I0]. destruct I0 as [<-|[]]. discriminate H.
    + destruct d; [|destruct I0]. destruct I0 as [<-|[]]. reflexivity.
Qed.
