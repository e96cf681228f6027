From Coq Require Import Setoid QArith Qminmax List Bool Lqa.
From Verif Require Import ViewModel ViewSpec.
Import ListNotations.

Lemma box_exact par b w h : min_x b == 0 -> min_y b == 0 -> box_w b == w -> box_h b == h -> ~ w == 0 -> ~ h == 0 ->
  same_place (place_of par (Some b) w h) (place_of par None w h).
Proof.
  intros Hx Hy Hw Hh Nw Nh. cbn [place_of]. cbv zeta.
  assert (Ew : w / box_w b == 1) by (rewrite Hw; field; exact Nw).
  assert (Eh : h / box_h b == 1) by (rewrite Hh; field; exact Nh).
  destruct par as [|slice ax ay]; unfold same_place; cbn [p_sx p_sy p_tx p_ty].
  - rewrite Ew, Eh, Hx, Hy. repeat split; ring.
  - assert (Es : (if slice then Qmax (w / box_w b) (h / box_h b) else Qmin (w / box_w b) (h / box_h b)) == 1).
    { destruct slice; rewrite Ew, Eh; reflexivity. }
    rewrite Es, Hx, Hy, Hw, Hh. repeat split; ring.
Qed.

Lemma view_box_removed e : remove_view_box e <> e ->
  remove_view_box e = drop_box e /\ exists b w h, v_box e = Some (VRead b) /\ px_attr (v_width e) = Some w /\ px_attr (v_height e) = Some h /\
    min_x b == 0 /\ min_y b == 0 /\ box_w b == w /\ box_h b == h /\ v_kind e <> KElse /\ (v_kind e = KSvg -> v_top e = true).
Proof.
  unfold remove_view_box. intros H.
  destruct (v_kind e) eqn:Ek; try contradiction;
  destruct (v_box e) as [[b|]|] eqn:Eb; try contradiction;
  destruct (px_attr (v_width e)) as [w|] eqn:Ew; try contradiction;
  destruct (px_attr (v_height e)) as [h|] eqn:Eh; try contradiction;
  cbn [andb] in *.
  - destruct (v_top e) eqn:Et; cbn [negb] in *; [|contradiction].
    destruct (Qeq_bool (min_x b) 0) eqn:E1; cbn [andb] in *; [|contradiction]. destruct (Qeq_bool (min_y b) 0) eqn:E2; cbn [andb] in *; [|contradiction].
    destruct (Qeq_bool (box_w b) w) eqn:E3; cbn [andb] in *; [|contradiction]. destruct (Qeq_bool (box_h b) h) eqn:E4; cbn [andb] in *; [|contradiction].
    apply Qeq_bool_eq in E1, E2, E3, E4. split; [reflexivity|]. exists b, w, h. repeat (split; [assumption || discriminate || reflexivity|]). auto.
  - destruct (Qeq_bool (min_x b) 0) eqn:E1; cbn [andb] in *; [|contradiction]. destruct (Qeq_bool (min_y b) 0) eqn:E2; cbn [andb] in *; [|contradiction].
    destruct (Qeq_bool (box_w b) w) eqn:E3; cbn [andb] in *; [|contradiction]. destruct (Qeq_bool (box_h b) h) eqn:E4; cbn [andb] in *; [|contradiction].
    apply Qeq_bool_eq in E1, E2, E3, E4. split; [reflexivity|]. exists b, w, h. repeat (split; [assumption || discriminate || reflexivity|]). discriminate.
  - destruct (Qeq_bool (min_x b) 0) eqn:E1; cbn [andb] in *; [|contradiction]. destruct (Qeq_bool (min_y b) 0) eqn:E2; cbn [andb] in *; [|contradiction].
    destruct (Qeq_bool (box_w b) w) eqn:E3; cbn [andb] in *; [|contradiction]. destruct (Qeq_bool (box_h b) h) eqn:E4; cbn [andb] in *; [|contradiction].
    apply Qeq_bool_eq in E1, E2, E3, E4. split; [reflexivity|]. exists b, w, h. repeat (split; [assumption || discriminate || reflexivity|]). discriminate.
Qed.

Lemma velem_dec (e e' : velem) : remove_view_box e = e \/ remove_view_box e <> e.
Proof.
  unfold remove_view_box. destruct e as [k t b w h]. cbn [v_kind v_top v_box v_width v_height].
  destruct k; try (left; reflexivity); destruct b as [[b|]|]; try (left; reflexivity);
    destruct (px_attr w); try (left; reflexivity); destruct (px_attr h); try (left; reflexivity);
    repeat match goal with |- context [if ?c then _ else _] => destruct c end; try (left; reflexivity); right; unfold drop_box; cbn; congruence.
Qed.

Lemma same_place_refl a : same_place a a.
Proof. repeat split; reflexivity. Qed.

Lemma used_plain c e : plain c -> forall w, (px_attr (v_width e) = Some w -> used_w c e = w) /\ (px_attr (v_height e) = Some w -> used_h c e = w).
Proof.
  intros (c1 & c2 & c3 & c4 & c5) w. unfold used_w, used_h, used. rewrite c1, c2, c3, c4, c5. cbn [option_map first_of].
  split; intros H; destruct (v_kind e);
  match goal with H : px_attr ?v = _ |- _ => destruct v as [[]|]; cbn in H |- *; try discriminate; injection H as ->; reflexivity end.
Qed.

Theorem view_box_kept e par c : plain c -> ~ used_w c e == 0 -> ~ used_h c e == 0 ->
  same_place (shown par c (remove_view_box e)) (shown par c e).
Proof.
  intros P Nw Nh. destruct (velem_dec e e) as [->|N]; [apply same_place_refl|].
  destruct (view_box_removed e N) as (-> & b & w & h & Eb & Ew & Eh & h1 & h2 & h3 & h4 & _).
  destruct (used_plain c e P w) as [Uw _]. destruct (used_plain c e P h) as [_ Uh]. specialize (Uw Ew). specialize (Uh Eh).
  unfold shown. unfold box_of at 1. cbn [drop_box v_box].
  assert (E1 : used_w c (drop_box e) = used_w c e) by reflexivity. assert (E2 : used_h c (drop_box e) = used_h c e) by reflexivity.
  rewrite E1, E2, Uw, Uh in *. unfold box_of. rewrite Eb.
  destruct (box_exact par b w h) as (a1 & a2 & a3 & a4); auto. repeat split; symmetry; assumption.
Qed.

Lemma dimensions_removed e :
  remove_dimensions e = e \/
  (v_kind e = KSvg /\ v_width (remove_dimensions e) = None /\ v_height (remove_dimensions e) = None /\ v_kind (remove_dimensions e) = KSvg /\
   v_top (remove_dimensions e) = v_top e /\
   ((exists b, v_box e = Some b /\ v_box (remove_dimensions e) = Some b) \/
    (exists w h, v_box e = None /\ px_attr (v_width e) = Some w /\ px_attr (v_height e) = Some h /\ v_box (remove_dimensions e) = Some (VRead (mkBox 0 0 w h))))).
Proof.
  unfold remove_dimensions. destruct (v_kind e) eqn:Ek; auto. destruct (v_box e) as [b|] eqn:Eb.
  - right. cbn. repeat (split; [reflexivity|]). left. exists b. auto.
  - destruct (px_attr (v_width e)) as [w|] eqn:Ew; [|auto]. destruct (px_attr (v_height e)) as [h|] eqn:Eh; [|auto].
    right. cbn. repeat (split; [reflexivity|]). right. exists w, h. auto.
Qed.

(** In a viewport of the size the element had. *)
Theorem dimensions_kept e par w h : v_box e <> Some VText -> ~ w == 0 -> ~ h == 0 ->
  (v_box e = None -> px_attr (v_width e) = Some w /\ px_attr (v_height e) = Some h) ->
  same_place (place_of par (box_of (remove_dimensions e)) w h) (place_of par (box_of e) w h).
Proof.
  intros Nt Nw Nh Hs. destruct (dimensions_removed e) as [->|(_ & _ & _ & _ & _ & [(b & E1 & E2)|(w' & h' & E0 & E1 & E2 & E3)])]; [apply same_place_refl| |].
  - unfold box_of. rewrite E1, E2. apply same_place_refl.
  - destruct (Hs E0) as [H1 H2]. rewrite H1 in E1. rewrite H2 in E2. injection E1 as <-. injection E2 as <-. unfold box_of. rewrite E0, E3.
    apply box_exact; cbn; auto; reflexivity.
Qed.

Theorem view_box_taken e b w h : v_kind e <> KElse -> (v_kind e = KSvg -> v_top e = true) -> v_box e = Some (VRead b) ->
  px_attr (v_width e) = Some w -> px_attr (v_height e) = Some h ->
  min_x b == 0 -> min_y b == 0 -> box_w b == w -> box_h b == h -> remove_view_box e = drop_box e.
Proof.
  intros Hk Ht Eb Ew Eh H1 H2 H3 H4. unfold remove_view_box. rewrite Eb, Ew, Eh.
  apply Qeq_eq_bool in H1, H2, H3, H4. rewrite H1, H2, H3, H4.
  destruct (v_kind e); try contradiction; cbn [andb]; [rewrite (Ht eq_refl)|..]; reflexivity.
Qed.

Theorem dimensions_taken e : v_kind e = KSvg ->
  (v_box e <> None \/ (px_attr (v_width e) <> None /\ px_attr (v_height e) <> None)) ->
  v_width (remove_dimensions e) = None /\ v_height (remove_dimensions e) = None.
Proof.
  intros Hk H. unfold remove_dimensions. rewrite Hk. destruct (v_box e) as [b|]; [split; reflexivity|].
  destruct H as [H|[H1 H2]]; [contradiction|].
  destruct (px_attr (v_width e)); [|contradiction]. destruct (px_attr (v_height e)); [|contradiction]. split; reflexivity.
Qed.

Lemma units l : match to_px l, per_inch l with Some p, Some (q, u) => p / 96 == q / u | None, None => True | _, _ => False end.
Proof. destruct l; cbn; try exact I; field. Qed.
