(** C73: applying transforms keeps the look of strokes and fills. *)
From Coq Require Import Reals Lra List Bool.
From Verif Require Import StrokedModel StrokedSpec StrokedProofs.
Import ListNotations.
Open Scope R_scope.

(** Ordinary elements: the points of the path, the pen, the dashes and the paint are as before, for any matrix and whichever media queries hold. *)
Theorem C73_look_partial : forall round o e ancestors m e', precision o = None -> element round o e ancestors = Applied m e' -> ordinary e ancestors ->
  forall on, same_look on m e e' ancestors.
Proof. exact applied_look. Qed.
Print Assumptions C73_look_partial.
(** A transform that a stylesheet overrides is not applied. *)
Theorem C73_overridden : forall round o e ancestors m n, a_transform e = TMatrix m -> c_transform e = Some (Some n, Static) -> n <> m -> element round o e ancestors = Kept.
Proof. exact overridden. Qed.
Print Assumptions C73_overridden.

Local Definition two : mat := Mat 2 0 0 2 0 0.
Local Definition basic : options := mkOptions None false.
Local Definition group : el := El false false false TAbsent None None None (Some (Defined (PColor 1))) None None None None None None None None None.
Local Ltac tests := repeat match goal with |- context [Req_EM_T ?a ?b] => let H := fresh in destruct (Req_EM_T a b) as [H|H]; try (exfalso; lra) end.
Local Lemma factor_two : sqrt (2 * 2 + 0 * 0) = 2.
Proof. apply sqrt_lem_1; lra. Qed.
Local Ltac run := unfold element, apply_matrix, apply_stroked, scale_of, same, two; cbn [has_d named a_fill a_stroke a_transform c_transform computed c_stroke a_width c_width option_map fst negb orb server stroked precision basic m0 m1 m2 m3 m4 m5 a_fixed group]; rewrite ?factor_two; tests; cbn [negb orb andb].

(** A stroked path in a group, with dashes. *)
Local Definition dashed : el := El true false false (TMatrix two) None None None None None (Some (Defined 3)) None (Some (Defined [4; 1])) None None None None None.
Example C73_dashed : forall round,
  element round basic dashed [group] =
    Applied two (El true false false TAbsent None None None None None (Some (Defined (3 * 2))) None (Some (Defined [4 * 2; 1 * 2])) None None None None None) /\ ordinary dashed [group].
Proof.
  intros round. unfold dashed. split; [run; reflexivity|]. unfold ordinary. cbn [c_transform c_width c_dash c_offset c_fixed path_length].
  do 5 (split; [reflexivity|]). split; [|split; [|split; [|split; [reflexivity|]]]].
  - intros e [<-|[<-|[]]]; cbn; split; try discriminate; intros; discriminate.
  - intros e [<-|[<-|[]]]; cbn; split; try discriminate; intros; discriminate.
  - intros e [<-|[]]. cbn. repeat split.
  - intros on n. cbn. split; discriminate.
Qed.

Example C73_overridden_example : let e := El true false false (TMatrix two) (Some (Some unit, Static)) None None None None None None None None None None None None in
  a_transform e = TMatrix two /\ c_transform e = Some (Some unit, Static) /\ unit <> two.
Proof. split; [reflexivity|]. split; [reflexivity|]. intros E. apply (f_equal m0) in E. unfold unit, two in E. cbn [m0] in E. lra. Qed.

(** A transform in a stylesheet that is the same as the attribute: the path is transformed twice. *)
Theorem C73_twice_refuted : exists e m e', (forall round, element round basic e [] = Applied m e') /\ ~ same_look false m e e' [].
Proof.
  exists (El true false false (TMatrix two) (Some (Some two, Static)) None None None None None None None None None None None None), two,
         (El true false false TAbsent (Some (Some two, Static)) None None None None None None None None None None None None).
  split; [intros round; unfold element, mat_eq; run; reflexivity|].
  intros (l & l' & L & L' & T & _). injection L as <-. injection L' as <-. pose proof (f_equal m0 T) as X. unfold times, two in X. cbn [m0 m1 m2] in X. lra.
Qed.
Print Assumptions C73_twice_refuted.
(** A transform in a media query: it is on top of the attribute then. *)
Theorem C73_media_refuted : exists e m e', (forall round, element round basic e [] = Applied m e') /\ ~ same_look true m e e' [].
Proof.
  exists (El true false false (TMatrix two) (Some (Some unit, Unclear)) None None None None None None None None None None None None), two,
         (El true false false TAbsent (Some (Some unit, Unclear)) None None None None None None None None None None None None).
  split; [intros round; run; reflexivity|].
  intros (l & l' & L & L' & T & _). injection L as <-. injection L' as <-. pose proof (f_equal m0 T) as X. unfold times, two, unit in X. cbn [m0 m1 m2] in X. lra.
Qed.
Print Assumptions C73_media_refuted.
(** A transform in a stylesheet that cannot be an attribute, such as [translate(50%)]. *)
Theorem C73_panic_refuted : exists e, forall round o, element round o e [] = Panic.
Proof. exists (El true false false (TMatrix two) (Some (None, Static)) None None None None None None None None None None None None). intros round o. reflexivity. Qed.
Print Assumptions C73_panic_refuted.

(** A width in a stylesheet: the attribute that is written does not count. *)
Theorem C73_width_rule_refuted : exists e m e', (forall round, element round basic e [group] = Applied m e') /\ ~ same_look false m e e' [group].
Proof.
  exists (El true false false (TMatrix two) None None None None None None (Some (Defined 1, Static)) None None None None None None), two,
         (El true false false TAbsent None None None None None (Some (Defined (1 * 2))) (Some (Defined 1, Static)) None None None None None None).
  split; [intros round; run; reflexivity|].
  intros (l & l' & L & L' & _ & _ & _ & S & _). injection L as <-. injection L' as <-. destruct S as (P & _); [discriminate|]. destruct (P 1 0) as (P1 & _).
  destruct P1 as (u & v & E & X & Y); [|cbn in E, X, Y; nra]. exists (1 / 2), 0. cbn. lra.
Qed.
Print Assumptions C73_width_rule_refuted.
(** [stroke="inherit"]: the width is not changed. *)
Theorem C73_inherit_refuted : exists e m e', (forall round, element round basic e [group] = Applied m e') /\ ~ same_look false m e e' [group].
Proof.
  exists (El true false false (TMatrix two) None None None (Some Inherited) None None None None None None None None None), two,
         (El true false false TAbsent None None None (Some Inherited) None None None None None None None None None).
  split; [intros round; run; reflexivity|].
  intros (l & l' & L & L' & _ & _ & _ & S & _). injection L as <-. injection L' as <-. destruct S as (P & _); [discriminate|]. destruct (P 1 0) as (P1 & _).
  destruct P1 as (u & v & E & X & Y); [|cbn in E, X, Y; nra]. exists (1 / 2), 0. cbn. lra.
Qed.
Print Assumptions C73_inherit_refuted.
(** [stroke-width="inherit"] is taken for 1. *)
Theorem C73_inherit_width_refuted : exists e a m e', (forall round, element round basic e [a] = Applied m e') /\ ~ same_look false m e e' [a].
Proof.
  exists (El true false false (TMatrix two) None None None None None (Some Inherited) None None None None None None None),
         (El false false false TAbsent None None None (Some (Defined (PColor 1))) None (Some (Defined 3)) None None None None None None None), two,
         (El true false false TAbsent None None None None None (Some (Defined 2)) None None None None None None None).
  split; [intros round; run; reflexivity|].
  intros (l & l' & L & L' & _ & _ & _ & S & _). injection L as <-. injection L' as <-. destruct S as (P & _); [discriminate|]. destruct (P 3 0) as (P1 & _).
  destruct P1 as (u & v & E & X & Y); [|cbn in E, X, Y; nra]. exists (3 / 2), 0. cbn. lra.
Qed.
Print Assumptions C73_inherit_width_refuted.
(** Dashes that come from a group stay as they are. *)
Theorem C73_dashes_refuted : exists e a m e', (forall round, element round basic e [a] = Applied m e') /\ ~ same_look false m e e' [a].
Proof.
  exists (El true false false (TMatrix two) None None None None None None None None None None None None None),
         (El false false false TAbsent None None None (Some (Defined (PColor 1))) None None None (Some (Defined [4])) None None None None None), two,
         (El true false false TAbsent None None None None None (Some (Defined 2)) None None None None None None None).
  split; [intros round; run; reflexivity|].
  intros (l & l' & L & L' & _ & _ & _ & S & _). injection L as <-. injection L' as <-. destruct S as (_ & D); [discriminate|]. cbn in D. destruct D as [(D & _)|D]; [discriminate|].
  destruct D as (k & k' & (K0 & K) & (K0' & K') & D & _). injection D as D. specialize (K 1 0). specialize (K' 1 0). unfold two, unit in K, K'. cbn [m0 m1 m2 m3] in K, K'. nra.
Qed.
Print Assumptions C73_dashes_refuted.
(** Dashes of a path that has a [pathLength] change. *)
Theorem C73_path_length_refuted : exists e m e', (forall round, element round basic e [group] = Applied m e') /\ ~ same_look false m e e' [group].
Proof.
  exists (El true false true (TMatrix two) None None None None None None None (Some (Defined [4])) None None None None None), two,
         (El true false true TAbsent None None None None None (Some (Defined 2)) None (Some (Defined [4 * 2])) None None None None None).
  split; [intros round; run; reflexivity|].
  intros (l & l' & L & L' & _ & _ & _ & S & _). injection L as <-. injection L' as <-. destruct S as (_ & D); [discriminate|]. cbn in D. destruct D as [(D & _)|(D & _)]; [discriminate|].
  injection D as D. lra.
Qed.
Print Assumptions C73_path_length_refuted.
(** [vector-effect: non-scaling-stroke] in a stylesheet is not noticed. *)
Theorem C73_fixed_refuted : exists e m e', (forall round, element round basic e [group] = Applied m e') /\ ~ same_look false m e e' [group].
Proof.
  exists (El true false false (TMatrix two) None None None None None None None None None None None None (Some (true, Static))), two,
         (El true false false TAbsent None None None None None (Some (Defined 2)) None None None None None None (Some (true, Static))).
  split; [intros round; run; reflexivity|].
  intros (l & l' & L & L' & _ & _ & _ & S & _). injection L as <-. injection L' as <-. destruct S as (P & _); [discriminate|]. destruct (P (1 / 2) 0) as (P1 & _).
  destruct P1 as (u & v & E & X & Y); [|cbn in E, X, Y; nra]. exists (1 / 2), 0. cbn. lra.
Qed.
Print Assumptions C73_fixed_refuted.
(** A gradient that comes from a group is at another place. *)
Theorem C73_gradient_refuted : exists e a m e', (forall round, element round basic e [a] = Applied m e') /\ ~ same_look false m e e' [a].
Proof.
  exists (El true false false (TMatrix two) None None None None None None None None None None None None None),
         (El false false false TAbsent None (Some (Defined (PServer 1))) None None None None None None None None None None None), two,
         (El true false false TAbsent None None None None None None None None None None None None None).
  split; [intros round; run; reflexivity|].
  intros (l & l' & L & L' & _ & _ & _ & _ & G). injection L as <-. injection L' as <-. specialize (G 1%nat (or_intror eq_refl)). pose proof (f_equal m0 G) as X. unfold unit, two in X. cbn [m0] in X. lra.
Qed.
Print Assumptions C73_gradient_refuted.
(** The option to apply transforms to paths with a stroke does the opposite: with it, none is. *)
Theorem C73_option_refuted : (exists e m e', (forall round, element round (mkOptions None false) e [group] = Applied m e') /\ forall round, element round (mkOptions None true) e [group] = Kept) /\
  forall round e ancestors p d m, computed a_stroke c_stroke (e :: ancestors) = Some (Defined p, d) -> p <> PNone -> forall x e', element round (mkOptions m true) e ancestors <> Applied x e'.
Proof.
  split.
  - exists dashed, two, (El true false false TAbsent None None None None None (Some (Defined (3 * 2))) None (Some (Defined [4 * 2; 1 * 2])) None None None None None).
    split; intros round; unfold dashed; run; reflexivity.
  - exact option_kept.
Qed.
Print Assumptions C73_option_refuted.
