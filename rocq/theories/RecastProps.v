(** C134: transforms of styles and of attributes. *)
From Coq Require Import Reals List Bool Lra.
From Verif Require Import TransformModel TransformSpec RecastModel RecastSpec RecastProofs.
Import ListNotations.
Open Scope R_scope.

(** [scaleX] of a style becomes another transform in the attribute, *)
Theorem C134_scale_refuted : exists to_matrix l s, true_matrices to_matrix /\ list_from_css to_matrix l = Some s /\ ~ agree s l.
Proof. exact scale_x_lost. Qed.
Print Assumptions C134_scale_refuted.
(** which moves every point onto one line. *)
Theorem C134_flat : forall to_matrix x s opaque p, list_from_css to_matrix [CScaleX (Number x)] = Some s -> snd (acts opaque s p) = 0.
Proof. exact scale_x_flat. Qed.
Print Assumptions C134_flat.
(** All other transforms keep what they do. *)
Theorem C134_back_partial : forall to_matrix l s, true_matrices to_matrix -> no_scale_x l -> list_from_css to_matrix l = Some s -> agree s l.
Proof. exact back. Qed.
Print Assumptions C134_back_partial.
(** The transforms of attributes keep what they do in styles, *)
Theorem C134_forth : forall l, agree l (list_to_css l).
Proof. exact forth. Qed.
Print Assumptions C134_forth.
(** and come back from there, if they have matrices, doing the same. *)
Theorem C134_round_trip : forall to_matrix l, true_matrices to_matrix -> (forall i, In (Css i None) l -> False) ->
  exists s, list_from_css to_matrix (list_to_css l) = Some s /\ same s l.
Proof. exact round_trip. Qed.
Print Assumptions C134_round_trip.

Example C134_example : true_matrices plain_matrices /\ no_scale_x [CTranslateX (Px 3); CScaleY (Number 2); CRotate 30] /\
  list_from_css plain_matrices [CTranslateX (Px 3); CScaleY (Number 2); CRotate 30] = Some [Translate 3 0; Matrix (Mat 1 0 0 2 0 0); Rotate 30 0 0] /\
  list_from_css plain_matrices [CScaleX (Percentage 2)] = None.
Proof.
  split; [apply plain_true|]. split; [intros x [E|[E|[E|[]]]]; discriminate|]. split; reflexivity.
Qed.
Example C134_forth_example : list_to_css [Rotate 90 1 0] = [CMatrix (Mat (cos (to_radians 90)) (sin (to_radians 90)) (- sin (to_radians 90)) (cos (to_radians 90))
  ((1 - cos (to_radians 90)) * 1 + sin (to_radians 90) * 0) ((1 - cos (to_radians 90)) * 0 - sin (to_radians 90) * 1))].
Proof. unfold list_to_css, map, to_css, eqb. destruct (Req_EM_T 1 0); [lra|]. reflexivity. Qed.
