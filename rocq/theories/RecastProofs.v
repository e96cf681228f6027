From Coq Require Import Reals List ZArith Bool Arith Lra.
From Verif Require Import TransformModel TransformSpec RecastModel RecastSpec.
Import ListNotations.
Open Scope R_scope.

Lemma eqb_true x y : eqb x y = true -> x = y.
Proof. unfold eqb. destruct (Req_EM_T x y); [auto|discriminate]. Qed.
Lemma to_css_act opaque size t p : css_act opaque size (to_css t) p = act opaque t p.
Proof.
  destruct t as [m|x y|x y|d x y|d|d|i m]; try reflexivity. cbn [to_css act]. destruct (eqb x 0 && eqb y 0) eqn:E.
  - apply andb_prop in E. destruct E as [A B]. apply eqb_true in A. apply eqb_true in B. subst. cbn [css_act]. cbv zeta. f_equal; ring.
  - cbv zeta. cbn [css_act]. unfold apply. cbn [ma mb mc md me mf]. change (to_radians d) with (rad d). f_equal; ring.
Qed.
Theorem forth l : agree l (list_to_css l).
Proof.
  intros opaque size p. unfold acts, css_acts, list_to_css. induction l as [|t l IH]; [reflexivity|]. cbn [map fold_right]. rewrite to_css_act, IH. reflexivity.
Qed.
Section From.
  Variable to_matrix : css -> option matrix.
  Hypothesis good : true_matrices to_matrix.
  Lemma by_matrix_act t s opaque size p : by_matrix to_matrix t = Some s -> act opaque s p = css_act opaque size t p.
  Proof.
    unfold by_matrix. intros E. assert (X : (exists i m, t = COther i (Some m) /\ s = Matrix m) \/ exists m, to_matrix t = Some m /\ s = Matrix m).
    { destruct t; cbv beta iota in E; try (destruct (to_matrix _) as [m'|] eqn:M; [|discriminate]; injection E as <-; right; exists m'; split; reflexivity).
      destruct m as [m|]; [|discriminate]. injection E as <-. left. eauto. }
    destruct X as [(i & m & -> & ->)|(m & M & ->)]; [reflexivity|]. cbn [act]. symmetry. apply good, M.
  Qed.
  Lemma from_css_act t s opaque size p : (forall x, t <> CScaleX x) -> from_css to_matrix t = Some s -> act opaque s p = css_act opaque size t p.
  Proof.
    intros NS E. destruct t as [m|x y|x|y|x y|x|y|a|a|a|i m]; cbn [from_css] in E.
    - injection E as <-. reflexivity.
    - destruct x as [x|i|i], y as [y|j|j]; try discriminate; try (apply by_matrix_act, E). injection E as <-. reflexivity.
    - destruct x as [x|i|i]; try discriminate; [|apply by_matrix_act, E]. injection E as <-. cbn [act css_act length_value]. f_equal. ring.
    - apply by_matrix_act, E.
    - destruct x as [x|x], y as [y|y]; try discriminate. injection E as <-. reflexivity.
    - destruct (NS x eq_refl).
    - apply by_matrix_act, E.
    - injection E as <-. cbn [act css_act]. cbv zeta. f_equal; ring.
    - injection E as <-. reflexivity.
    - injection E as <-. reflexivity.
    - apply by_matrix_act, E.
  Qed.
  Lemma back_same l : forall s, no_scale_x l -> list_from_css to_matrix l = Some s -> agree s l.
  Proof.
    induction l as [|t l IH]; intros s NS E opaque size p.
    - injection E as <-. reflexivity.
    - cbn [list_from_css] in E. destruct (from_css to_matrix t) as [t'|] eqn:T; [|discriminate]. destruct (list_from_css to_matrix l) as [l'|] eqn:L; [|discriminate]. injection E as <-.
      cbn [acts css_acts fold_right]. rewrite (from_css_act t t' opaque size _ (fun x E => NS x (or_introl E)) T). unfold css_acts. cbn [fold_right]. f_equal.
      apply (IH l' (fun x I => NS x (or_intror I)) eq_refl).
  Qed.
End From.
Theorem back to_matrix l s : true_matrices to_matrix -> no_scale_x l -> list_from_css to_matrix l = Some s -> agree s l.
Proof. intros G. apply back_same, G. Qed.
Lemma to_css_no_scale t x : to_css t <> CScaleX x.
Proof. destruct t as [m|a b|a b|d a b|d|d|i m]; cbn [to_css]; try discriminate. destruct (eqb a 0 && eqb b 0); discriminate. Qed.
Lemma to_css_from to_matrix t : (forall i, t <> Css i None) -> exists s, from_css to_matrix (to_css t) = Some s.
Proof.
  intros N. destruct t as [m|a b|a b|d a b|d|d|i m]; cbn [to_css]; try (eexists; reflexivity).
  - destruct (eqb a 0 && eqb b 0); eexists; reflexivity.
  - destruct m as [m|]; [eexists; reflexivity|destruct (N i eq_refl)].
Qed.
Theorem round_trip to_matrix l : true_matrices to_matrix -> (forall i, In (Css i None) l -> False) -> exists s, list_from_css to_matrix (list_to_css l) = Some s /\ same s l.
Proof.
  intros G N. assert (E : exists s, list_from_css to_matrix (list_to_css l) = Some s).
  { clear G. induction l as [|t l IH]; [exists []; reflexivity|]. destruct (to_css_from to_matrix t (fun i E => N i (or_introl E))) as (s & S). destruct (IH (fun i I => N i (or_intror I))) as (r & R).
    exists (s :: r). cbn [list_to_css map list_from_css]. rewrite S. unfold list_to_css in R. rewrite R. reflexivity. }
  destruct E as (s & E). exists s. split; [exact E|]. intros opaque p.
  assert (NS : no_scale_x (list_to_css l)) by (intros x I; unfold list_to_css in I; apply in_map_iff in I; destruct I as (t & T & _); exact (to_css_no_scale t x T)).
  rewrite (back to_matrix _ s G NS E opaque (fun _ => 0) p). symmetry. apply forth.
Qed.
Lemma plain_true : true_matrices plain_matrices.
Proof.
  intros t m E opaque size p. destruct t as [m'|x y|x|y|x y|x|y|a|a|a|i m']; try discriminate.
  - destruct y as [y|j|j]; try discriminate. injection E as <-. unfold css_act, apply. cbn [ma mb mc md me mf length_value]. f_equal; ring.
  - injection E as <-. unfold css_act, apply. cbn [ma mb mc md me mf]. f_equal; ring.
Qed.
Theorem scale_x_lost : exists to_matrix l s, true_matrices to_matrix /\ list_from_css to_matrix l = Some s /\ ~ agree s l.
Proof.
  exists plain_matrices, [CScaleX (Number 2)], [Scale 2 0]. split; [apply plain_true|]. split; [reflexivity|]. intros A.
  specialize (A (fun _ p => p) (fun _ => 0) (1, 1)). cbn in A. injection A as A. lra.
Qed.
(** Nothing is visible after it: all points come to lie on one line. *)
Theorem scale_x_flat to_matrix x s opaque p : list_from_css to_matrix [CScaleX (Number x)] = Some s -> snd (acts opaque s p) = 0.
Proof. intros E. injection E as <-. cbn. ring. Qed.
