From Coq Require Import List QArith Qcanon Bool Arith Lia.
From Verif Require Import CircleModel CircleSpec.
Import ListNotations.
Local Close Scope Q_scope.
Local Open Scope Qc_scope.

Lemma length_eqb_eq : forall a b, length_eqb a b = true -> a = b.
Proof.
  intros [u n|n] [v m|m]; cbn; intros E; try discriminate.
  - apply andb_prop in E. destruct E as (E1 & E2). apply Nat.eqb_eq in E1. destruct (Qc_eq_dec n m); [congruence|discriminate].
  - destruct (Qc_eq_dec n m); [congruence|discriminate].
Qed.
Lemma length_eqb_refl : forall a, length_eqb a a = true.
Proof. intros [u n|n]; cbn; rewrite ?Nat.eqb_refl; destruct (Qc_eq_dec n n); auto. Qed.
Lemma square_side : forall v, proper v -> vw v = vh v -> vd v = vw v.
Proof.
  intros v (W & H & D & E & _) S. rewrite <- S in E. assert (X : (vd v - vw v) * (vd v + vw v) = 0).
  { assert (Y : (1 + 1) * ((vd v - vw v) * (vd v + vw v)) = 0) by (replace ((1 + 1) * ((vd v - vw v) * (vd v + vw v))) with (vd v * vd v + vd v * vd v - (vw v * vw v + vw v * vw v)) by ring; rewrite E; ring).
    apply Qcmult_integral in Y. destruct Y as [Y|Y]; [apply (f_equal this) in Y; vm_compute in Y; discriminate|exact Y]. }
  apply Qcmult_integral in X. destruct X as [X|X].
  - replace (vd v) with (vd v - vw v + vw v) by ring. rewrite X. ring.
  - assert (A : vd v = 0 /\ vw v = 0).
    { split; apply Qcle_antisym; try assumption.
      - rewrite <- X. replace (vd v) with (vd v + 0) at 1 by ring. apply Qcplus_le_compat; [apply Qcle_refl|exact W].
      - rewrite <- X. replace (vw v) with (0 + vw v) at 1 by ring. apply Qcplus_le_compat; [exact D|apply Qcle_refl]. }
    destruct A as (-> & ->). reflexivity.
Qed.
Lemma radii_kept : forall v c e, proper v ->
  css_rx c Ellipse = None -> css_ry c Ellipse = None -> css_r c Circle = None ->
  (percent (rx e) \/ percent (ry e) -> vw v = vh v) -> radii v c (convert e) = radii v c e.
Proof.
  intros v c e P C1 C2 C3 S. unfold convert, radii. destruct (name e) eqn:N; try (rewrite ?N; reflexivity). unfold derived.
  assert (SD : percent (rx e) \/ percent (ry e) -> vd v = vw v /\ vd v = vh v) by (intros Q; pose proof (S Q) as X; pose proof (square_side v P X) as Y; split; congruence).
  rewrite C1, C2. cbn [declared].
  assert (PX : forall l b, (match l with Percent _ => vd v = b | Dim _ _ => True end) -> pixels v (vd v) l = pixels v b l) by (intros [u n|n] b E; cbn; [reflexivity|rewrite E; reflexivity]).
  destruct (rx e) as [[a|]|] eqn:X; destruct (ry e) as [[b|]|] eqn:Y; cbn [valid_radius used];
    try (cbn [name r]; rewrite C3; cbn [declared]).
  - destruct (length_eqb a b) eqn:Q; [|rewrite N, ?C1, ?C2, ?X, ?Y; reflexivity]. apply length_eqb_eq in Q. subst b. cbn [name r]. rewrite ?C3. cbn [declared]. destruct (valid a); cbn [used]; [|reflexivity].
    destruct a as [u n|n]; [reflexivity|]. destruct (SD (or_introl Logic.I)) as (E1 & E2). cbn [pixels]. rewrite <- E1, <- E2. reflexivity.
  - destruct (valid a); cbn [used]; [|reflexivity]. rewrite (PX a (vw v)); [reflexivity|]. destruct a; [exact Logic.I|]. apply SD. left. exact Logic.I.
  - destruct (valid a); cbn [used]; [|reflexivity]. rewrite (PX a (vw v)); [reflexivity|]. destruct a; [exact Logic.I|]. apply SD. left. exact Logic.I.
  - destruct (valid b); cbn [used]; [|reflexivity]. rewrite (PX b (vh v)); [reflexivity|]. destruct b; [exact Logic.I|]. apply SD. right. exact Logic.I.
  - unfold zero. cbn [valid pixels]. destruct (Qclt_le_dec 0 0); [reflexivity|]. unfold pixels. rewrite !Qcmult_0_l. reflexivity.
  - unfold zero. cbn [valid pixels]. destruct (Qclt_le_dec 0 0); [reflexivity|]. unfold pixels. rewrite !Qcmult_0_l. reflexivity.
  - destruct (valid b); cbn [used]; [|reflexivity]. rewrite (PX b (vh v)); [reflexivity|]. destruct b; [exact Logic.I|]. apply SD. right. exact Logic.I.
  - unfold zero. cbn [valid pixels]. destruct (Qclt_le_dec 0 0); [reflexivity|]. unfold pixels. rewrite !Qcmult_0_l. reflexivity.
  - unfold zero. cbn [valid pixels]. destruct (Qclt_le_dec 0 0); [reflexivity|]. unfold pixels. rewrite !Qcmult_0_l. reflexivity.
Qed.
(** Circles of equal radii are found: nothing is left an ellipse that could be a circle whatever the viewport. *)
Lemma converted : forall e l, name e = Ellipse -> rx e = Some (Len l) -> ry e = Some (Len l) -> name (convert e) = Circle.
Proof. intros e l N X Y. unfold convert, derived. rewrite N, X, Y, length_eqb_refl. reflexivity. Qed.
Theorem others_stay : forall e, name e <> Ellipse -> convert e = e.
Proof. intros e H. unfold convert. destruct (name e); [destruct (H eq_refl)|reflexivity|reflexivity] || (destruct (name e); try reflexivity; destruct (H eq_refl)). Qed.
