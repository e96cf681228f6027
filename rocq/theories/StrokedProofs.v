From Coq Require Import Reals Lra List Bool Psatz.
From Verif Require Import StrokedModel StrokedSpec.
Import ListNotations.
Open Scope R_scope.

Lemma computed_inherit : forall A (a : el -> option (inh A)) c chain d, no_inherit a c chain -> computed a c chain <> Some (Inherited, d).
Proof.
  intros A a c chain. induction chain as [|e rest IH]; intros d N; cbn [computed]; [discriminate|]. destruct (N e (or_introl eq_refl)) as (N1 & N2).
  destruct (c e) as [[v m]|] eqn:C.
  - intros E. injection E as -> ->. exact (N2 d eq_refl).
  - destruct (a e) as [v|]; [intros E; injection E as -> _; apply N1; reflexivity|]. apply IH. intros x J. apply N. right. exact J.
Qed.
Lemma computed_used : forall A on (i : A) a c chain v, computed a c chain = Some (Defined v, Static) -> used on i a c chain = v.
Proof.
  intros A on i a c chain v. induction chain as [|e rest IH]; cbn [computed used]; [discriminate|]. destruct (c e) as [[x m]|] eqn:C.
  - intros E. injection E as -> ->. reflexivity.
  - cbn [holds]. destruct (a e) as [x|]; [|exact IH]. intros E. injection E as ->. reflexivity.
Qed.
Lemma computed_none : forall A on (i : A) a c chain, computed a c chain = None -> used on i a c chain = i.
Proof.
  intros A on i a c chain. induction chain as [|e rest IH]; cbn [computed used]; [reflexivity|]. destruct (c e); [discriminate|]. cbn [holds].
  destruct (a e); [discriminate|exact IH].
Qed.
Lemma used_initial : forall A on (i : A) a c chain, (forall e, In e chain -> a e = None /\ c e = None) -> used on i a c chain = i.
Proof.
  intros A on i a c chain. induction chain as [|e rest IH]; intros N; cbn [used]; [reflexivity|]. destruct (N e (or_introl eq_refl)) as (-> & ->). cbn [holds].
  apply IH. intros x J. apply N. right. exact J.
Qed.
Lemma same_true : forall x y, same x y = true -> x = y.
Proof. intros x y. unfold same. destruct (Req_EM_T x y); congruence. Qed.
(** Matrices that keep the form of things. *)
Definition similar (m : mat) : Prop := m0 m = m3 m /\ m1 m = - m2 m \/ m0 m = - m3 m /\ m1 m = m2 m.
Definition factor (m : mat) : R := sqrt (m0 m * m0 m + m1 m * m1 m).
Lemma factor_square : forall m, factor m * factor m = m0 m * m0 m + m1 m * m1 m.
Proof. intros m. unfold factor. apply sqrt_sqrt. nra. Qed.
Lemma similar_stretches : forall m, similar m -> stretches m (factor m).
Proof.
  intros m S. split; [apply sqrt_pos|]. intros x y. rewrite factor_square. destruct S as [(A & B)|(A & B)].
  - rewrite <- A. replace (m2 m) with (- m1 m) by lra. ring.
  - rewrite <- B. replace (m3 m) with (- m0 m) by lra. ring.
Qed.
Lemma similar_pen : forall m w x y, similar m -> pen false m w x y <-> pen false unit (w * factor m) x y.
Proof.
  intros m w x y S. destruct (similar_stretches m S) as (K & ST). pose proof (factor_square m) as FS. set (k := factor m) in *. unfold pen, unit. cbn [m0 m1 m2 m3]. split.
  - intros (u & v & E & -> & ->). exists (m0 m * u + m2 m * v), (m1 m * u + m3 m * v). split; [rewrite ST, E; field|]. split; ring.
  - intros (u & v & E & X & Y). assert (X' : x = u) by lra. assert (Y' : y = v) by lra. clear X Y. subst u v. destruct (Req_EM_T k 0) as [Z|Z].
    + exists (w / 2), 0. split; [ring|]. rewrite Z in *. assert (A0 : m0 m = 0) by nra. assert (A1 : m1 m = 0) by nra. rewrite A0, A1.
      assert (E' : x * x + y * y = 0) by (rewrite E; field). split; nra.
    + exists ((m0 m * x + m1 m * y) / (k * k)), ((m2 m * x + m3 m * y) / (k * k)).
      assert (KK : k * k <> 0) by (apply Rmult_integral_contrapositive; split; exact Z).
      assert (Q : (m0 m * x + m1 m * y) * (m0 m * x + m1 m * y) + (m2 m * x + m3 m * y) * (m2 m * x + m3 m * y) = k * k * (x * x + y * y)).
      { rewrite FS. destruct S as [(A & B)|(A & B)]; [rewrite <- A; replace (m2 m) with (- m1 m) by lra; ring|rewrite <- B; replace (m3 m) with (- m0 m) by lra; ring]. }
      split; [|split].
      * transitivity (((m0 m * x + m1 m * y) * (m0 m * x + m1 m * y) + (m2 m * x + m3 m * y) * (m2 m * x + m3 m * y)) / (k * k * (k * k))); [field; exact Z|].
        rewrite Q, E. field. exact Z.
      * transitivity ((x * (m0 m * m0 m + m2 m * m2 m) + y * (m0 m * m1 m + m2 m * m3 m)) / (k * k)); [|field; exact Z].
        destruct S as [(A & B)|(A & B)].
        -- rewrite FS, <- A. replace (m2 m) with (- m1 m) by lra. field. rewrite <- FS. exact KK.
        -- rewrite FS, <- B. replace (m3 m) with (- m0 m) by lra. field. rewrite <- FS. exact KK.
      * transitivity ((y * (m1 m * m1 m + m3 m * m3 m) + x * (m0 m * m1 m + m2 m * m3 m)) / (k * k)); [|field; exact Z].
        destruct S as [(A & B)|(A & B)].
        -- rewrite FS, <- A. replace (m2 m) with (- m1 m) by lra. field. rewrite <- FS. exact KK.
        -- rewrite FS, <- B. replace (m3 m) with (- m0 m) by lra. field. rewrite <- FS. exact KK.
Qed.
Lemma unit_stretches : stretches unit 1.
Proof. split; [lra|]. intros x y. unfold unit. cbn [m0 m1 m2 m3]. ring. Qed.
Lemma times_unit : forall m, times unit m = m.
Proof. intros [a b c d e f]. unfold times, unit. cbn [m0 m1 m2 m3 m4 m5]. f_equal; ring. Qed.

Theorem applied_look : forall round o e ancestors m e', precision o = None -> element round o e ancestors = Applied m e' -> ordinary e ancestors ->
  forall on, same_look on m e e' ancestors.
Proof.
  intros round o e anc m e' P E (T & W & DA & OF & FX & NS & NW & ANC & PL & SV) on. unfold element in E.
  destruct (negb (has_d e) || named e || server (a_fill e) || server (a_stroke e)); [discriminate|].
  destruct (a_transform e) as [| | | |m'] eqn:TA; try discriminate; rewrite T in E; [discriminate|]. unfold apply_matrix in E.
  assert (LO : local on e = Some m') by (unfold local; rewrite T, TA; reflexivity).
  pose proof (computed_inherit _ a_stroke c_stroke (e :: anc) Static NS) as NS'. pose proof (computed_inherit _ a_width c_width (e :: anc) Static NW) as NW'.
  destruct (computed a_stroke c_stroke (e :: anc)) as [[st [|]]|] eqn:CS; [| discriminate |].
  - destruct st as [paint|]; [|exfalso; apply NS'; reflexivity].
    assert (US : used on PNone a_stroke c_stroke (e :: anc) = paint) by (apply computed_used; exact CS).
    assert (UW : exists w, (match computed a_width c_width (e :: anc) with Some (_, Unclear) => False | _ => True end ->
                 used on 1 a_width c_width (e :: anc) = w /\ forall s, match option_map fst (computed a_width c_width (e :: anc)) with Some (Defined w) => w * s | _ => s end = w * s)).
    { destruct (computed a_width c_width (e :: anc)) as [[wd [|]]|] eqn:CW.
      - destruct wd as [w|]; [|exfalso; apply NW'; reflexivity]. exists w. intros _. split; [apply computed_used; exact CW|]. reflexivity.
      - exists 0. intros [].
      - exists 1. intros _. split; [apply computed_none; exact CW|]. intros s. cbn [option_map]. ring. }
    destruct UW as (w & UW).
    assert (E' : match computed a_width c_width (e :: anc) with Some (_, Unclear) => False | _ => True end /\
                 match apply_stroked round o m' paint (option_map fst (computed a_width c_width (e :: anc))) e with None => Kept | Some e' => Applied m' (without_transform e') end = Applied m e').
    { destruct (computed a_width c_width (e :: anc)) as [[wd [|]]|]; [|discriminate|]; split; try exact Logic.I; exact E. }
    destruct E' as (CL & E'). destruct (UW CL) as (UW1 & UW2). clear E UW CL.
    assert (SAME : forall x, a_fill x = a_fill e -> c_fill x = c_fill e -> a_stroke x = a_stroke e -> c_stroke x = c_stroke e -> c_transform x = None -> a_transform x = TAbsent ->
       (paint <> PNone -> (forall a b, pen (fixed on e) m' w a b <-> pen (fixed on x) unit (used on 1 a_width c_width (x :: anc)) a b) /\
          same_dashes (fixed on e || path_length e) m' unit (used on [] a_dash c_dash (e :: anc)) (used on [] a_dash c_dash (x :: anc)) (used on 0 a_offset c_offset (e :: anc)) (used on 0 a_offset c_offset (x :: anc))) ->
       same_look on m' e x anc).
    { intros x F1 F2 S1 S2 T1 T2 K. exists m', unit. split; [exact LO|]. split; [unfold local; rewrite T1, T2; reflexivity|]. split; [apply times_unit|].
      cbv zeta. split; [cbn [used]; rewrite S1, S2; reflexivity|]. split; [cbn [used]; rewrite F1, F2; reflexivity|]. split.
      - rewrite US, UW1. exact K.
      - intros n [Z|Z]; exfalso; destruct (SV on n) as (SV1 & SV2); [exact (SV1 Z)|exact (SV2 Z)]. }
    unfold apply_stroked in E'. destruct paint as [|n|n].
    + injection E' as <- <-. apply SAME; try reflexivity; [exact T|]. intros Z. exfalso. apply Z. reflexivity.
    + destruct (stroked o); [discriminate|].
      destruct ((negb (same (m0 m') (m3 m')) || negb (same (m1 m') (- m2 m'))) && (negb (same (m0 m') (- m3 m')) || negb (same (m1 m') (m2 m')))) eqn:SI; [discriminate|].
      assert (SIM : similar m').
      { unfold similar. apply andb_false_iff in SI. destruct SI as [SI|SI]; [left|right]; apply orb_false_iff in SI; destruct SI as (A & B);
          apply negb_false_iff in A; apply negb_false_iff in B; split; apply same_true; assumption. }
      assert (FE : fixed on e = match a_fixed e with Some b => b | None => false end) by (unfold fixed; rewrite FX; reflexivity).
      assert (AD : used on [] a_dash c_dash anc = []) by (apply used_initial; intros x J; destruct (ANC x J) as (? & ? & ? & ?); split; assumption).
      assert (AO : used on 0 a_offset c_offset anc = 0) by (apply used_initial; intros x J; destruct (ANC x J) as (? & ? & ? & ?); split; assumption).
      destruct (match a_fixed e with Some b => b | None => false end) eqn:AF.
      { injection E' as <- <-. apply SAME; try reflexivity; [exact T|]. intros _. split.
        - intros a b. replace (fixed on (without_transform e)) with (fixed on e) by reflexivity. rewrite FE. cbn [used]. change (used on 1 a_width c_width (e :: anc)) with (used on 1 a_width c_width (e :: anc)) in UW1.
          unfold without_transform. cbn [a_width c_width]. cbn [used] in UW1. rewrite UW1. reflexivity.
        - right. rewrite FE. cbn [orb]. split; reflexivity. }
      unfold scale_of in E'. rewrite P in E'. fold (factor m') in E'. destruct (same (factor m') 1) eqn:S1.
      { apply same_true in S1. injection E' as <- <-. apply SAME; try reflexivity; [exact T|]. intros _. split.
        - intros a b. replace (fixed on (without_transform e)) with (fixed on e) by reflexivity. rewrite FE. cbn [used] in UW1 |- *. unfold without_transform. cbn [a_width c_width]. rewrite UW1.
          rewrite (similar_pen m' w a b SIM), S1, Rmult_1_r. reflexivity.
        - right. rewrite FE, PL. cbn [orb]. exists 1, 1. rewrite <- S1 at 1. split; [apply similar_stretches; exact SIM|]. split; [apply unit_stretches|]. split; reflexivity. }
      rewrite (UW2 (factor m')) in E'. injection E' as <- <-. apply SAME; try reflexivity; [exact T|]. intros _. split.
      * intros a b. unfold fixed. cbn [without_transform a_fixed c_fixed used a_width c_width]. rewrite FX, AF, W. cbn [holds]. apply similar_pen. exact SIM.
      * right. rewrite FE, PL. cbn [orb]. exists (factor m'), 1. split; [apply similar_stretches; exact SIM|]. split; [apply unit_stretches|].
        unfold without_transform. cbn [used a_dash c_dash a_offset c_offset]. rewrite DA, OF. cbn [holds]. split.
        -- destruct (a_dash e) as [[l|]|]; rewrite ?AD; [|reflexivity|reflexivity]. rewrite map_map. apply map_ext. intros d. ring.
        -- destruct (a_offset e) as [[d|]|]; rewrite ?AO; ring.
    + exfalso. destruct (SV on n) as (SV1 & _). exact (SV1 US).
  - assert (US : used on PNone a_stroke c_stroke (e :: anc) = PNone) by (apply computed_none; exact CS).
    assert (E' : Applied m' (without_transform e) = Applied m e') by (destruct (computed a_width c_width (e :: anc)) as [[wd [|]]|]; [exact E|discriminate|exact E]).
    injection E' as <- <-. exists m', unit. split; [exact LO|]. split; [unfold local; cbn [without_transform c_transform a_transform]; rewrite T; reflexivity|]. split; [apply times_unit|].
    cbv zeta. split; [reflexivity|]. split; [reflexivity|]. split; [intros Z; exfalso; apply Z; exact US|].
    intros n [Z|Z]; exfalso; destruct (SV on n) as (SV1 & SV2); [exact (SV1 Z)|exact (SV2 Z)].
Qed.
Lemma option_kept : forall round e ancestors p d m, computed a_stroke c_stroke (e :: ancestors) = Some (Defined p, d) -> p <> PNone ->
  forall x e', element round (mkOptions m true) e ancestors <> Applied x e'.
Proof.
  intros round e anc p d m C N x e'. unfold element. destruct (negb (has_d e) || named e || server (a_fill e) || server (a_stroke e)); [discriminate|].
  assert (K : forall t, apply_matrix round (mkOptions m true) t e anc <> Applied x e').
  { intros t. unfold apply_matrix. rewrite C. destruct d; [|discriminate]. assert (Z : forall w, apply_stroked round (mkOptions m true) t p w e = None) by (intros w; unfold apply_stroked; destruct p; [exfalso; apply N; reflexivity|reflexivity|reflexivity]).
    destruct (computed a_width c_width (e :: anc)) as [[w [|]]|]; rewrite ?Z; discriminate. }
  destruct (a_transform e); try discriminate; destruct (c_transform e) as [[[n|] [|]]|]; try discriminate; try (destruct (mat_eq m0 n); [|discriminate]); try apply K; try (destruct (mat_eq _ _); [apply K|discriminate]).
Qed.
Lemma overridden : forall round o e ancestors m n, a_transform e = TMatrix m -> c_transform e = Some (Some n, Static) -> n <> m -> element round o e ancestors = Kept.
Proof.
  intros round o e anc m n A C N. unfold element. rewrite A, C. destruct (negb (has_d e) || named e || server (a_fill e) || server (a_stroke e)); [reflexivity|].
  destruct (mat_eq m n) eqn:E; [|reflexivity]. exfalso. apply N. unfold mat_eq in E. destruct m as [a b c d f g], n as [a' b' c' d' f' g']. cbn [m0 m1 m2 m3 m4 m5] in E.
  repeat match type of E with (if ?x then _ else _) = _ => destruct x; [|discriminate] end. congruence.
Qed.
