From Coq Require Import Reals List ZArith Bool Arith Lra Lia.
From Verif Require Import TransformModel TransformSpec TransformProofs.
Import ListNotations.
Open Scope R_scope.

(** ** The job in exact arithmetic *)
Section Exact.
  Variable printed_length : list transform -> nat.
  Variable rnd : precision -> transform -> transform.
  Hypothesis exact_rnd : forall p t, rnd p t = t.

  (** The translation part is not exactly one to the right and one down. *)
  Definition moves_ok (t : transform) : Prop := match t with Matrix m => ~ (me m = 1 /\ mf m = 1) | _ => True end.

  Lemma map_rnd p l : map (rnd p) l = l.
  Proof. rewrite <- (map_id l) at 2. apply map_ext. intros t. apply exact_rnd. Qed.
  Lemma decomposition_safe m l : ~ (me m = 1 /\ mf m = 1) -> In l (get_compositions m) -> Forall safe l /\ same l [Matrix m].
  Proof.
    intros N I. assert (C : qrcd m = Some l \/ qrab m = Some l).
    { unfold get_compositions in I. destruct (qrcd m) as [q|], (qrab m) as [r|]; cbn in I; intuition congruence. }
    assert (T : Forall turn_ok l) by (destruct C as [C|C]; [eapply qrcd_turns, C|eapply qrab_turns, C]).
    split; [|destruct C as [C|C]; [apply qrcd_ok, C|apply qrab_ok, C]].
    assert (K : Forall not_one l).
    { destruct m as [a b c d e f]. cbn [me mf] in N. unfold qrcd, qrab in C. apply Forall_forall. intros t IN x y ->. intros [-> ->]. apply N.
      destruct (eqb (a * d - b * c) 0); [destruct C; discriminate|]. destruct C as [C|C].
      - destruct (eqb (hypot c d) 0); [discriminate|]. injection C as <-. apply in_app_or in IN. destruct IN as [IN|IN].
        + destruct (negb (eqb e 0) || negb (eqb f 0)); [|destruct IN]. destruct IN as [IN|[]]. injection IN as -> ->. auto.
        + destruct IN as [IN|IN]; [discriminate|]. apply in_app_or in IN. destruct IN as [IN|IN]; match type of IN with In _ (if ?c then _ else _) => destruct c end; (destruct IN as [IN|[]] || destruct IN); discriminate.
      - destruct (eqb (hypot a b) 0); [discriminate|]. injection C as <-. apply in_app_or in IN. destruct IN as [IN|IN].
        + destruct (negb (eqb e 0) || negb (eqb f 0)); [|destruct IN]. destruct IN as [IN|[]]. injection IN as -> ->. auto.
        + repeat (apply in_app_or in IN; destruct IN as [IN|IN]); match type of IN with In _ (if ?c then _ else _) => destruct c end; (destruct IN as [IN|[]] || destruct IN); discriminate. }
    rewrite Forall_forall in *. intros t IN. split; [apply T, IN|apply K, IN].
  Qed.
  Lemma shortest_ok p m l : ~ (me m = 1 /\ mf m = 1) -> (forall d, In d l -> In d (get_compositions m)) -> forall s, same s [Matrix m] ->
    exists r, shortest_of printed_length rnd p s l = Some r /\ same r [Matrix m].
  Proof.
    intros N. induction l as [|d l IH]; intros I s S; cbn [shortest_of]; [eauto|].
    destruct (decomposition_safe m d N (I d (or_introl eq_refl))) as [F SD]. rewrite map_rnd.
    destruct (optimize_ok d F) as (r & O & SR). rewrite O, map_rnd. apply IH; [intros x X; apply I; right; exact X|].
    destruct (_ <=? _)%nat; [eapply same_trans; eassumption|exact S].
  Qed.
  Lemma matrix_to_transform_ok p t : moves_ok t -> exists r, matrix_to_transform printed_length rnd p t = Some r /\ same r [t].
  Proof.
    intros N. destruct t as [m| | | | | |]; cbn [matrix_to_transform]; try (eexists; split; [reflexivity|apply same_refl]).
    rewrite exact_rnd. apply shortest_ok; [exact N|auto|apply same_refl].
  Qed.
  Lemma flat_map_ok p l : Forall moves_ok l -> exists r, flat_map_opt (matrix_to_transform printed_length rnd p) l = Some r /\ same r l.
  Proof.
    induction 1 as [|t l T F IH]; cbn [flat_map_opt]; [eexists; split; [reflexivity|apply same_refl]|].
    destruct (matrix_to_transform_ok p t T) as (a & A & SA). destruct IH as (b & B & SB). rewrite A, B.
    eexists. split; [reflexivity|]. change (t :: l) with ([t] ++ l). apply same_app; assumption.
  Qed.
  Lemma short_rotates_ok : forall n l, (List.length l <= n)%nat -> same (short_rotates l) l.
  Proof.
    induction n as [|n IH]; intros l L; [destruct l; [apply same_refl|cbn in L; lia]|].
    destruct l as [|t l]; [apply same_refl|]. cbn in L.
    assert (K : same (t :: short_rotates l) (t :: l)) by (apply same_cons, IH; lia).
    destruct t as [m|x y|x y|a x y|a|a|i m]; try exact K.
    destruct l as [|t2 l]; [exact K|]. destruct t2 as [m|x2 y2|x2 y2|a x2 y2|a|a|i m]; try exact K.
    destruct l as [|t3 l]; [exact K|]. destruct t3 as [m|x3 y3|x3 y3|a3 x3 y3|a3|a3|i m]; try exact K.
    change (same (if eqb x2 0 && eqb y2 0 && eqb x (- x3) && eqb y (- y3) then Rotate a x y :: short_rotates l
                  else Translate x y :: short_rotates (Rotate a x2 y2 :: Translate x3 y3 :: l)) (Translate x y :: Rotate a x2 y2 :: Translate x3 y3 :: l)).
    destruct (eqb x2 0 && eqb y2 0 && eqb x (- x3) && eqb y (- y3)) eqn:C; [|exact K]. reflect. subst.
    intros o p. change (acts o (Rotate a (- x3) (- y3) :: short_rotates l) p) with (act o (Rotate a (- x3) (- y3)) (acts o (short_rotates l) p)).
    rewrite (IH l) by (cbn in L; lia).
    change (acts o (Translate (- x3) (- y3) :: Rotate a 0 0 :: Translate x3 y3 :: l) p)
      with (act o (Translate (- x3) (- y3)) (act o (Rotate a 0 0) (act o (Translate x3 y3) (acts o l p)))).
    cbn [act fst snd]. apply point_eq; ring.
  Qed.
  Lemma useless_ok t : useless t = true -> same [t] [].
  Proof.
    destruct t as [[a b c d e f]|x y|x y|n x y|n|n|i m]; cbn [useless]; intros E o [u v]; try discriminate; cbn [acts fold_right act fst snd]; reflect; subst.
    - unfold apply. cbn. apply point_eq; ring.
    - apply point_eq; ring.
    - apply point_eq; ring.
    - replace (rad 0) with 0 by (unfold rad; field). rewrite cos_0, sin_0. apply point_eq; ring.
    - replace (rad 0) with 0 by (unfold rad; field). rewrite tan_0. apply point_eq; ring.
    - replace (rad 0) with 0 by (unfold rad; field). rewrite tan_0. apply point_eq; ring.
  Qed.
  Lemma remove_useless_ok o l : same (remove_useless o l) l.
  Proof.
    unfold remove_useless. destruct (o_remove_useless o); [|apply same_refl]. induction l as [|t l IH]; cbn [filter]; [apply same_refl|].
    destruct (useless t) eqn:U; cbn [negb]; [|apply same_cons, IH]. intros q p. rewrite IH. change (t :: l) with ([t] ++ l).
    rewrite acts_app, (useless_ok t U). reflexivity.
  Qed.
  Lemma collapse_ok o l : same (collapse o l) l.
  Proof.
    unfold collapse. destruct (o_collapse_into_one o && (1 <? List.length l)%nat); [|apply same_refl].
    destruct (to_matrix_2d l) as [m|] eqn:E; [apply to_matrix_2d_ok, E|apply same_refl].
  Qed.
  Variable total_digits decimal_digits : R -> Z.
  Lemma convert_ok o l : Forall moves_ok (collapse o l) -> exists r, convert printed_length rnd total_digits decimal_digits o l = Some r /\ same r l.
  Proof.
    intros F. unfold convert, convert_to_shorts. destruct (define_precision total_digits decimal_digits o (collapse o l)) as [deg tr].
    cbv zeta. rewrite !map_rnd. replace (if o_convert_to_shorts o then collapse o l else collapse o l) with (collapse o l) by (destruct (o_convert_to_shorts o); reflexivity).
    assert (H : exists s, (if o_matrix_to_transform o
        then option_map (map (rnd (Precision (o_float_precision o) deg tr))) (flat_map_opt (matrix_to_transform printed_length rnd (Precision (o_float_precision o) deg tr)) (collapse o l))
        else Some (collapse o l)) = Some s /\ same s l).
    { destruct (o_matrix_to_transform o); [|eexists; split; [reflexivity|apply collapse_ok]].
      destruct (flat_map_ok (Precision (o_float_precision o) deg tr) _ F) as (s & E & S). rewrite E. cbn [option_map]. rewrite map_rnd.
      eexists. split; [reflexivity|]. eapply same_trans; [exact S|apply collapse_ok]. }
    destruct H as (s & E & S). rewrite E. eexists. split; [reflexivity|]. eapply same_trans; [apply remove_useless_ok|].
    destruct (o_short_rotate o && (3 <=? List.length s)%nat); [|exact S]. eapply same_trans; [apply (short_rotates_ok _ s (le_n _))|exact S].
  Qed.
End Exact.

(** ** No panic, with the rounding of the code *)
Section Total.
  Variable printed_length : list transform -> nat.
  Variable total_digits decimal_digits : R -> Z.
  Lemma optimize_loop_total p : forall l s, Forall turn_ok l -> optimize_loop (map (round_transform p) l) l s <> None.
  Proof.
    induction l as [|t l IH]; intros s F; [discriminate|]. apply Forall_cons_iff in F. destruct F as [T F]. specialize (fun s => IH s F).
    cbn [map optimize_loop]. destruct s; [apply IH|]. destruct (is_identity (round_transform p t)); [apply IH|].
    assert (PUSH : forall u s, option_map (cons u) (optimize_loop (map (round_transform p) l) l s) <> None).
    { intros u s. specialize (IH s). destruct (optimize_loop _ l s); [discriminate|contradiction]. }
    destruct t as [m|x y|x y|a x y|a|a|i m]; cbn [round_transform]; try apply PUSH; [contradiction T| |].
    - destruct l as [|t2 l]; [apply PUSH|]. apply Forall_cons_iff in F. destruct F as [T2 _].
      destruct t2 as [[a b c d e f]|x2 y2|x2 y2|a x2 y2|a|a|i m]; cbn [map round_transform] in *; try apply PUSH.
      match goal with |- (if ?c then _ else _) <> None => destruct c end; [|apply PUSH].
      destruct T2 as (-> & -> & _). cbn [merge_translate_and_rotate]. rewrite eqb_refl. cbn [andb]. apply PUSH.
    - match goal with |- (if ?c then _ else _) <> None => destruct c end; [|apply PUSH].
      destruct (map (round_transform p) l) as [|[] ?]; apply PUSH.
  Qed.
  Lemma shortest_total p l : Forall (Forall turn_ok) l -> forall s, shortest_of printed_length round_transform p s l <> None.
  Proof.
    induction 1 as [|d l D F IH]; intros s; cbn [shortest_of]; [discriminate|]. unfold optimize.
    pose proof (optimize_loop_total p d false D) as O. destruct (optimize_loop _ d false); [|contradiction]. cbn [option_map]. apply IH.
  Qed.
  Lemma convert_total o l : convert printed_length round_transform total_digits decimal_digits o l <> None.
  Proof.
    unfold convert, convert_to_shorts. destruct (define_precision total_digits decimal_digits o (collapse o l)) as [deg tr].
    assert (H : forall p l, flat_map_opt (matrix_to_transform printed_length round_transform p) l <> None).
    { clear. intros p. induction l as [|t l IH]; cbn [flat_map_opt]; [discriminate|].
      destruct (matrix_to_transform printed_length round_transform p t) eqn:E.
      - destruct (flat_map_opt _ l); [discriminate|contradiction].
      - exfalso. destruct t as [m| | | | | |]; try discriminate. cbn [matrix_to_transform] in E. revert E. apply shortest_total.
        unfold get_compositions. apply Forall_app. split.
        + destruct (qrcd m) eqn:Q; [apply Forall_cons; [eapply qrcd_turns, Q|]|]; apply Forall_nil.
        + destruct (qrab m) eqn:Q; [apply Forall_cons; [eapply qrab_turns, Q|]|]; apply Forall_nil. }
    destruct (o_matrix_to_transform o); [|discriminate].
    match goal with |- context [flat_map_opt ?f ?x] => specialize (H (Precision (o_float_precision o) deg tr) x); destruct (flat_map_opt f x) end; [discriminate|contradiction].
  Qed.
End Total.

(** ** Rounding *)
Lemma int_part_bounds x : IZR (Int_part x) <= x < IZR (Int_part x) + 1.
Proof. destruct (base_Int_part x). lra. Qed.
Lemma int_part_unique x z : IZR z <= x < IZR z + 1 -> Int_part x = z.
Proof.
  intros [L U]. destruct (int_part_bounds x) as [L' U'].
  assert (IZR z < IZR (Int_part x + 1)) by (rewrite plus_IZR; lra). assert (IZR (Int_part x) < IZR (z + 1)) by (rewrite plus_IZR; lra).
  apply lt_IZR in H. apply lt_IZR in H0. lia.
Qed.
Lemma round_error x : Rabs (round x - x) <= 1 / 2.
Proof.
  unfold round. destruct (ltb x 0).
  - destruct (int_part_bounds (- x + 1 / 2)). apply Rabs_le. lra.
  - destruct (int_part_bounds (x + 1 / 2)). apply Rabs_le. lra.
Qed.
Lemma round_int z : round (IZR z) = IZR z.
Proof.
  unfold round. destruct (ltb (IZR z) 0).
  - rewrite (int_part_unique _ (- z)); [rewrite opp_IZR; lra|]. rewrite opp_IZR. lra.
  - rewrite (int_part_unique _ z); lra.
Qed.
Lemma round_whole x : exists z, round x = IZR z.
Proof. unfold round. destruct (ltb x 0); [exists (- Int_part (- x + 1 / 2))%Z; rewrite opp_IZR|eexists]; reflexivity. Qed.
Lemma powi_pos p : 0 < powi 10 p.
Proof. unfold powi. apply powerRZ_lt. lra. Qed.
Lemma to_fixed_error x p : Rabs (to_fixed x p - x) <= 1 / 2 * / powi 10 p.
Proof.
  unfold to_fixed. cbv zeta. pose proof (powi_pos p) as P. replace (round (x * powi 10 p) / powi 10 p - x) with ((round (x * powi 10 p) - x * powi 10 p) * / powi 10 p) by (field; lra).
  rewrite Rabs_mult. rewrite (Rabs_right (/ powi 10 p)) by (left; apply Rinv_0_lt_compat, P).
  apply Rmult_le_compat_r; [left; apply Rinv_0_lt_compat, P|apply round_error].
Qed.
Lemma powi_inv p : powi (1 / 10) p = / powi 10 p.
Proof. unfold powi. replace (1 / 10) with (/ 10) by field. rewrite powerRZ_inv'. reflexivity. Qed.
Lemma powi_succ p : powi 10 (p + 1) = 10 * powi 10 p.
Proof. unfold powi. rewrite powerRZ_add by lra. rewrite powerRZ_1. ring. Qed.
Lemma tolerance_value p : to_fixed (powi (1 / 10) p) p = / powi 10 p.
Proof.
  unfold to_fixed. cbv zeta. pose proof (powi_pos p). rewrite powi_inv, Rinv_l by lra. rewrite (round_int 1). field. lra.
Qed.
Lemma smart_round_error p x : Rabs (smart_round p x - x) < / powi 10 p.
Proof.
  pose proof (powi_pos p) as P. pose proof (Rinv_0_lt_compat _ P) as IP. unfold smart_round. cbv zeta.
  destruct (eqb (to_fixed x p) x) eqn:E; [replace (x - x) with 0 by ring; rewrite Rabs_R0; exact IP|].
  rewrite tolerance_value. unfold geb. destruct (ltb (to_fixed (Rabs (to_fixed x (p - 1) - x)) (p + 1)) (/ powi 10 p)) eqn:G; cbn [negb]; reflect.
  - set (z := Rabs (to_fixed x (p - 1) - x)) in *. unfold to_fixed in G. cbv zeta in G. rewrite powi_succ in G.
    set (N := powi 10 p) in *. clearbody z N. destruct (round_whole (z * (10 * N))) as (k & K).
    pose proof (round_error (z * (10 * N))) as RE. rewrite K in *.
    assert (K10 : IZR k < 10).
    { apply Rmult_lt_reg_r with (/ (10 * N)); [apply Rinv_0_lt_compat; lra|].
      replace (10 * / (10 * N)) with (/ N) by (field; lra). exact G. }
    apply lt_IZR in K10. assert (IZR k <= 9) by (apply IZR_le; lia). apply Rabs_def2b in RE || idtac.
    assert (B : z * (10 * N) - IZR k <= 1 / 2).
    { unfold Rabs in RE. destruct (Rcase_abs (IZR k - z * (10 * N))); lra. }
    apply Rmult_lt_reg_r with N; [exact P|]. rewrite Rinv_l by lra. lra.
  - pose proof (to_fixed_error x p). lra.
Qed.
Lemma round_arg_error p x : (1 <= p < 20)%Z -> Rabs (round_arg p x - x) < / powi 10 p.
Proof.
  intros [L U]. unfold round_arg. rewrite (proj2 (Z.leb_le _ _) L), (proj2 (Z.ltb_lt _ _) U). apply smart_round_error.
Qed.
Lemma round_arg_whole_error p x : ~ (1 <= p < 20)%Z -> Rabs (round_arg p x - x) <= 1 / 2.
Proof.
  intros N. unfold round_arg. destruct ((1 <=? p)%Z && (p <? 20)%Z) eqn:E; [|apply round_error].
  apply andb_true_iff in E. destruct E as [A B]. apply Z.leb_le in A. apply Z.ltb_lt in B. lia.
Qed.
Lemma powi_int p : (0 <= p)%Z -> powi 10 p = IZR (10 ^ p).
Proof.
  intros H. unfold powi. rewrite <- (Z2Nat.id p H). rewrite <- pow_powerRZ. rewrite <- pow_IZR. reflexivity.
Qed.
Lemma to_fixed_int z p : (0 <= p)%Z -> to_fixed (IZR z) p = IZR z.
Proof.
  intros H. unfold to_fixed. cbv zeta. pose proof (powi_pos p). rewrite (powi_int p H) in *. rewrite <- mult_IZR, round_int, mult_IZR. field. lra.
Qed.
Lemma round_arg_int p z : round_arg p (IZR z) = IZR z.
Proof.
  unfold round_arg. destruct ((1 <=? p)%Z && (p <? 20)%Z) eqn:E; [|apply round_int].
  apply andb_true_iff in E. destruct E as [A B]. apply Z.leb_le in A.
  unfold smart_round. cbv zeta. rewrite to_fixed_int by lia. rewrite eqb_refl. reflexivity.
Qed.
(** The precision of a coefficient is an upper bound of its error at each decimal place. *)
Lemma round_transform_matrix p a b c d e f : (1 <= p_transform p < 20)%Z -> (1 <= p_float p < 20)%Z ->
  exists a' b' c' d' e' f', round_transform p (Matrix (Mat a b c d e f)) = Matrix (Mat a' b' c' d' e' f') /\
  Rabs (a' - a) < / powi 10 (p_transform p) /\ Rabs (b' - b) < / powi 10 (p_transform p) /\ Rabs (c' - c) < / powi 10 (p_transform p) /\
  Rabs (d' - d) < / powi 10 (p_transform p) /\ Rabs (e' - e) < / powi 10 (p_float p) /\ Rabs (f' - f) < / powi 10 (p_float p).
Proof.
  intros T F. do 6 eexists. split; [reflexivity|]. split; [|split; [|split; [|split; [|split]]]]; apply round_arg_error; assumption.
Qed.

(** ** Witnesses *)
Definition default_options : options := Options true None 3 5 true true true true.
Lemma acos_0' : acos 0 = PI / 2.
Proof. apply acos_0. Qed.
Lemma hypot_01 : hypot 0 1 = 1.
Proof. unfold hypot. replace (0 * 0 + 1 * 1) with 1 by ring. apply sqrt_1. Qed.
Lemma hypot_10 : hypot 1 0 = 1.
Proof. unfold hypot. replace (1 * 1 + 0 * 0) with 1 by ring. apply sqrt_1. Qed.
Ltac decide_eqb :=
  repeat match goal with
  | |- context [eqb ?x ?y] =>
    first [ rewrite (proj2 (eqb_spec x y)) by (lra || nra || field) | rewrite (proj2 (eqb_false x y)) by (lra || nra) ]
  | |- context [ltb ?x ?y] =>
    first [ rewrite (proj2 (ltb_spec x y)) by lra | rewrite (proj2 (ltb_false x y)) by lra ]
  end; cbn [negb orb andb app].
Definition shift : matrix := Mat 1 0 0 1 1 1.
Lemma qrab_shift : qrab shift = Some [Translate 1 1].
Proof.
  unfold qrab, shift. rewrite hypot_10. replace (1 * 1 - 0 * 0) with 1 by ring. replace (1 * 0 + 0 * 1) with 0 by ring. replace (1 / 1) with 1 by field.
  decide_eqb. reflexivity.
Qed.
Lemma qrcd_shift : qrcd shift = Some [Translate 1 1; Rotate 0 0 0].
Proof.
  unfold qrcd, shift. rewrite hypot_01. replace (1 * 1 - 0 * 0) with 1 by ring. replace (1 * 0 + 0 * 1) with 0 by ring. replace (1 / 1) with 1 by field.
  decide_eqb. replace (- 0 / 1) with 0 by field. rewrite acos_0'. replace (PI / 2 - 1 * (PI / 2)) with 0 by field.
  replace (to_degrees 0) with 0 by (unfold to_degrees; field; apply PI_neq0). reflexivity.
Qed.
Lemma convert_shift printed_length total_digits decimal_digits :
  (printed_length [Scale 1 1] <= printed_length [Matrix shift])%nat ->
  convert printed_length round_transform total_digits decimal_digits default_options [Matrix shift] = Some [].
Proof.
  intros L. unfold convert, collapse. cbn [o_collapse_into_one default_options List.length Nat.ltb Nat.leb andb].
  unfold convert_to_shorts. destruct (define_precision _ _ default_options [Matrix shift]) as [deg tr].
  set (p := Precision _ deg tr). cbn [o_convert_to_shorts o_matrix_to_transform o_short_rotate default_options flat_map_opt matrix_to_transform].
  assert (RM : round_transform p (Matrix shift) = Matrix shift).
  { unfold shift. cbn [round_transform]. rewrite !(round_arg_int _ 1), !(round_arg_int _ 0). reflexivity. }
  assert (RS : round_transform p (Scale 1 1) = Scale 1 1) by (cbn [round_transform]; rewrite !(round_arg_int _ 1); reflexivity).
  assert (RT : round_transform p (Translate 1 1) = Translate 1 1) by (cbn [round_transform]; rewrite !(round_arg_int _ 1); reflexivity).
  assert (RR : round_transform p (Rotate 0 0 0) = Rotate 0 0 0) by (cbn [round_transform]; rewrite !(round_arg_int _ 0); reflexivity).
  rewrite RM. unfold get_compositions. rewrite qrcd_shift, qrab_shift. cbn [app shortest_of map]. rewrite RT, RR.
  unfold optimize. cbn [optimize_loop is_identity]. rewrite !eqb_refl. cbn [andb option_map map]. rewrite RS.
  apply Nat.leb_le in L. rewrite L, Nat.leb_refl. cbn [app map option_map]. rewrite RS.
  cbn [List.length Nat.leb andb]. unfold remove_useless. cbn [o_remove_useless default_options filter useless].
  rewrite !eqb_refl. reflexivity.
Qed.
Lemma shift_moves : ~ same [] [Matrix shift].
Proof. intros S. specialize (S (fun _ p => p) (0, 0)). cbn in S. unfold apply in S. cbn in S. injection S as S _. lra. Qed.

(** Rotation by 45 degrees and scaling by the square root of two. *)
Definition spiral : matrix := Mat 1 1 (-1) 1 0 0.
Lemma sqrt2_bounds : 14 / 10 < sqrt 2 < 15 / 10.
Proof.
  split.
  - rewrite <- (sqrt_Rsqr (14 / 10)) by lra. apply sqrt_lt_1_alt. unfold Rsqr. lra.
  - rewrite <- (sqrt_Rsqr (15 / 10)) by lra. apply sqrt_lt_1_alt. unfold Rsqr. lra.
Qed.
Lemma sqrt2_sq : sqrt 2 * sqrt 2 = 2.
Proof. apply sqrt_sqrt. lra. Qed.
Lemma two_div_sqrt2 : 2 / sqrt 2 = sqrt 2.
Proof. pose proof sqrt2_bounds. pose proof sqrt2_sq. apply Rmult_eq_reg_r with (sqrt 2); [|lra]. unfold Rdiv. rewrite Rmult_assoc, Rinv_l by lra. lra. Qed.
Lemma acos_45 : acos (1 / sqrt 2) = PI / 4.
Proof. rewrite <- cos_PI4. apply acos_cos. pose proof PI_RGT_0. lra. Qed.
Lemma degrees_45 : to_degrees (PI / 4) = 45.
Proof. unfold to_degrees. field. apply PI_neq0. Qed.
Lemma qrab_spiral : qrab spiral = Some [Rotate 45 0 0; Scale (sqrt 2) (sqrt 2)].
Proof.
  pose proof sqrt2_bounds as B. unfold qrab, spiral. replace (hypot 1 1) with (sqrt 2) by (unfold hypot; f_equal; ring).
  replace (1 * 1 - 1 * -1) with 2 by ring. replace (1 * -1 + 1 * 1) with 0 by ring. rewrite two_div_sqrt2.
  assert (NE : 1 / sqrt 2 <> 1). { intros X. assert (1 / sqrt 2 * sqrt 2 = 1) by (field; lra). rewrite X in H. lra. }
  rewrite (proj2 (eqb_false (1 / sqrt 2) 1) NE). decide_eqb. rewrite acos_45, degrees_45. reflexivity.
Qed.
Lemma qrcd_spiral : qrcd spiral = Some [Rotate 45 0 0; Scale (sqrt 2) (sqrt 2)].
Proof.
  pose proof sqrt2_bounds as B. unfold qrcd, spiral. replace (hypot (-1) 1) with (sqrt 2) by (unfold hypot; f_equal; ring).
  replace (1 * 1 - 1 * -1) with 2 by ring. replace (1 * -1 + 1 * 1) with 0 by ring. rewrite two_div_sqrt2.
  decide_eqb. replace (- -1 / sqrt 2) with (1 / sqrt 2) by (field; lra). rewrite acos_45.
  replace (PI / 2 - 1 * (PI / 4)) with (PI / 4) by field. rewrite degrees_45. reflexivity.
Qed.
Lemma round_sqrt2 : round (sqrt 2) = 1.
Proof. pose proof sqrt2_bounds. unfold round. rewrite (proj2 (ltb_false _ _)) by lra. rewrite (int_part_unique _ 1); [reflexivity|lra]. Qed.
Lemma convert_spiral printed_length total_digits decimal_digits :
  (printed_length [Rotate 45 0 0] <= printed_length [Matrix spiral])%nat ->
  (forall z, In z [0; 1; -1]%Z -> total_digits (IZR z) = 1%Z /\ decimal_digits (IZR z) = 0%Z) ->
  convert printed_length round_transform total_digits decimal_digits default_options [Matrix spiral] = Some [Rotate 45 0 0].
Proof.
  intros L D. unfold convert, collapse. cbn [o_collapse_into_one default_options List.length Nat.ltb Nat.leb andb].
  unfold convert_to_shorts.
  assert (DP : define_precision total_digits decimal_digits default_options [Matrix spiral] = (0, 0)%Z).
  { destruct (D 0%Z) as [T0 D0]; [left; reflexivity|]. destruct (D 1%Z) as [T1 D1]; [right; left; reflexivity|]. destruct (D (-1)%Z) as [T2 D2]; [right; right; left; reflexivity|].
    unfold define_precision, spiral. cbn [matrix_data flat_map app map fold_left]. rewrite T0, T1, T2, D0, D1, D2. reflexivity. }
  rewrite DP. set (p := Precision _ 0 0). cbn [o_convert_to_shorts o_matrix_to_transform o_short_rotate default_options flat_map_opt matrix_to_transform].
  assert (RM : round_transform p (Matrix spiral) = Matrix spiral).
  { unfold spiral. cbn [round_transform]. rewrite !(round_arg_int _ 1), !(round_arg_int _ 0), (round_arg_int _ (-1)). reflexivity. }
  assert (RR : round_transform p (Rotate 45 0 0) = Rotate 45 0 0) by (cbn [round_transform]; rewrite !(round_arg_int _ 0), (round_arg_int _ 45); reflexivity).
  assert (RS : round_transform p (Scale (sqrt 2) (sqrt 2)) = Scale 1 1).
  { unfold p. cbn [round_transform p_transform]. unfold round_arg. cbn [Z.leb Z.compare andb]. rewrite round_sqrt2. reflexivity. }
  rewrite RM. unfold get_compositions. rewrite qrcd_spiral, qrab_spiral. cbn [app shortest_of map]. rewrite RR, RS.
  unfold optimize. cbn [optimize_loop is_identity]. rewrite !eqb_refl.
  rewrite (proj2 (eqb_false 45 0)) by lra. rewrite Rabs_right by lra. rewrite (proj2 (eqb_false 45 180)) by lra.
  cbn [andb option_map map]. rewrite RR. apply Nat.leb_le in L. rewrite L, Nat.leb_refl. cbn [app map option_map]. rewrite RR.
  cbn [List.length Nat.leb andb]. unfold remove_useless. cbn [o_remove_useless default_options filter useless].
  rewrite (proj2 (eqb_false 45 0)) by lra. reflexivity.
Qed.
Lemma spiral_moves : ~ same [Rotate 45 0 0] [Matrix spiral].
Proof.
  intros S. specialize (S (fun _ p => p) (1, 0)). cbn [acts fold_right act fst snd] in S. unfold apply, spiral in S. cbn [ma mb mc md me mf fst snd] in S.
  injection S as S _. replace (rad 45) with (PI / 4) in S by (unfold rad; field). rewrite cos_PI4 in S.
  assert (1 / sqrt 2 = 1) by lra. pose proof sqrt2_bounds. assert (1 / sqrt 2 * sqrt 2 = 1) by (field; lra). rewrite H in H1. lra.
Qed.
Lemma compositions_ok m d : In d (get_compositions m) -> same d [Matrix m].
Proof.
  unfold get_compositions. intros I. apply in_app_or in I. destruct I as [I|I].
  - destruct (qrcd m) eqn:Q; [|destruct I]. destruct I as [<-|[]]. apply qrcd_ok, Q.
  - destruct (qrab m) eqn:Q; [|destruct I]. destruct I as [<-|[]]. apply qrab_ok, Q.
Qed.
Lemma compositions_exist m : ma m * md m - mb m * mc m <> 0 -> List.length (get_compositions m) = 2%nat.
Proof.
  destruct m as [a b c d e f]. cbn. intros D. unfold get_compositions, qrcd, qrab. rewrite (proj2 (eqb_false _ _) D).
  assert (H : forall x y, x <> 0 \/ y <> 0 -> hypot x y <> 0).
  { intros x y N E. unfold hypot in E. apply sqrt_eq_0 in E; [|nra]. destruct N as [N|N]; apply N; nra. }
  rewrite (proj2 (eqb_false (hypot c d) 0)). 2:{ apply H. destruct (Req_dec c 0) as [->|]; [right|left; assumption]. intros ->. apply D. ring. }
  rewrite (proj2 (eqb_false (hypot a b) 0)). 2:{ apply H. destruct (Req_dec a 0) as [->|]; [right|left; assumption]. intros ->. apply D. ring. }
  reflexivity.
Qed.
Lemma spiral_error : exists r, round_transform (Precision 3 0 0) (Matrix spiral) = Matrix spiral /\ same [Rotate 45 0 0] [Matrix r] /\ 2 / 10 < Rabs (ma r - ma spiral).
Proof.
  exists (Mat (1 / sqrt 2) (1 / sqrt 2) (- (1 / sqrt 2)) (1 / sqrt 2) 0 0). split; [|split].
  - unfold spiral. cbn [round_transform]. rewrite !(round_arg_int _ 1), !(round_arg_int _ 0), (round_arg_int _ (-1)). reflexivity.
  - intros o p. cbn [acts fold_right act]. unfold apply. cbn [ma mb mc md me mf]. replace (rad 45) with (PI / 4) by (unfold rad; field).
    rewrite cos_PI4, sin_PI4. apply point_eq; ring.
  - cbn [ma spiral]. pose proof sqrt2_bounds as B. assert (1 / sqrt 2 < 8 / 10).
    { apply Rmult_lt_reg_r with (sqrt 2); [lra|]. replace (1 / sqrt 2 * sqrt 2) with 1 by (field; lra). lra. }
    rewrite Rabs_left; lra.
Qed.
Lemma powi_nat p : (0 <= p)%Z -> powi 10 p = 10 ^ Z.to_nat p.
Proof. intros H. unfold powi. rewrite <- (Z2Nat.id p H) at 1. symmetry. apply pow_powerRZ. Qed.
Lemma round_arg_pow p x : (1 <= p < 20)%Z -> Rabs (round_arg p x - x) < / 10 ^ Z.to_nat p.
Proof. intros H. rewrite <- powi_nat by lia. apply round_arg_error, H. Qed.
Lemma too_many_places : exists p x, (20 <= p)%Z /\ ~ Rabs (round_arg p x - x) < / 10 ^ Z.to_nat p.
Proof.
  exists 20%Z, (1 / 3). split; [lia|]. unfold round_arg. cbn [Z.leb Z.ltb Z.compare andb Pos.compare Pos.compare_cont].
  replace (round (1 / 3)) with 0. 2:{ unfold round. rewrite (proj2 (ltb_false _ _)) by lra. rewrite (int_part_unique _ 0); [reflexivity|lra]. }
  intros H. rewrite Rabs_left in H by lra.
  assert (10 ^ 2 <= 10 ^ Z.to_nat 20) by (apply Rle_pow; [lra|vm_compute; lia]).
  assert (/ 10 ^ Z.to_nat 20 <= / 10 ^ 2) by (apply Rinv_le_contravar; lra). lra.
Qed.
Lemma scale_lost : exists l m r,
  l = [Matrix m] /\ same [Rotate 45 0 0] [Matrix r] /\ 2 / 10 < Rabs (ma r - ma m) /\
  forall printed_length total_digits decimal_digits, (printed_length [Rotate 45 0 0] <= printed_length l)%nat ->
  (forall z, In z [0; 1; -1]%Z -> total_digits (IZR z) = 1%Z /\ decimal_digits (IZR z) = 0%Z) ->
  convert printed_length round_transform total_digits decimal_digits default_options l = Some [Rotate 45 0 0].
Proof.
  destruct spiral_error as (r & _ & S & B). exists [Matrix spiral], spiral, r. split; [reflexivity|]. split; [exact S|]. split; [exact B|exact convert_spiral].
Qed.
Lemma transform_example :
  let l := [Matrix (Mat 2 0 0 2 3 4); Rotate 90 0 0] in let o := Options true None 3 5 true true true false in
  (forall m, In (Matrix m) (collapse o l) -> ~ (me m = 1 /\ mf m = 1)) /\
  In [Translate 3 4; Scale 2 2] (get_compositions (Mat 2 0 0 2 3 4)) /\ ~ same l [].
Proof.
  cbv zeta. split; [|split].
  - cbn. intros m [E|[E|[]]]; [injection E as <-; cbn; lra|discriminate].
  - unfold get_compositions. apply in_or_app. right. unfold qrab.
    replace (hypot 2 0) with 2 by (unfold hypot; replace (2 * 2 + 0 * 0) with (2 * 2) by ring; rewrite sqrt_square; lra).
    replace (2 * 2 - 0 * 0) with 4 by ring. replace (2 / 2) with 1 by field. replace (4 / 2) with 2 by field. replace (2 * 0 + 0 * 2) with 0 by ring.
    decide_eqb. left. reflexivity.
  - intros S. specialize (S (fun _ p => p) (0, 0)). cbn in S. unfold apply in S. cbn in S. injection S as S _. lra.
Qed.
Lemma spiral_example : In [Rotate 45 0 0; Scale (sqrt 2) (sqrt 2)] (get_compositions (Mat 1 1 (-1) 1 0 0)).
Proof. unfold get_compositions. change (Mat 1 1 (-1) 1 0 0) with spiral. rewrite qrab_spiral. apply in_or_app. right. left. reflexivity. Qed.
Lemma round_example : round_arg 1 (26 / 100) = 3 / 10.
Proof.
  unfold round_arg. cbn [Z.leb Z.ltb Z.compare andb Pos.compare Pos.compare_cont]. unfold smart_round. cbv zeta. rewrite tolerance_value.
  assert (P1 : powi 10 1 = 10) by (unfold powi; rewrite powerRZ_1; reflexivity).
  assert (P0 : powi 10 (1 - 1) = 1) by reflexivity.
  assert (P2 : powi 10 (1 + 1) = 100) by (rewrite powi_succ, P1; ring).
  assert (E1 : to_fixed (26 / 100) 1 = 3 / 10).
  { unfold to_fixed. cbv zeta. rewrite P1. unfold round. rewrite (proj2 (ltb_false _ _)) by lra. rewrite (int_part_unique _ 3); lra. }
  assert (E0 : to_fixed (26 / 100) (1 - 1) = 0).
  { unfold to_fixed. cbv zeta. rewrite P0. unfold round. rewrite (proj2 (ltb_false _ _)) by lra. rewrite (int_part_unique _ 0); lra. }
  rewrite E1, E0. rewrite (proj2 (eqb_false _ _)) by lra. rewrite (Rabs_left (0 - 26 / 100)) by lra.
  assert (E2 : to_fixed (- (0 - 26 / 100)) (1 + 1) = 26 / 100).
  { unfold to_fixed. cbv zeta. rewrite P2. unfold round. rewrite (proj2 (ltb_false _ _)) by lra. rewrite (int_part_unique _ 26); lra. }
  rewrite E2, P1. unfold geb. rewrite (proj2 (ltb_false _ _)) by lra. reflexivity.
Qed.
Lemma convert_same printed_length rnd total_digits decimal_digits o l :
  (forall p t, rnd p t = t) ->
  (forall m, In (Matrix m) (collapse o l) -> ~ (me m = 1 /\ mf m = 1)) ->
  exists r, convert printed_length rnd total_digits decimal_digits o l = Some r /\ same r l.
Proof.
  intros E H. apply convert_ok; [exact E|]. apply Forall_forall. intros [m| | | | | |] I; try exact Logic.I. apply H, I.
Qed.
