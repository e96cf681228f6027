From Coq Require Import Reals List ZArith Bool Arith Lra Lia.
From Verif Require Import TransformModel TransformSpec.
Import ListNotations.
Open Scope R_scope.

Lemma eqb_spec x y : eqb x y = true <-> x = y.
Proof. unfold eqb. destruct (Req_EM_T x y); split; congruence. Qed.
Lemma eqb_false x y : eqb x y = false <-> x <> y.
Proof. unfold eqb. destruct (Req_EM_T x y); split; congruence. Qed.
Lemma eqb_refl x : eqb x x = true.
Proof. apply eqb_spec. reflexivity. Qed.
Lemma ltb_spec x y : ltb x y = true <-> x < y.
Proof. unfold ltb. destruct (Rlt_dec x y); split; auto; discriminate || contradiction. Qed.
Lemma ltb_false x y : ltb x y = false <-> y <= x.
Proof. unfold ltb. destruct (Rlt_dec x y); split; intros H; try discriminate; auto; lra. Qed.

Ltac reflect :=
  repeat match goal with
  | H : _ && _ = true |- _ => apply andb_true_iff in H; destruct H
  | H : negb _ = true |- _ => apply negb_true_iff in H
  | H : negb _ = false |- _ => apply negb_false_iff in H
  | H : _ || _ = false |- _ => apply orb_false_iff in H; destruct H
  | H : eqb _ _ = true |- _ => apply eqb_spec in H
  | H : eqb _ _ = false |- _ => apply eqb_false in H
  | H : ltb _ _ = true |- _ => apply ltb_spec in H
  | H : ltb _ _ = false |- _ => apply ltb_false in H
  end.

(** ** Meaning *)
Lemma same_refl l : same l l.
Proof. intros o p. reflexivity. Qed.
Lemma same_trans a b c : same a b -> same b c -> same a c.
Proof. intros H K o p. rewrite H. apply K. Qed.
Lemma same_sym a b : same a b -> same b a.
Proof. intros H o p. symmetry. apply H. Qed.
Lemma acts_app o a b p : acts o (a ++ b) p = acts o a (acts o b p).
Proof. unfold acts. apply fold_right_app. Qed.
Lemma same_app a a' b b' : same a a' -> same b b' -> same (a ++ b) (a' ++ b').
Proof. intros H K o p. rewrite !acts_app, K. apply H. Qed.
Lemma same_cons t a b : same a b -> same (t :: a) (t :: b).
Proof. intros H o p. cbn [acts fold_right]. f_equal. apply H. Qed.

Lemma point_eq (x y x' y' : R) : x = x' -> y = y' -> (x, y) = (x', y').
Proof. intros -> ->. reflexivity. Qed.

Lemma to_matrix1_ok o t m : to_matrix1 t = Some m -> forall p, act o t p = apply m p.
Proof.
  destruct t as [m'|x y|x y|n x y|n|n|i [m'|]]; cbn [to_matrix1 act]; intros E p;
    try (injection E as <-); unfold apply; cbn [ma mb mc md me mf fst snd]; try discriminate; try reflexivity;
    try (apply point_eq; unfold rad, to_radians; ring).
  destruct (eqb x 0 && eqb y 0) eqn:Z; injection E as <-; cbn [ma mb mc md me mf]; reflect; subst; apply point_eq; unfold rad, to_radians; ring.
Qed.
Lemma apply_mul m n p : apply (mul m n) p = apply m (apply n p).
Proof. destruct m, n. unfold apply, mul. cbn. apply point_eq; ring. Qed.
Lemma apply_identity p : apply identity p = p.
Proof. destruct p. unfold apply, identity. cbn. apply point_eq; ring. Qed.
Lemma to_matrix_from_ok o l : forall acc m, to_matrix_from acc l = Some m -> forall p, apply m p = apply acc (acts o l p).
Proof.
  induction l as [|t l IH]; intros acc m E p; cbn [to_matrix_from] in E; [injection E as <-; reflexivity|].
  destruct (to_matrix1 t) as [n|] eqn:T; [|discriminate]. rewrite (IH _ _ E), apply_mul. cbn [acts fold_right]. f_equal.
  symmetry. apply (to_matrix1_ok o t n T).
Qed.
Lemma to_matrix_2d_ok l m : to_matrix_2d l = Some m -> same [Matrix m] l.
Proof. intros E o p. cbn [acts fold_right act]. rewrite (to_matrix_from_ok o l _ _ E p), apply_identity. reflexivity. Qed.

(** ** Trigonometry *)
Lemma rad_degrees a : rad (to_degrees a) = a.
Proof. unfold rad, to_degrees. field. apply PI_neq0. Qed.
Lemma hypot_sq x y : hypot x y * hypot x y = x * x + y * y.
Proof. unfold hypot. apply sqrt_sqrt. nra. Qed.
Lemma hypot_nonneg x y : 0 <= hypot x y.
Proof. apply sqrt_pos. Qed.
Lemma unit_bounds u v r : 0 < r -> r * r = u * u + v * v -> -1 <= u / r <= 1.
Proof.
  intros P E. assert (u * u <= r * r) by nra. assert (- r <= u <= r) by nra.
  split; [apply Rmult_le_reg_r with r; [exact P|]; unfold Rdiv; rewrite Rmult_assoc, Rinv_l by lra; lra|].
  apply Rmult_le_reg_r with r; [exact P|]. unfold Rdiv. rewrite Rmult_assoc, Rinv_l by lra. lra.
Qed.
(** The sine of the angle whose cosine is [u / r]. *)
Lemma sin_acos_div u v r : 0 < r -> r * r = u * u + v * v -> sin (acos (u / r)) = Rabs v / r.
Proof.
  intros P E. destruct (unit_bounds u v r P E) as [L U]. rewrite sin_acos by (split; lra).
  replace (1 - Rsqr (u / r)) with (Rsqr (v / r)).
  - rewrite sqrt_Rsqr_abs. unfold Rdiv. rewrite Rabs_mult. f_equal. apply Rabs_right. left. apply Rinv_0_lt_compat, P.
  - unfold Rsqr, Rdiv. apply Rmult_eq_reg_r with (r * r); [|nra]. field_simplify; [|lra|lra]. nra.
Qed.

Lemma pos_of r : 0 <= r -> r <> 0 -> 0 < r.
Proof. intros. lra. Qed.

(** ** The decompositions *)
Lemma translate_part o e f p :
  acts o (if negb (eqb e 0) || negb (eqb f 0) then [Translate e f] else []) p = (fst p + e, snd p + f).
Proof.
  destruct (negb (eqb e 0) || negb (eqb f 0)) eqn:E; [reflexivity|]. reflect. subst. destruct p. cbn. apply point_eq; ring.
Qed.
Lemma scale_part o x y p :
  acts o (if negb (eqb x 1) || negb (eqb y 1) then [Scale x y] else []) p = (x * fst p, y * snd p).
Proof.
  destruct (negb (eqb x 1) || negb (eqb y 1)) eqn:E; [reflexivity|]. reflect. subst. destruct p. cbn. apply point_eq; ring.
Qed.
Lemma qrab_rotation o a b r p : 0 < r -> r * r = a * a + b * b ->
  acts o (if negb (eqb (a / r) 1) then [Rotate (to_degrees (if ltb b 0 then acos (a / r) * -1 else acos (a / r))) 0 0] else []) p =
  (a / r * fst p - b / r * snd p, b / r * fst p + a / r * snd p).
Proof.
  intros P E. pose proof (unit_bounds a b r P E) as [L U].
  assert (SB : sin (if ltb b 0 then acos (a / r) * -1 else acos (a / r)) = b / r).
  { destruct (ltb b 0) eqn:B; reflect.
    - replace (acos (a / r) * -1) with (- acos (a / r)) by ring. rewrite sin_neg, (sin_acos_div a b r P E), Rabs_left by lra.
      field. lra.
    - rewrite (sin_acos_div a b r P E), Rabs_right by lra. reflexivity. }
  assert (CA : cos (if ltb b 0 then acos (a / r) * -1 else acos (a / r)) = a / r).
  { destruct (ltb b 0); [replace (acos (a / r) * -1) with (- acos (a / r)) by ring; rewrite cos_neg|]; apply cos_acos; split; lra. }
  destruct (negb (eqb (a / r) 1)) eqn:C; cbn [acts fold_right act].
  - rewrite rad_degrees, SB, CA. apply point_eq; ring.
  - reflect. assert (A : a = r) by (apply Rmult_eq_reg_r with (/ r); [|apply Rinv_neq_0_compat; lra]; unfold Rdiv in C; rewrite C, Rinv_r by lra; reflexivity).
    assert (B : b = 0) by nra. subst b. rewrite A. destruct p. cbn. apply point_eq; field; lra.
Qed.
Lemma skewx_part o x y p : acts o (if negb (eqb x 0) then [SkewX (to_degrees (atan (x / y)))] else []) p = (fst p + x / y * snd p, snd p).
Proof.
  destruct (negb (eqb x 0)) eqn:E; cbn [acts fold_right act]; [rewrite rad_degrees, tan_atan; reflexivity|].
  reflect. subst. destruct p. cbn. apply point_eq; [unfold Rdiv|]; ring.
Qed.
Lemma skewy_part o x y p : acts o (if negb (eqb x 0) then [SkewY (to_degrees (atan (x / y)))] else []) p = (fst p, snd p + x / y * fst p).
Proof.
  destruct (negb (eqb x 0)) eqn:E; cbn [acts fold_right act]; [rewrite rad_degrees, tan_atan; reflexivity|].
  reflect. subst. destruct p. cbn. apply point_eq; [|unfold Rdiv]; ring.
Qed.

Lemma qrab_ok m l : qrab m = Some l -> same l [Matrix m].
Proof.
  destruct m as [a b c d e f]. unfold qrab. destruct (eqb (a * d - b * c) 0) eqn:D0; [discriminate|].
  destruct (eqb (hypot a b) 0) eqn:R0; [discriminate|]. intros E. injection E as <-. reflect.
  pose proof (hypot_sq a b) as H. pose proof (pos_of _ (hypot_nonneg a b) R0) as P. set (r := hypot a b) in *. clearbody r.
  intros o p. rewrite !acts_app, translate_part, (qrab_rotation o a b r _ P H), scale_part, skewx_part. cbn [fst snd].
  cbn [acts fold_right act]. unfold apply. cbn [ma mb mc md me mf]. rewrite <- H.
  assert (N : a * a + b * b <> 0) by nra.
  assert (K1 : (a * (a * c + b * d) - b * (a * d - b * c)) / (r * r) = c) by (rewrite H; field; exact N).
  assert (K2 : (b * (a * c + b * d) + a * (a * d - b * c)) / (r * r) = d) by (rewrite H; field; exact N).
  apply point_eq.
  - transitivity (a * fst p + (a * (a * c + b * d) - b * (a * d - b * c)) / (r * r) * snd p + e); [field; lra|rewrite K1; reflexivity].
  - transitivity (b * fst p + (b * (a * c + b * d) + a * (a * d - b * c)) / (r * r) * snd p + f); [field; lra|rewrite K2; reflexivity].
Qed.
Lemma qrcd_rotation o c d s p : 0 < s -> s * s = c * c + d * d ->
  acts o [Rotate (to_degrees (PI / 2 - (if ltb d 0 then -1 else 1) * acos (- c / s))) 0 0] p =
  (d / s * fst p + c / s * snd p, - c / s * fst p + d / s * snd p).
Proof.
  intros P E. assert (E' : s * s = (- c) * (- c) + d * d) by nra. pose proof (unit_bounds (- c) d s P E') as [L U].
  cbn [acts fold_right act]. rewrite rad_degrees.
  assert (SS : sin (PI / 2 - (if ltb d 0 then -1 else 1) * acos (- c / s)) = - c / s).
  { rewrite sin_shift. destruct (ltb d 0); [replace (-1 * acos (- c / s)) with (- acos (- c / s)) by ring; rewrite cos_neg|rewrite Rmult_1_l]; apply cos_acos; split; lra. }
  assert (CC : cos (PI / 2 - (if ltb d 0 then -1 else 1) * acos (- c / s)) = d / s).
  { rewrite cos_shift. destruct (ltb d 0) eqn:B; reflect.
    - replace (-1 * acos (- c / s)) with (- acos (- c / s)) by ring. rewrite sin_neg, (sin_acos_div (- c) d s P E'), Rabs_left by lra. field. lra.
    - rewrite Rmult_1_l, (sin_acos_div (- c) d s P E'), Rabs_right by lra. reflexivity. }
  rewrite SS, CC. apply point_eq; field; lra.
Qed.
Lemma qrcd_ok m l : qrcd m = Some l -> same l [Matrix m].
Proof.
  destruct m as [a b c d e f]. unfold qrcd. destruct (eqb (a * d - b * c) 0) eqn:D0; [discriminate|].
  destruct (eqb (hypot c d) 0) eqn:R0; [discriminate|]. intros E. injection E as <-. reflect.
  pose proof (hypot_sq c d) as H. pose proof (pos_of _ (hypot_nonneg c d) R0) as P. set (r := hypot c d) in *. clearbody r.
  intros o p. rewrite acts_app, translate_part.
  match goal with |- context [acts o (?h :: ?t) p] => change (h :: t) with ([h] ++ t) end.
  rewrite acts_app, (qrcd_rotation o c d r _ P H), acts_app, scale_part, skewy_part. cbn [fst snd].
  cbn [acts fold_right act]. unfold apply. cbn [ma mb mc md me mf]. rewrite <- H.
  assert (N : c * c + d * d <> 0) by nra.
  assert (K1 : (d * (a * d - b * c) + c * (a * c + b * d)) / (r * r) = a) by (rewrite H; field; exact N).
  assert (K2 : (- c * (a * d - b * c) + d * (a * c + b * d)) / (r * r) = b) by (rewrite H; field; exact N).
  apply point_eq.
  - transitivity ((d * (a * d - b * c) + c * (a * c + b * d)) / (r * r) * fst p + c * snd p + e); [field; lra|rewrite K1; reflexivity].
  - transitivity ((- c * (a * d - b * c) + d * (a * c + b * d)) / (r * r) * fst p + d * snd p + f); [field; lra|rewrite K2; reflexivity].
Qed.

(** ** The angles of the decompositions *)
(** A rotation that is not by zero degrees is by no multiple of a full turn; rotations are about the origin. *)
Definition turn_ok (t : transform) : Prop :=
  match t with Rotate n x y => x = 0 /\ y = 0 /\ -360 < n < 360 | Matrix _ => False | _ => True end.
Lemma degrees_bound a : - 2 * PI < a < 2 * PI -> -360 < to_degrees a < 360.
Proof.
  intros [L U]. unfold to_degrees. pose proof PI_RGT_0. split.
  - apply Rmult_lt_reg_r with PI; [assumption|]. unfold Rdiv. rewrite Rmult_assoc, Rinv_l by lra. lra.
  - apply Rmult_lt_reg_r with PI; [assumption|]. unfold Rdiv. rewrite Rmult_assoc, Rinv_l by lra. lra.
Qed.
Lemma qrab_turns m l : qrab m = Some l -> Forall turn_ok l.
Proof.
  destruct m as [a b c d e f]. unfold qrab. destruct (eqb (a * d - b * c) 0); [discriminate|].
  destruct (eqb (hypot a b) 0); [discriminate|]. intros E. injection E as <-.
  repeat (apply Forall_app; split); repeat match goal with |- Forall _ (if ?x then _ else _) => destruct x end;
    try apply Forall_nil; apply Forall_cons; try apply Forall_nil; cbn [turn_ok]; try exact Logic.I.
  split; [reflexivity|]. split; [reflexivity|]. apply degrees_bound. pose proof PI_RGT_0.
  destruct (acos_bound (a / hypot a b)). destruct (ltb b 0); lra.
Qed.
Lemma qrcd_turns m l : qrcd m = Some l -> Forall turn_ok l.
Proof.
  destruct m as [a b c d e f]. unfold qrcd. destruct (eqb (a * d - b * c) 0); [discriminate|].
  destruct (eqb (hypot c d) 0); [discriminate|]. intros E. injection E as <-.
  apply Forall_app. split.
  { match goal with |- Forall _ (if ?x then _ else _) => destruct x end; [apply Forall_cons; [exact Logic.I|]|]; apply Forall_nil. }
  apply Forall_cons; [|apply Forall_app; split;
    match goal with |- Forall _ (if ?x then _ else _) => destruct x end; (apply Forall_nil || (apply Forall_cons; [exact Logic.I|apply Forall_nil]))].
  cbn [turn_ok].
  split; [reflexivity|]. split; [reflexivity|]. apply degrees_bound. pose proof PI_RGT_0.
  destruct (acos_bound (- c / hypot c d)). destruct (ltb d 0); lra.
Qed.
Lemma cos_not_1 x : -2 * PI < x < 2 * PI -> x <> 0 -> cos x <> 1.
Proof.
  intros B N C. assert (S : sin x = 0). { pose proof (sin2_cos2 x) as H. rewrite C in H. unfold Rsqr in H. nra. }
  destruct (sin_eq_0_0 x S) as (k & K). pose proof PI_RGT_0.
  assert (KB : (-2 < k < 2)%Z).
  { split; apply lt_IZR; apply Rmult_lt_reg_r with PI; lra. }
  assert (k = 0 \/ k = 1 \/ k = -1)%Z as [-> | [-> | ->]] by lia; subst x.
  - apply N. ring.
  - rewrite Rmult_1_l, cos_PI in C. lra.
  - replace (-1 * PI) with (- PI) in C by ring. rewrite cos_neg, cos_PI in C. lra.
Qed.

(** ** [optimize] *)
Lemma identity_ok t : is_identity t = true -> (forall x y, t = Translate x y -> ~ (x = 1 /\ y = 1)) -> same [t] [].
Proof.
  destruct t as [m|x y|x y|n x y|n|n|i m]; cbn [is_identity]; intros E T o [u v]; try discriminate; cbn [acts fold_right act fst snd]; reflect; subst.
  - exfalso. apply (T 1 1 eq_refl). auto.
  - apply point_eq; ring.
  - replace (rad 0) with 0 by (unfold rad; field). rewrite cos_0, sin_0. apply point_eq; ring.
  - replace (rad 0) with 0 by (unfold rad; field). rewrite tan_0. apply point_eq; ring.
  - replace (rad 0) with 0 by (unfold rad; field). rewrite tan_0. apply point_eq; ring.
Qed.
Lemma half_turn o n p : Rabs n = 180 -> act o (Rotate n 0 0) p = (- fst p, - snd p).
Proof.
  intros A. cbn [act]. assert (rad n = PI \/ rad n = - PI) as H.
  { unfold Rabs in A. destruct (Rcase_abs n); [right|left]; unfold rad; [replace n with (-180) by lra|replace n with 180 by lra]; field. }
  destruct H as [-> | ->]; [|rewrite cos_neg, sin_neg]; rewrite cos_PI, sin_PI; apply point_eq; ring.
Qed.
Lemma merge_ok o tx ty n p t : -360 < n < 360 -> n <> 0 -> merge_translate_and_rotate (Translate tx ty) (Rotate n 0 0) = Some t ->
  act o t p = acts o [Translate tx ty; Rotate n 0 0] p.
Proof.
  intros B N. cbn [merge_translate_and_rotate]. rewrite eqb_refl. cbn [andb]. intros E. injection E as <-.
  cbn [acts fold_right act fst snd]. change (to_radians n) with (rad n).
  assert (C : cos (rad n) <> 1).
  { apply cos_not_1.
    - unfold rad. pose proof PI_RGT_0. split; nra.
    - unfold rad. pose proof PI_RGT_0. intros Z. apply N. nra. }
  pose proof (sin2_cos2 (rad n)) as S. unfold Rsqr in S. set (co := cos (rad n)) in *. set (si := sin (rad n)) in *. clearbody co si.
  assert (D : 1 - co <> 0) by lra. assert (DD : (1 - co) * (1 - co) + si * si <> 0) by nra.
  set (cy := ((1 - co) * ty + si * tx) / ((1 - co) * (1 - co) + si * si)).
  assert (CY : cy * ((1 - co) * (1 - co) + si * si) = (1 - co) * ty + si * tx) by (unfold cy; field; exact DD). clearbody cy.
  set (cx := (tx - si * cy) / (1 - co)). assert (CX : cx * (1 - co) = tx - si * cy) by (unfold cx; field; exact D). clearbody cx.
  apply point_eq; [nra|].
  (* (1 - co) * (cy * (1 - co) - si * cx) = (1 - co) * ty *)
  assert ((1 - co) * (cy * (1 - co) - si * cx) = (1 - co) * ty) by nra.
  assert (cy * (1 - co) - si * cx = ty) by (apply Rmult_eq_reg_l with (1 - co); assumption). nra.
Qed.

Definition not_one (t : transform) : Prop := forall x y, t = Translate x y -> ~ (x = 1 /\ y = 1).
Definition safe (t : transform) : Prop := turn_ok t /\ not_one t.
Lemma optimize_loop_ok : forall n l, (List.length l <= n)%nat -> Forall safe l -> exists l', optimize_loop l l false = Some l' /\ same l' l.
Proof.
  induction n as [|n IH]; intros l L F.
  { destruct l; [|cbn in L; lia]. exists []. split; [reflexivity|apply same_refl]. }
  destruct l as [|t l]; [exists []; split; [reflexivity|apply same_refl]|].
  apply Forall_cons_iff in F. destruct F as [[TT TN] F]. cbn in L.
  destruct (IH l ltac:(lia) F) as (l1 & O1 & S1).
  cbn [optimize_loop]. destruct (is_identity t) eqn:ID.
  { exists l1. split; [exact O1|]. pose proof (identity_ok t ID TN) as I0. intros o p. rewrite S1. change (t :: l) with ([t] ++ l). rewrite acts_app, I0. reflexivity. }
  assert (PUSH : exists l', option_map (cons t) (optimize_loop l l false) = Some l' /\ same l' (t :: l)).
  { rewrite O1. exists (t :: l1). split; [reflexivity|apply same_cons, S1]. }
  destruct t as [m|x y|x y|a x y|a|a|i m]; try exact PUSH; [contradiction TT| |].
  - (* Translate *)
    destruct l as [|t2 l]; [exact PUSH|]. destruct t2 as [m|x2 y2|x2 y2|a x2 y2|a|a|i m]; try exact PUSH.
    destruct (negb (eqb a 180) && negb (eqb a (-180)) && negb (eqb a 0) && eqb x2 0 && eqb y2 0) eqn:C; [|exact PUSH].
    reflect. subst. apply Forall_cons_iff in F. destruct F as [[(_ & _ & AB) _] F].
    destruct (merge_translate_and_rotate (Translate x y) (Rotate a 0 0)) as [t|] eqn:M.
    + cbn [optimize_loop]. destruct (IH l ltac:(cbn in L; lia) F) as (l2 & O2 & S2). rewrite O2. exists (t :: l2).
      split; [reflexivity|]. intros o p. change (acts o (t :: l2) p) with (act o t (acts o l2 p)).
      rewrite (merge_ok o x y a _ t AB ltac:(assumption) M), S2. reflexivity.
    + cbn [merge_translate_and_rotate] in M. rewrite eqb_refl in M. discriminate.
  - (* Rotate *)
    destruct TT as (-> & -> & AB). rewrite eqb_refl. cbn [andb]. destruct (eqb (Rabs a) 180) eqn:H; [|exact PUSH]. reflect.
    assert (ALONE : exists l', option_map (cons (Scale (-1) (-1))) (optimize_loop l l false) = Some l' /\ same l' (Rotate a 0 0 :: l)).
    { rewrite O1. exists (Scale (-1) (-1) :: l1). split; [reflexivity|]. intros o p.
      change (acts o (Rotate a 0 0 :: l) p) with (act o (Rotate a 0 0) (acts o l p)). rewrite (half_turn o a _ H).
      change (acts o (Scale (-1) (-1) :: l1) p) with (act o (Scale (-1) (-1)) (acts o l1 p)). rewrite S1. cbn [act]. apply point_eq; ring. }
    destruct l as [|t2 l]; [exact ALONE|]. destruct t2 as [m|x2 y2|x2 y2|a2 x2 y2|a2|a2|i m]; try exact ALONE.
    apply Forall_cons_iff in F. destruct F as [_ F]. cbn [optimize_loop].
    destruct (IH l ltac:(cbn in L; lia) F) as (l2 & O2 & S2). rewrite O2. exists (Scale (- x2) (- y2) :: l2). split; [reflexivity|].
    intros o p. change (acts o (Rotate a 0 0 :: Scale x2 y2 :: l) p) with (act o (Rotate a 0 0) (act o (Scale x2 y2) (acts o l p))).
    rewrite (half_turn o a _ H). change (acts o (Scale (- x2) (- y2) :: l2) p) with (act o (Scale (- x2) (- y2)) (acts o l2 p)).
    rewrite S2. cbn [act fst snd]. apply point_eq; ring.
Qed.
Lemma optimize_ok l : Forall safe l -> exists l', optimize l l = Some l' /\ same l' l.
Proof.
  intros F. destruct (optimize_loop_ok (List.length l) l (le_n _) F) as (l' & O & S). unfold optimize. rewrite O. cbn [option_map].
  destruct l' as [|t l']; eexists; (split; [reflexivity|]); [|exact S].
  intros o p. rewrite <- S. destruct p. cbn. apply point_eq; ring.
Qed.
