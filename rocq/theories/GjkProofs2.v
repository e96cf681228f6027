(** The hull and its supports. *)
From Coq Require Import List QArith Qminmax Bool Arith Lia Lqa.
From Verif Require Import GjkModel GjkSpec GjkProofs.
Import ListNotations.
Local Open Scope Q_scope.

(** * Chains from the front *)
Inductive forward (s : Q) : list pt -> Prop :=
| fw1 : forall a, forward s [a]
| fw2 : forall a b, before s a b -> forward s [a; b]
| fw3 : forall a b c l, before s a b -> 0 < cross a b c -> forward s (b :: c :: l) -> forward s (a :: b :: c :: l).
Lemma forward_snoc : forall s l r q p, forward s (l ++ [r; q]) -> before s q p -> 0 < cross r q p -> forward s (l ++ [r; q; p]).
Proof.
  intros s l r q p. induction l as [|a l IH]; intros F B C.
  - cbn [app] in *. inversion F; subst. constructor; try assumption. constructor. exact B.
  - destruct l as [|b l].
    + cbn [app] in *. inversion F; subst. constructor; try assumption. apply IH; assumption.
    + destruct l as [|c l]; cbn [app] in *; inversion F; subst; constructor; try assumption; apply IH; assumption.
Qed.
Lemma linked_forward : forall s c, linked s c -> forward s (rev c).
Proof.
  intros s c L. induction L as [p|p q H|p q r l H C L IH].
  - constructor.
  - cbn. constructor. exact H.
  - cbn [rev] in *. rewrite <- !app_assoc in *. cbn [app] in *. apply forward_snoc; assumption.
Qed.
Lemma forward_app : forall s l l', forward s (l ++ l') -> l' <> [] -> forward s l'.
Proof.
  intros s. induction l as [|a l IH]; intros l' F N; [exact F|]. apply IH; [|exact N]. cbn [app] in F. remember (l ++ l') as k eqn:E. destruct k as [|b k]; [destruct l; [destruct (N (eq_sym E))|discriminate E]|].
  inversion F; subst; try constructor; assumption.
Qed.
Lemma linked_app : forall s l l', linked s (l ++ l') -> l' <> [] -> linked s l'.
Proof.
  intros s. induction l as [|a l IH]; intros l' F N; [exact F|]. apply IH; [|exact N]. cbn [app] in F. remember (l ++ l') as k eqn:E. destruct k as [|b k]; [destruct l; [destruct (N (eq_sym E))|discriminate E]|].
  apply linked_tail in F. apply F.
Qed.
Lemma linked_before : forall s c p, sign s -> linked s (p :: c) -> Forall (fun q => before s q p) c.
Proof.
  intros s c p S. revert p. induction c as [|q c IH]; intros p L; [constructor|]. destruct (linked_tail _ _ _ _ L) as [B L']. constructor; [exact B|]. eapply Forall_impl; [|exact (IH q L')]. intros x K. exact (before_trans s x q p S K B).
Qed.

(** * Along a chain, distances first rise and then fall *)
Fixpoint uni (d : pt) (l : list pt) : Prop :=
  match l with
  | a :: r => match r with b :: _ => dot b d <= dot a d -> Forall (fun u => dot u d <= dot a d) r | [] => True end /\ uni d r
  | [] => True
  end.
Lemma fall_a : forall s a b c d, sign s -> before s a b -> before s b c -> 0 < cross a b c -> s * px d <= 0 -> s * py d <= 0 -> dot b d <= dot a d -> dot c d <= dot b d.
Proof.
  intros s [ax ay] [bx b'] [cx cy] [dx dy] S H K C D1 D2 E. unfold before, cross, dot in *. cbn [px py] in *.
  apply Qnot_lt_le. intro M. signs.
  - assert (U : 0 <= bx - ax) by (destruct H as [H|[H _]]; lra). assert (V : 0 <= cx - bx) by (destruct K as [K|[K _]]; lra).
    assert (W : 0 < (bx - ax) * (cy - b') - (b' - ay) * (cx - bx)) by lra.
    assert (E' : (bx - ax) * dx + (b' - ay) * dy <= 0) by lra. assert (M' : 0 < (cx - bx) * dx + (cy - b') * dy) by lra.
    assert (Y : cy - b' < 0) by nra. assert (X : 0 < cx - bx) by (destruct K as [K|[K K']]; lra). assert (Z : 0 < bx - ax) by (destruct H as [H|[H H']]; nra). nra.
  - assert (U : 0 <= ax - bx) by (destruct H as [H|[H _]]; lra). assert (V : 0 <= bx - cx) by (destruct K as [K|[K _]]; lra).
    assert (W : 0 < (bx - ax) * (cy - b') - (b' - ay) * (cx - bx)) by lra.
    assert (E' : (bx - ax) * dx + (b' - ay) * dy <= 0) by lra. assert (M' : 0 < (cx - bx) * dx + (cy - b') * dy) by lra.
    assert (Y : 0 < cy - b') by nra. assert (X : 0 < bx - cx) by (destruct K as [K|[K K']]; lra). assert (Z : 0 < ax - bx) by (destruct H as [H|[H H']]; nra). nra.
Qed.
Lemma rise_b : forall s a b c, sign s -> before s a b -> before s b c -> 0 < cross a b c -> s * py a <= s * py b -> s * py b <= s * py c.
Proof.
  intros s [ax ay] [bx b'] [cx cy] S H K C E. unfold before, cross in *. cbn [px py] in *. apply Qnot_lt_le. intro M. signs.
  - assert (U : 0 <= bx - ax) by (destruct H as [H|[H _]]; lra). assert (V : 0 <= cx - bx) by (destruct K as [K|[K _]]; lra).
    assert (W : 0 < (bx - ax) * (cy - b') - (b' - ay) * (cx - bx)) by lra. nra.
  - assert (U : 0 <= ax - bx) by (destruct H as [H|[H _]]; lra). assert (V : 0 <= bx - cx) by (destruct K as [K|[K _]]; lra).
    assert (W : 0 < (bx - ax) * (cy - b') - (b' - ay) * (cx - bx)) by lra. nra.
Qed.
Lemma fall_b : forall s a b c d, sign s -> before s a b -> before s b c -> 0 < cross a b c -> s * py a <= s * py b -> 0 <= s * px d -> s * py d <= 0 -> dot b d <= dot a d -> dot c d <= dot b d.
Proof.
  intros s a b c d S H K C R D1 D2 E. assert (R' := rise_b s a b c S H K C R). destruct a as [ax ay], b as [bx b'], c as [cx cy], d as [dx dy]. unfold before, cross, dot in *. cbn [px py] in *.
  apply Qnot_lt_le. intro M. signs.
  - assert (U : 0 <= bx - ax) by (destruct H as [H|[H _]]; lra). assert (V : 0 <= cx - bx) by (destruct K as [K|[K _]]; lra).
    assert (W : 0 < (bx - ax) * (cy - b') - (b' - ay) * (cx - bx)) by lra.
    assert (E' : (bx - ax) * dx + (b' - ay) * dy <= 0) by lra. assert (M' : 0 < (cx - bx) * dx + (cy - b') * dy) by lra.
    assert (X : 0 < cx - bx) by nra. assert (X' : 0 < dx) by nra.
    assert (Q1 : 0 <= (b' - ay) * ((cx - bx) * dx + (cy - b') * dy)) by (apply Qmult_le_0_compat; lra).
    assert (Q2 : 0 <= (cy - b') * - ((bx - ax) * dx + (b' - ay) * dy)) by (apply Qmult_le_0_compat; lra).
    assert (Q3 : 0 < dx * ((bx - ax) * (cy - b') - (b' - ay) * (cx - bx))) by (apply Qmult_lt_0_compat; assumption). lra.
  - assert (U : 0 <= ax - bx) by (destruct H as [H|[H _]]; lra). assert (V : 0 <= bx - cx) by (destruct K as [K|[K _]]; lra).
    assert (W : 0 < (bx - ax) * (cy - b') - (b' - ay) * (cx - bx)) by lra.
    assert (E' : (bx - ax) * dx + (b' - ay) * dy <= 0) by lra. assert (M' : 0 < (cx - bx) * dx + (cy - b') * dy) by lra.
    assert (X : 0 < bx - cx) by nra. assert (X' : dx < 0) by nra.
    assert (Q1 : 0 <= (ay - b') * ((cx - bx) * dx + (cy - b') * dy)) by (apply Qmult_le_0_compat; lra).
    assert (Q2 : 0 <= (b' - cy) * - ((bx - ax) * dx + (b' - ay) * dy)) by (apply Qmult_le_0_compat; lra).
    assert (Q3 : 0 < - dx * ((bx - ax) * (cy - b') - (b' - ay) * (cx - bx))) by (apply Qmult_lt_0_compat; lra). lra.
Qed.
Lemma desc_a : forall s d, sign s -> s * px d <= 0 -> s * py d <= 0 -> forall l a b, forward s (a :: b :: l) -> dot b d <= dot a d -> Forall (fun u => dot u d <= dot a d) (b :: l).
Proof.
  intros s d S D1 D2. induction l as [|c l IH]; intros a b F E; [constructor; [exact E|constructor]|]. inversion F as [| |? ? ? ? B C F']; subst.
  constructor; [exact E|]. assert (B' : before s b c) by (inversion F'; assumption). assert (E' := fall_a s a b c d S B B' C D1 D2 E). eapply Forall_impl; [|exact (IH b c F' E')]. intros u U. cbv beta in U |- *. lra.
Qed.
Lemma desc_b : forall s d, sign s -> 0 <= s * px d -> s * py d <= 0 -> forall l a b, forward s (a :: b :: l) -> s * py a <= s * py b -> dot b d <= dot a d -> Forall (fun u => dot u d <= dot a d) (b :: l).
Proof.
  intros s d S D1 D2. induction l as [|c l IH]; intros a b F R E; [constructor; [exact E|constructor]|]. inversion F as [| |? ? ? ? B C F']; subst.
  constructor; [exact E|]. assert (B' : before s b c) by (inversion F'; assumption). assert (E' := fall_b s a b c d S B B' C R D1 D2 E). assert (R' := rise_b s a b c S B B' C R). eapply Forall_impl; [|exact (IH b c F' R' E')]. intros u U. cbv beta in U |- *. lra.
Qed.
Lemma uni_a : forall s d, sign s -> s * px d <= 0 -> s * py d <= 0 -> forall l, forward s l -> uni d l.
Proof.
  intros s d S D1 D2. induction l as [|a l IH]; intros F; [exact Logic.I|]. destruct l as [|b l]; [split; exact Logic.I|]. split.
  - intros E. exact (desc_a s d S D1 D2 l a b F E).
  - apply IH. inversion F; [constructor|assumption].
Qed.
Lemma uni_b : forall s d, sign s -> 0 <= s * px d -> s * py d <= 0 -> forall l a, forward s (a :: l) -> (forall b, In b l -> s * py a <= s * py b) -> uni d (a :: l).
Proof.
  intros s d S D1 D2 l a F M. assert (G : forall l a, forward s (a :: l) -> match l with b :: _ => s * py a <= s * py b | [] => True end -> uni d (a :: l)).
  { clear l a F M. induction l as [|b l IH]; intros a F M; [split; exact Logic.I|]. split.
    - intros E. exact (desc_b s d S D1 D2 l a b F M E).
    - apply IH; [inversion F; [constructor|assumption]|]. destruct l as [|c l]; [exact Logic.I|]. inversion F as [| |? ? ? ? B C F']; subst. assert (B' : before s b c) by (inversion F'; assumption). exact (rise_b s a b c S B B' C M). }
  apply G; [exact F|]. destruct l as [|b l]; [exact Logic.I|]. apply M. left. reflexivity.
Qed.

(** * The search *)
Definition prev (n i : nat) : nat := match i with O => n - 1 | S j => j end.
Lemma nth_cycle : forall (l : list pt) i, (i < 2 * length l)%nat -> nth_error (l ++ l) i = nth_error l (i mod length l).
Proof.
  intros l i H. destruct (Nat.lt_ge_cases i (length l)) as [L|L].
  - rewrite Nat.mod_small by exact L. apply nth_error_app1, L.
  - rewrite nth_error_app2 by exact L. f_equal. apply Nat.mod_unique with (q := 1%nat); lia.
Qed.
Lemma prev_mod : forall n i, (0 < n)%nat -> prev n (S i mod n) = (i mod n)%nat.
Proof.
  intros n i H. assert (D := Nat.div_mod_eq i n). assert (B := Nat.mod_upper_bound i n ltac:(lia)). set (q := (i / n)%nat) in *. set (r := (i mod n)%nat) in *. 
  destruct (Nat.eq_dec (S r) n) as [E|E].
  - assert (Z : (S i mod n)%nat = O) by (symmetry; apply Nat.mod_unique with (q := S q); lia). rewrite Z. cbn [prev]. lia.
  - assert (Z : (S i mod n)%nat = S r) by (symmetry; apply Nat.mod_unique with (q := q); lia). rewrite Z. reflexivity.
Qed.
Lemma climb_ok : forall src d w A v0 zz B fuel, src ++ src = A ++ v0 :: w ++ zz :: B -> uni d (v0 :: w) -> (exists u, In u (v0 :: w) /\ dot zz d <= dot u d) -> (length w < fuel)%nat ->
  exists i v, climb fuel src d (S (length A) mod length src) (Some (dot v0 d)) = Some i /\ nth_error src (prev (length src) i) = Some v /\ In v (v0 :: w) /\ Forall (fun u => dot u d <= dot v d) (v0 :: w).
Proof.
  intros src d. induction w as [|w1 w IH]; intros A v0 zz B fuel E U Z F.
  - destruct fuel as [|fuel]; [inversion F|]. cbn [app] in E. assert (LE : (S (S (length A)) <= 2 * length src)%nat).
    { apply (f_equal (@length pt)) in E. rewrite !app_length in E. cbn [length] in E. lia. }
    cbn [climb]. rewrite <- nth_cycle by lia. rewrite E, nth_error_app2 by lia. replace (S (length A) - length A)%nat with 1%nat by lia. cbn [nth_error].
    destruct Z as [u [[<-|[]] Z]]. assert (Z' : Qle_bool (dot zz d) (dot v0 d) = true) by (apply Qle_bool_iff, Z). rewrite Z'.
    exists (S (length A) mod length src)%nat, v0. split; [reflexivity|]. rewrite prev_mod by lia. rewrite <- nth_cycle by lia. rewrite E, nth_error_app2 by lia. rewrite Nat.sub_diag. cbn [nth_error].
    split; [reflexivity|]. split; [left; reflexivity|]. constructor; [lra|constructor].
  - destruct fuel as [|fuel]; [inversion F|]. cbn [app] in E. assert (LE : (S (S (length A)) < 2 * length src)%nat).
    { apply (f_equal (@length pt)) in E. rewrite !app_length in E. cbn [length] in E. rewrite app_length in E. cbn [length] in E. lia. }
    cbn [climb]. rewrite <- nth_cycle by lia. rewrite E, nth_error_app2 by lia. replace (S (length A) - length A)%nat with 1%nat by lia. cbn [nth_error].
    destruct U as [U1 U2]. destruct (Qle_bool (dot w1 d) (dot v0 d)) eqn:K.
    + apply Qle_bool_iff in K. exists (S (length A) mod length src)%nat, v0. split; [reflexivity|]. rewrite prev_mod by lia. rewrite <- nth_cycle by lia. rewrite E, nth_error_app2 by lia. rewrite Nat.sub_diag. cbn [nth_error].
      split; [reflexivity|]. split; [left; reflexivity|]. constructor; [lra|]. exact (U1 K).
    + apply Qle_bool_false in K. destruct (IH (A ++ [v0]) w1 zz B fuel) as [i [v [I1 [I2 [I3 I4]]]]].
      * rewrite <- app_assoc. exact E.
      * exact U2.
      * destruct Z as [u [[<-|J] Z]]; [exists w1; split; [left; reflexivity|lra]|exists u; split; assumption].
      * cbn [length] in F. lia.
      * exists i, v. split; [|split; [exact I2|split; [right; exact I3|]]].
        -- rewrite app_length in I1. cbn [length] in I1. rewrite <- I1. f_equal. rewrite Nat.add_mod_idemp_l by lia. reflexivity.
        -- constructor; [|exact I4]. inversion I4; subst. lra.
Qed.

Lemma climb_start : forall src d A v0 w zz B, src ++ src = A ++ v0 :: w ++ zz :: B -> uni d (v0 :: w) -> (exists u, In u (v0 :: w) /\ dot zz d <= dot u d) -> (length w <= length src)%nat ->
  exists i v, climb (2 + length src) src d (length A mod length src) None = Some i /\ nth_error src (prev (length src) i) = Some v /\ In v (v0 :: w) /\ Forall (fun u => dot u d <= dot v d) (v0 :: w).
Proof.
  intros src d A v0 w zz B E U Z F. assert (LE : (S (S (length A)) <= 2 * length src)%nat).
  { apply (f_equal (@length pt)) in E. rewrite !app_length in E. cbn [length] in E. rewrite app_length in E. cbn [length] in E. lia. }
  destruct (climb_ok src d w A v0 zz B (1 + length src) E U Z ltac:(lia)) as [i [v [I1 I2]]]. exists i, v. split; [|exact I2].
  change (2 + length src)%nat with (S (1 + length src)). cbn [climb]. rewrite <- nth_cycle by lia. rewrite E, nth_error_app2 by lia. rewrite Nat.sub_diag. cbn [nth_error].
  rewrite <- I1. f_equal. rewrite Nat.add_mod_idemp_l by lia. f_equal. lia.
Qed.
Lemma support_chain : forall s pr c m i src A zz B d, sign s -> inv s pr c m i -> src ++ src = A ++ rev c ++ zz :: B -> In zz pr -> (length c <= S (length src))%nat -> s * py d <= 0 ->
  forall start, (s * px d <= 0 /\ start = (length A mod length src)%nat) \/ (0 <= s * px d /\ start = ((length A + i) mod length src)%nat) ->
  exists j v, climb (2 + length src) src d start None = Some j /\ nth_error src (prev (length src) j) = Some v /\ In v pr /\ (forall q, In q pr -> dot q d <= dot v d).
Proof.
  intros s pr c m i src A zz B d S [H1 H2 H3 [x [R [y [T1 [T2 [T3 T4]]]]]] H5] E Z F D start W.
  assert (FW := linked_forward s c H1). destruct W as [[D' ->]|[D' ->]].
  - remember (rev c) as k eqn:K. destruct k as [|v0 w]; [inversion FW|]. assert (LW : length c = (1 + length w)%nat) by (rewrite <- (rev_length c), <- K; reflexivity).
    assert (J : forall u, In u (v0 :: w) <-> In u c) by (intros u; rewrite K; symmetry; apply in_rev).
    destruct (climb_start src d A v0 w zz B E (uni_a s d S D' D _ FW)) as [j [v [J1 [J2 [J3 J4]]]]]; [|lia|].
    + destruct (H3 d D zz Z) as [u [U1 U2]]. exists u. split; [apply J, U1|exact U2].
    + exists j, v. split; [exact J1|]. split; [exact J2|]. split; [apply H2, J, J3|]. intros q Q. destruct (H3 d D q Q) as [u [U1 U2]]. rewrite Forall_forall in J4. specialize (J4 u (proj2 (J u) U1)). cbv beta in J4. lra.
  - assert (K : rev c = rev y ++ R :: rev x) by (rewrite T1, rev_app_distr; cbn [rev]; rewrite <- app_assoc; reflexivity).
    assert (BY : forall u, In u y -> dot u d <= dot R d).
    { intros u U. assert (LB := linked_app s x (R :: y) ltac:(rewrite <- T1; exact H1) ltac:(discriminate)). apply linked_before in LB; [|exact S]. rewrite Forall_forall in LB, T4. specialize (LB u U). specialize (T4 u U).
      clear - S LB T4 T3 D D'. destruct u as [ux uy], R as [rx ry], d as [dx dy]. unfold before, dot in *. cbn [px py] in *. signs.
      - assert (ux <= rx) by (destruct LB as [?|[? ?]]; lra). nra.
      - assert (rx <= ux) by (destruct LB as [?|[? ?]]; lra). nra. }
    assert (FB : forward s (R :: rev x)) by (apply (forward_app s (rev y)); [rewrite <- K; exact FW|discriminate]).
    assert (U : uni d (R :: rev x)).
    { apply (uni_b s d S D' D); [exact FB|]. intros b I. apply in_rev in I. assert (IB : In b pr) by (apply H2; rewrite T1; apply in_or_app; left; exact I). specialize (H5 b IB). rewrite T3. exact H5. }
    assert (E' : src ++ src = (A ++ rev y) ++ R :: rev x ++ zz :: B) by (rewrite E, K, <- !app_assoc; reflexivity).
    assert (J : forall u, In u c -> exists u', In u' (R :: rev x) /\ dot u d <= dot u' d).
    { intros u I. rewrite T1 in I. apply in_app_or in I. destruct I as [I|[<-|I]].
      - exists u. split; [right; rewrite <- in_rev; exact I|lra].
      - exists R. split; [left; reflexivity|lra].
      - exists R. split; [left; reflexivity|apply BY, I]. }
    destruct (climb_start src d (A ++ rev y) R (rev x) zz B E' U) as [j [v [J1 [J2 [J3 J4]]]]].
    + destruct (H3 d D zz Z) as [u [U1 U2]]. destruct (J u U1) as [u' [V1 V2]]. exists u'. split; [exact V1|lra].
    + rewrite rev_length. apply (f_equal (@length pt)) in T1. rewrite app_length in T1. cbn [length] in T1. lia.
    + rewrite app_length, rev_length, T2 in J1. exists j, v. split; [exact J1|]. split; [exact J2|]. split.
      * apply H2. rewrite T1. apply in_or_app. destruct J3 as [<-|J3]; [right; left; reflexivity|left; rewrite <- in_rev in J3; exact J3].
      * intros q Q. destruct (H3 d D q Q) as [u [U1 U2]]. destruct (J u U1) as [u' [V1 V2]]. rewrite Forall_forall in J4. specialize (J4 u' V1). cbv beta in J4. lra.
Qed.

Lemma ascending_ordered : forall l, ascending l -> ordered 1 l.
Proof. intros l H. induction H as [|p l F H IH]; constructor; [|exact IH]. eapply Forall_impl; [|exact F]. intros q [A|[A B]]; [left|right; split]; lra. Qed.
Lemma ordered_snoc : forall s l p, ordered s l -> Forall (fun q => before s q p) l -> ordered s (l ++ [p]).
Proof.
  intros s l p H F. induction H as [|q l G H IH]; [constructor; constructor|]. inversion F; subst. cbn [app]. constructor; [|apply IH; assumption]. apply Forall_app. split; [exact G|]. constructor; [assumption|constructor].
Qed.
Lemma descending_ordered : forall l, ascending l -> ordered (- (1)) (rev l).
Proof.
  intros l H. induction H as [|p l F H IH]; [constructor|]. cbn [rev]. apply ordered_snoc; [exact IH|]. rewrite Forall_forall in *. intros q I. apply in_rev in I. destruct (F q I) as [A|[A B]]; [left|right; split]; lra.
Qed.
Lemma improves_low : improves 1 Qltb.
Proof. intros x y. rewrite Qltb_true. split; lra. Qed.
Lemma improves_high : improves (- (1)) (fun x y => Qltb y x).
Proof. intros x y. rewrite Qltb_true. split; lra. Qed.
Lemma two : forall (l : list pt), (2 <= length l)%nat -> exists p q r, l = p :: q :: r.
Proof. intros [|p [|q r]] H; cbn [length] in H; try lia. exists p, q, r. reflexivity. Qed.
Lemma last_cons_rev : forall (l : list pt) x, l <> [] -> exists k, rev l = last l x :: k.
Proof. intros l x N. destruct (exists_last N) as [k [z ->]]. rewrite last_last, rev_app_distr. exists (rev k). reflexivity. Qed.
Lemma head_last : forall (l : list pt) x, l <> [] -> exists k, rev l = k ++ [hd x l].
Proof. intros [|a l] x N; [destruct (N eq_refl)|]. exists (rev l). reflexivity. Qed.

Theorem support_ok : forall pts d, (2 <= length pts)%nat -> exists v, support_point (convex_hull pts) d = Some v /\ In v pts /\ forall q, In q pts -> dot q d <= dot v d.
Proof.
  intros pts d H. assert (LS := sort_length pts). assert (AS := sort_asc pts). assert (IS := sort_in pts). unfold convex_hull.
  set (s := sort pts) in *. rewrite <- LS in H. clearbody s. clear LS.
  destruct (two s H) as [p [q [r E]]]. assert (H' : (2 <= length (rev s))%nat) by (rewrite rev_length; exact H). destruct (two (rev s) H') as [p' [q' [r' E']]].
  assert (O1 := ascending_ordered s AS). assert (O2 := descending_ordered s AS).
  destruct (chain_inv 1 Qltb p q r (or_introl eq_refl) improves_low ltac:(rewrite <- E; exact O1)) as [lw [lm [bottom [C1 [V1 [N1 L1]]]]]].
  destruct (chain_inv (- (1)) (fun x y => Qltb y x) p' q' r' (or_intror eq_refl) improves_high ltac:(rewrite <- E'; exact O2)) as [uw [um [top [C2 [V2 [N2 L2]]]]]].
  rewrite <- E in C1, V1. rewrite <- E' in C2, V2. rewrite C1, C2. cbn [tl].
  assert (Z : last s (P 0 0) = p').
  { destruct (last_cons_rev s (P 0 0)) as [k K]; [rewrite E; discriminate|]. rewrite E' in K. injection K as K _. symmetry. exact K. }
  assert (A : last (rev s) (P 0 0) = p).
  { rewrite E. cbn [rev]. apply last_last. }
  rewrite Z in V1. rewrite A in V2.
  destruct (last_cons_rev lw (P 0 0) N1) as [lw' K1]. rewrite L1 in K1. destruct (last_cons_rev uw (P 0 0) N2) as [uw' K2]. rewrite L2 in K2.
  assert (NL : (0 < length lw)%nat) by (destruct lw; [destruct (N1 eq_refl)|cbn [length]; lia]). assert (NU : (0 < length uw)%nat) by (destruct uw; [destruct (N2 eq_refl)|cbn [length]; lia]).
  set (src := rev lw ++ rev uw). assert (LSRC : length src = (length lw + length uw)%nat) by (unfold src; rewrite app_length, !rev_length; reflexivity).
  assert (P1 : forall x, In x lw -> In x s) by (intros x I; apply (i_incl _ _ _ _ _ V1); right; exact I).
  assert (P2 : forall x, In x uw -> In x s) by (intros x I; apply in_rev; apply (i_incl _ _ _ _ _ V2); right; exact I).
  assert (B1 : (bottom <= length lw)%nat).
  { destruct (i_track _ _ _ _ _ V1) as [x [R [y [T1 [T2 _]]]]]. apply (f_equal (@length pt)) in T1. rewrite app_length in T1. cbn [length] in T1. lia. }
  assert (B2 : (top <= length uw)%nat).
  { destruct (i_track _ _ _ _ _ V2) as [x [R [y [T1 [T2 _]]]]]. apply (f_equal (@length pt)) in T1. rewrite app_length in T1. cbn [length] in T1. lia. }
  assert (X1 : exists zz B, src ++ src = [] ++ rev (p' :: lw) ++ zz :: B /\ In zz s).
  { destruct (uw' ++ rev lw) as [|zz B] eqn:Q; [apply app_eq_nil in Q; destruct Q as [_ Q]; rewrite K1 in Q; discriminate|]. exists zz, (B ++ rev uw). split.
    - unfold src. cbn [rev app]. rewrite K2 at 1. rewrite <- !app_assoc. cbn [app]. f_equal. f_equal. rewrite app_assoc, Q. reflexivity.
    - assert (J : In zz (uw' ++ rev lw)) by (rewrite Q; left; reflexivity). apply in_app_or in J. destruct J as [J|J]; [apply P2; apply in_rev; rewrite K2; right; exact J|apply P1; apply in_rev, J]. }
  assert (X2 : exists zz B, src ++ src = rev lw ++ rev (p :: uw) ++ zz :: B /\ In zz s).
  { destruct (lw' ++ rev uw) as [|zz B] eqn:Q; [apply app_eq_nil in Q; destruct Q as [_ Q]; rewrite K2 in Q; discriminate|]. exists zz, B. split.
    - unfold src. cbn [rev app]. rewrite <- !app_assoc. f_equal. f_equal. rewrite K1 at 1. cbn [app]. f_equal. exact Q.
    - assert (J : In zz (lw' ++ rev uw)) by (rewrite Q; left; reflexivity). apply in_app_or in J. destruct J as [J|J]; [apply P1; apply in_rev; rewrite K1; right; exact J|apply P2; apply in_rev, J]. }
  destruct X1 as [z1 [Y1 [X1 I1]]]. destruct X2 as [z2 [Y2 [X2 I2]]].
  assert (G : exists j v, climb (2 + length src) src d (if Qle_bool 0 (py d) then if Qltb (px d) 0 then ((length (rev lw) + top) mod length src)%nat else length (rev lw) else if Qltb (px d) 0 then O else bottom) None = Some j /\
              nth_error src (prev (length src) j) = Some v /\ In v s /\ (forall q, In q s -> dot q d <= dot v d)).
  { destruct (Qle_bool 0 (py d)) eqn:DY.
    - apply Qle_bool_iff in DY. assert (I2' : In z2 (rev s)) by (rewrite <- in_rev; exact I2).
      destruct (support_chain (- (1)) (rev s) (p :: uw) um top src (rev lw) z2 Y2 d (or_intror eq_refl) V2 X2 I2' ltac:(cbn [length]; lia) ltac:(lra) (if Qltb (px d) 0 then ((length (rev lw) + top) mod length src)%nat else length (rev lw))) as [j [v [J1 [J2 [J3 J4]]]]].
      + destruct (Qltb (px d) 0) eqn:DX; [right; apply Qltb_true in DX; split; [lra|reflexivity]|left; apply Qltb_false in DX; split; [lra|]]. rewrite rev_length. symmetry. apply Nat.mod_small. lia.
      + exists j, v. split; [exact J1|]. split; [exact J2|]. split; [apply in_rev, J3|]. intros x I. apply J4. rewrite <- in_rev. exact I.
    - apply Qle_bool_false in DY.
      destruct (support_chain 1 s (p' :: lw) lm bottom src [] z1 Y1 d (or_introl eq_refl) V1 X1 I1 ltac:(cbn [length]; lia) ltac:(lra) (if Qltb (px d) 0 then O else bottom)) as [j [v J]].
      + destruct (Qltb (px d) 0) eqn:DX; [left; apply Qltb_true in DX; split; [lra|]|right; apply Qltb_false in DX; split; [lra|]]; symmetry; apply Nat.mod_small; cbn [length]; lia.
      + exists j, v. exact J. }
  assert (SN : match src with [] => O | _ => ((length (rev lw) + top) mod length src)%nat end = ((length (rev lw) + top) mod length src)%nat) by (destruct src; [cbn [length] in LSRC; lia|reflexivity]).
  destruct G as [j [v [G1 [G2 [G3 G4]]]]]. exists v. unfold support_point. cbn [source max_x max_y min_x min_y]. rewrite SN, G1. split; [exact G2|]. split; [apply IS, G3|]. intros x I. apply G4, IS, I.
Qed.
