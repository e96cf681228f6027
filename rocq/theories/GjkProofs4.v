(** Whether paths meet. *)
From Coq Require Import List QArith Qminmax Bool Arith Lia Lqa.
From Verif Require Import GjkModel GjkSpec GjkProofs GjkProofs2 GjkProofs3.
Import ListNotations.
Local Open Scope Q_scope.

Lemma dot_mix : forall d t a b, dot d (mix t a b) == (1 - t) * dot d a + t * dot d b.
Proof. intros. unfold dot, mix. cbn [px py]. ring. Qed.
Lemma hull_below : forall d m (f : pt -> Prop), (forall p, f p -> dot d p <= m) -> forall p, hull f p -> dot d p <= m.
Proof.
  intros d m f H p K. induction K as [p K|a b t p Ka IHa Kb IHb T [X Y]]; [exact (H p K)|].
  assert (E : dot d p == dot d (mix t a b)) by (unfold dot; rewrite X, Y; reflexivity). rewrite E, dot_mix. nra.
Qed.
Lemma hull_above : forall d m (f : pt -> Prop), (forall p, f p -> m <= dot d p) -> forall p, hull f p -> m <= dot d p.
Proof.
  intros d m f H p K. induction K as [p K|a b t p Ka IHa Kb IHb T [X Y]]; [exact (H p K)|].
  assert (E : dot d p == dot d (mix t a b)) by (unfold dot; rewrite X, Y; reflexivity). rewrite E, dot_mix. nra.
Qed.
Lemma hull_mono : forall (f k : pt -> Prop), (forall p, f p -> hull k p) -> forall p, hull f p -> hull k p.
Proof.
  intros f k H p K. induction K as [p K|a b t p Ka IHa Kb IHb T E]; [exact (H p K)|]. exact (hull_mix k a b t p IHa IHb T E).
Qed.
Definition sided (la lb : list pt) : Prop := exists e, ~ same e (P 0 0) /\ forall a b, In a la -> In b lb -> dot e a <= dot e b.
Lemma sided_hull : forall la lb, sided la lb -> separated (hull (fun p => In p la)) (hull (fun p => In p lb)).
Proof.
  intros la lb [e [N H]]. exists e. split; [exact N|]. intros p q A B. apply (hull_below e (dot e q) (fun p => In p la)); [|exact A].
  intros a Ia. apply (hull_above e (dot e a) (fun p => In p lb)); [|exact B]. intros b Ib. exact (H a b Ia Ib).
Qed.
Lemma sided_flip : forall la lb, sided la lb -> sided lb la.
Proof.
  intros la lb [e [N H]]. exists (neg e). split; [intros [X Y]; apply N; unfold neg in *; cbn [px py] in *; split; cbn [px py]; lra|].
  intros a b A B. specialize (H b a B A). unfold dot, neg in *. cbn [px py] in *. lra.
Qed.
(** * Boxes *)
Definition within (o : option (pt * pt)) (p : pt) : Prop := match o with None => False | Some (lo, hi) => px lo <= px p /\ px p <= px hi /\ py lo <= py p /\ py p <= py hi end.
Lemma grow_new : forall o p, within (grow o p) p.
Proof.
  intros [[lo hi]|] p; cbn [grow within px py].
  - repeat split; auto using Q.le_min_r, Q.le_max_r.
  - repeat split; lra.
Qed.
Lemma grow_old : forall o p q, within o q -> within (grow o p) q.
Proof.
  intros [[lo hi]|] p q; [|intros []]. cbn [grow within px py]. intros [A [B [C D]]].
  assert (Q1 := Q.le_min_l (px lo) (px p)). assert (Q2 := Q.le_max_l (px hi) (px p)). assert (Q3 := Q.le_min_l (py lo) (py p)). assert (Q4 := Q.le_max_l (py hi) (py p)). repeat split; lra.
Qed.
Lemma bbox_in_from : forall l o p, within o p \/ In p l -> within (fold_left grow l o) p.
Proof.
  induction l as [|q l IH]; intros o p H; cbn [fold_left]; [destruct H as [H|[]]; exact H|]. apply IH. destruct H as [H|[->|H]]; [left; apply grow_old; exact H|left; apply grow_new|right; exact H].
Qed.
Lemma bbox_in : forall l p, In p l -> within (bbox l) p.
Proof. intros l p H. apply bbox_in_from. right. exact H. Qed.
Lemma box_sided : forall la lb, box_apart (bbox la) (bbox lb) = true -> sided la lb.
Proof.
  intros la lb H. assert (WA := bbox_in la). assert (WB := bbox_in lb). destruct (bbox la) as [[l1 h1]|]; [|discriminate]. destruct (bbox lb) as [[l2 h2]|]; [|discriminate].
  cbn [box_apart within] in *. rewrite !orb_true_iff in H.
  assert (NX : ~ same (P 1 0) (P 0 0)) by (intros [E _]; cbn [px] in E; lra). assert (NX' : ~ same (P (-(1)) 0) (P 0 0)) by (intros [E _]; cbn [px] in E; lra).
  assert (NY : ~ same (P 0 1) (P 0 0)) by (intros [_ E]; cbn [py] in E; lra). assert (NY' : ~ same (P 0 (-(1))) (P 0 0)) by (intros [_ E]; cbn [py] in E; lra).
  destruct H as [[[H|H]|H]|H]; apply Qle_bool_iff in H.
  - exists (P 1 0). split; [exact NX|]. intros a b A B. specialize (WA a A). specialize (WB b B). unfold dot. cbn [px py]. lra.
  - exists (P (-(1)) 0). split; [exact NX'|]. intros a b A B. specialize (WA a A). specialize (WB b B). unfold dot. cbn [px py]. lra.
  - exists (P 0 1). split; [exact NY|]. intros a b A B. specialize (WA a A). specialize (WB b B). unfold dot. cbn [px py]. lra.
  - exists (P 0 (-(1))). split; [exact NY'|]. intros a b A B. specialize (WA a A). specialize (WB b B). unfold dot. cbn [px py]. lra.
Qed.
(** * Paths *)
Lemma any_false : forall (A : Type) (f : A -> option bool) l, any f l = Some false -> forall x, In x l -> f x = Some false.
Proof.
  intros A f l. induction l as [|y l IH]; intros H x I; [destruct I|]. cbn [any] in H. destruct (f y) as [[|]|] eqn:F; try discriminate. destruct I as [<-|I]; [exact F|exact (IH H x I)].
Qed.
Lemma any_true : forall (A : Type) (f : A -> option bool) l, any f l = Some true -> exists x, In x l /\ f x = Some true.
Proof.
  intros A f l. induction l as [|y l IH]; intros H; [discriminate|]. cbn [any] in H. destruct (f y) as [[|]|] eqn:F; try discriminate.
  - exists y. split; [left; reflexivity|exact F].
  - destruct (IH H) as [x [X Y]]. exists x. split; [right; exact X|exact Y].
Qed.
Lemma any_total : forall (A : Type) (f : A -> option bool) l, (forall x, In x l -> f x <> None) -> any f l <> None.
Proof.
  intros A f l. induction l as [|y l IH]; intros H; [discriminate|]. cbn [any]. assert (F := H y (or_introl eq_refl)). destruct (f y) as [[|]|]; [discriminate|apply IH; intros x X; apply H; right; exact X|destruct (F eq_refl)].
Qed.
Definition fine (l : list segment) : Prop := forall s, In s l -> arcs_ok s.
Lemma hulls_in : forall l x, In x (hulls l) -> exists s, In s l /\ items s <> [] /\ x = points_of s.
Proof.
  intros l x H. unfold hulls in H. apply in_map_iff in H. destruct H as [s [<- H]]. apply filter_In in H. destruct H as [H K]. exists s. split; [exact H|]. split; [|reflexivity]. intro Z. rewrite Z in K. discriminate.
Qed.
Lemma in_hulls : forall l s, In s l -> items s <> [] -> In (points_of s) (hulls l).
Proof.
  intros l s H N. unfold hulls. apply in_map_iff. exists s. split; [reflexivity|]. apply filter_In. split; [exact H|]. destruct (items s); [destruct (N eq_refl)|reflexivity].
Qed.
Lemma two_points : forall s, arcs_ok s -> items s <> [] -> (2 <= length (points_of s))%nat.
Proof.
  intros [p [|d l]] A N; [destruct (N eq_refl)|]. unfold points_of. cbn [start items flat_map]. destruct d as [e|a b e|q]; cbn [app length]; try lia.
  destruct q as [|z q]; [destruct (A [] (or_introl eq_refl) eq_refl)|cbn [app length]; lia].
Qed.
Lemma hulls_two : forall l x, fine l -> In x (hulls l) -> (2 <= length x)%nat.
Proof. intros l x F H. destruct (hulls_in l x H) as [s [S1 [S2 ->]]]. exact (two_points s (F s S1) S2). Qed.
Definition test (rh : list (list pt)) (x : list pt) : option bool := any (fun y => verdict (compare (convex_hull x) (convex_hull y))) rh.
Lemma all_sided : forall lh rh, (forall x, In x lh -> (2 <= length x)%nat) -> (forall y, In y rh -> (2 <= length y)%nat) ->
  any (test rh) lh = Some false -> forall x y, In x lh -> In y rh -> sided x y.
Proof.
  intros lh rh L R H x y X Y. assert (E := any_false _ _ _ (any_false _ _ _ H x X) y Y). cbv beta in E. apply (compare_apart x y (L x X) (R y Y)). destruct (compare (convex_hull x) (convex_hull y)); try discriminate. reflexivity.
Qed.
Theorem apart_ok : forall a b s1 s2, fine a -> fine b -> intersects a b = Some false -> In s1 a -> In s2 b -> items s1 <> [] -> items s2 <> [] -> sided (points_of s1) (points_of s2).
Proof.
  intros a b s1 s2 FA FB H I1 I2 N1 N2. assert (J1 := in_hulls a s1 I1 N1). assert (J2 := in_hulls b s2 I2 N2). unfold intersects in H.
  destruct (box_apart (bbox (concat (hulls a))) (bbox (concat (hulls b)))) eqn:B1; cbn [orb] in H.
  - destruct (box_sided _ _ B1) as [e [N K]]. exists e. split; [exact N|]. intros p q Ip Iq. apply K; apply in_concat; [exists (points_of s1)|exists (points_of s2)]; split; assumption.
  - destruct (forallb _ (hulls a)) eqn:B2.
    + rewrite forallb_forall in B2. specialize (B2 _ J1). cbv beta in B2. rewrite forallb_forall in B2. exact (box_sided _ _ (B2 _ J2)).
    + destruct (length (hulls a) <? length (hulls b))%nat.
      * apply sided_flip. refine (all_sided (hulls b) (hulls a) _ _ H _ _ J2 J1); intros z Z; [exact (hulls_two b z FB Z)|exact (hulls_two a z FA Z)].
      * refine (all_sided (hulls a) (hulls b) _ _ H _ _ J1 J2); intros z Z; [exact (hulls_two a z FA Z)|exact (hulls_two b z FB Z)].
Qed.
Lemma intersects_total : forall a b, fine a -> fine b -> intersects a b <> None.
Proof.
  intros a b FA FB. unfold intersects. destruct (_ || _); [discriminate|]. destruct (length (hulls a) <? length (hulls b))%nat; apply any_total; intros x X; apply any_total; intros y Y;
  (assert (Z : compare (convex_hull x) (convex_hull y) <> Panic); [apply compare_total; eauto using hulls_two|destruct (compare (convex_hull x) (convex_hull y)); try discriminate; destruct (Z eq_refl)]).
Qed.
(** * The outline is within the points *)
Lemma on_items_hull : forall (k : pt -> Prop) l s p, k s -> (forall q, In q (flat_map (fun d => match d with LineTo e => [e] | CurveTo a b e => [a; b; e] | ArcTo l => l end) l) -> k q) -> on_items s l p -> hull k p.
Proof.
  intros k l. induction l as [|d l IH]; intros s p S K H; [destruct H|]. cbn [on_items] in H. cbn [flat_map] in K. destruct H as [H|H].
  - destruct H as [s e t T|s a b e t T].
    + apply hull_mix with (a := s) (b := e) (t := t); [exact (hull_in _ _ S)|apply hull_in; apply K; left; reflexivity|exact T|split; reflexivity].
    + assert (M : forall x y, hull k x -> hull k y -> hull k (mix t x y)) by (intros x y X Y; exact (hull_mix k x y t _ X Y T (conj (Qeq_refl _) (Qeq_refl _)))).
      assert (A : hull k a) by (apply hull_in; apply K; left; reflexivity). assert (B : hull k b) by (apply hull_in; apply K; right; left; reflexivity). assert (E : hull k e) by (apply hull_in; apply K; right; right; left; reflexivity). assert (S' := hull_in k s S). auto 6.
  - apply (IH (end_of s d)); [|intros q Q; apply K; apply in_or_app; right; exact Q|exact H].
    destruct d as [e|a b e|q]; cbn [end_of].
    + apply K. left. reflexivity.
    + apply K. right. right. left. reflexivity.
    + destruct q as [|z q]; [exact S|]. apply K. apply in_or_app. left. destruct (@exists_last _ (z :: q) ltac:(discriminate)) as [q' [w E]]. rewrite E. rewrite last_last. apply in_or_app. right. left. reflexivity.
Qed.
Lemma covered_hull : forall s p, covered s p -> hull (fun q => In q (points_of s)) p.
Proof.
  intros s p. apply hull_mono. intros q Q. apply (on_items_hull _ (items s) (start s)); [left; reflexivity|intros r R; right; exact R|exact Q].
Qed.
Lemma separated_sub : forall f g f' g' : pt -> Prop, (forall p, f' p -> f p) -> (forall p, g' p -> g p) -> separated f g -> separated f' g'.
Proof. intros f g f' g' F G [e [N H]]. exists e. split; [exact N|]. intros p q A B. exact (H p q (F p A) (G q B)). Qed.
Theorem intersects_false : forall a b s1 s2, (forall s, In s (a ++ b) -> arcs_ok s) -> intersects a b = Some false -> In s1 a -> In s2 b ->
  separated (covered s1) (covered s2).
Proof.
  intros a b s1 s2 F H I1 I2. assert (FA : fine a) by (intros s S; apply F; apply in_or_app; left; exact S). assert (FB : fine b) by (intros s S; apply F; apply in_or_app; right; exact S).
  assert (V : forall s p, items s = [] -> covered s p -> False).
  { intros s p Z C. induction C as [p C|x y t p Cx IHx]; [|exact IHx]. unfold outline in C. rewrite Z in C. exact C. }
  destruct (items s1) as [|d1 l1] eqn:Z1; [exists (P 1 0); split; [intros [E _]; cbn [px] in E; lra|intros p q C _; destruct (V s1 p Z1 C)]|].
  destruct (items s2) as [|d2 l2] eqn:Z2; [exists (P 1 0); split; [intros [E _]; cbn [px] in E; lra|intros p q _ C; destruct (V s2 q Z2 C)]|].
  apply (separated_sub _ _ _ _ (covered_hull s1) (covered_hull s2)). apply sided_hull. apply (apart_ok a b); try assumption; [rewrite Z1|rewrite Z2]; discriminate.
Qed.
(** No disc is on both sides of a line. *)
Theorem separated_disc : forall (f g : pt -> Prop) p r, separated f g -> 0 < r -> (forall q, near p r q -> f q) -> (forall q, near p r q -> g q) -> False.
Proof.
  intros f g p r [[x y] [N H]] R F G. set (n := x * x + y * y). assert (Pn : 0 < n).
  { destruct (Qlt_le_dec 0 n) as [z|z]; [exact z|]. exfalso. apply N. unfold n in z. split; cbn [px py]; nra. }
  set (t := r / (1 + n)). assert (T : t * (1 + n) == r) by (unfold t; field; lra). assert (T0 : 0 < t) by (unfold t; apply Qlt_shift_div_l; lra).
  assert (A : f (P (px p + t * x) (py p + t * y))).
  { apply F. unfold near. cbn [px py]. setoid_replace ((px p + t * x - px p) * (px p + t * x - px p) + (py p + t * y - py p) * (py p + t * y - py p)) with (t * t * n) by (unfold n; ring). rewrite <- T. nra. }
  assert (B : g p) by (apply G; unfold near; nra). specialize (H _ _ A B). unfold dot in H. cbn [px py] in H. unfold n in Pn. nra.
Qed.
Theorem no_overlap : forall a b s1 s2 p r, (forall s, In s (a ++ b) -> arcs_ok s) -> intersects a b = Some false -> In s1 a -> In s2 b -> 0 < r ->
  ~ ((forall q, near p r q -> covered s1 q) /\ (forall q, near p r q -> covered s2 q)).
Proof. intros a b s1 s2 p r F H I1 I2 R [A B]. exact (separated_disc _ _ p r (intersects_false a b s1 s2 F H I1 I2) R A B). Qed.
Theorem intersects_true : forall a b, (forall s, In s (a ++ b) -> arcs_ok s) ->
  (forall s1 s2, In s1 a -> In s2 b -> (length (points_of s1) * length (points_of s2) <= 99)%nat) ->
  intersects a b = Some true ->
  exists s1 s2, In s1 a /\ In s2 b /\ meet (hull (fun p => In p (points_of s1))) (hull (fun p => In p (points_of s2))).
Proof.
  intros a b F L H. assert (FA : fine a) by (intros s S; apply F; apply in_or_app; left; exact S). assert (FB : fine b) by (intros s S; apply F; apply in_or_app; right; exact S).
  unfold intersects in H. destruct (_ || _); [discriminate|].
  assert (C : forall x y, (2 <= length x)%nat -> (2 <= length y)%nat -> (length x * length y <= 99)%nat -> verdict (compare (convex_hull x) (convex_hull y)) = Some true -> common x y).
  { intros x y X Y M V. destruct (compare (convex_hull x) (convex_hull y)) eqn:E; try discriminate; [exact (compare_meet x y X Y E)|destruct (compare_ends x y X Y M E)]. }
  destruct (length (hulls a) <? length (hulls b))%nat; destruct (any_true _ _ _ H) as [x [X K]]; destruct (any_true _ _ _ K) as [y [Y V]].
  - destruct (hulls_in _ _ X) as [s2 [B1 [B2 ->]]]. destruct (hulls_in _ _ Y) as [s1 [A1 [A2 ->]]]. exists s1, s2. split; [exact A1|]. split; [exact B1|].
    destruct (C _ _ (two_points s2 (FB s2 B1) B2) (two_points s1 (FA s1 A1) A2) ltac:(rewrite Nat.mul_comm; exact (L s1 s2 A1 B1)) V) as [u [w [U [W [E1 E2]]]]]. exists w, u. split; [exact W|]. split; [exact U|]. split; symmetry; assumption.
  - destruct (hulls_in _ _ X) as [s1 [A1 [A2 ->]]]. destruct (hulls_in _ _ Y) as [s2 [B1 [B2 ->]]]. exists s1, s2. split; [exact A1|]. split; [exact B1|].
    exact (C _ _ (two_points s1 (FA s1 A1) A2) (two_points s2 (FB s2 B1) B2) (L s1 s2 A1 B1) V).
Qed.
Theorem intersects_ends : forall a b, (forall s, In s (a ++ b) -> arcs_ok s) -> intersects a b <> None.
Proof. intros a b F. apply intersects_total; intros s S; apply F; apply in_or_app; auto. Qed.

(** * What is not so *)
Theorem touch : exists a b s1 s2, In s1 a /\ In s2 b /\ (forall t, 0 <= t <= 1 -> (exists p, same p (mix t (P 5 5) (P 10 5)) /\ outline s1 p) /\ (exists p, same p (mix t (P 5 5) (P 10 5)) /\ outline s2 p)) /\ intersects a b = Some false.
Proof.
  exists [mkSegment (P 0 5) [LineTo (P 10 5)]], [mkSegment (P 5 5) [LineTo (P 15 5)]], (mkSegment (P 0 5) [LineTo (P 10 5)]), (mkSegment (P 5 5) [LineTo (P 15 5)]).
  split; [left; reflexivity|]. split; [left; reflexivity|]. split; [|vm_compute; reflexivity]. intros t T. split.
  - exists (mix ((1 + t) / 2) (P 0 5) (P 10 5)). split; [split; unfold mix; cbn [px py]; field|]. left. cbn [start]. constructor. split; [apply Qle_shift_div_l|apply Qle_shift_div_r]; lra.
  - exists (mix (t / 2) (P 5 5) (P 15 5)). split; [split; unfold mix; cbn [px py]; field|]. left. cbn [start]. constructor. split; [apply Qle_shift_div_l|apply Qle_shift_div_r]; lra.
Qed.
Definition bracket : segment := mkSegment (P 0 0) [LineTo (P 10 0); LineTo (P 10 1); LineTo (P 1 1); LineTo (P 1 9); LineTo (P 10 9); LineTo (P 10 10); LineTo (P 0 10)].
Theorem mouth : exists s1 s2, ~ meet (outline s1) (outline s2) /\ intersects [s1] [s2] = Some true.
Proof.
  exists bracket, (mkSegment (P 5 5) [LineTo (P 6 5)]). split; [|vm_compute; reflexivity].
  intros [p [q [H [K [E1 E2]]]]]. unfold outline, bracket in *. cbn [start items on_items end_of] in *.
  destruct K as [K|[]]. inversion K; subst. unfold mix in E1, E2. cbn [px py] in E1, E2.
  repeat (destruct H as [H|H]; [inversion H; subst; unfold mix in E1, E2; cbn [px py] in E1, E2; lra|]). destruct H.
Qed.
