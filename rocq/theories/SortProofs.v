(** Proofs about sorting. *)
From Coq Require Import String List NArith Bool Arith Sorting.Permutation Lia.
From Verif Require Import Chars SortModel SortSpec.
Import ListNotations.

Section Sort.
  Context {A : Type}.
  Variable cmp : A -> A -> comparison.
  Lemma insert_perm : forall x l, Permutation (x :: l) (insert_tail cmp x l).
  Proof.
    intros x l. induction l as [|y l IH]; [apply Permutation_refl|]. cbn [insert_tail]. destruct (cmp x y); try apply Permutation_refl.
    eapply Permutation_trans; [apply perm_swap|]. apply perm_skip. exact IH.
  Qed.
  Lemma fold_perm : forall l r, Permutation (l ++ r) (fold_left (fun r x => insert_tail cmp x r) l r).
  Proof.
    intros l. induction l as [|x l IH]; intros r; [apply Permutation_refl|]. cbn [fold_left]. eapply Permutation_trans; [|apply IH].
    cbn [app]. eapply Permutation_trans; [apply Permutation_middle|]. apply Permutation_app_head. apply insert_perm.
  Qed.
  Lemma sort_perm : forall l, Permutation l (sort_by cmp l).
  Proof. intros l. unfold sort_by. eapply Permutation_trans; [|apply Permutation_rev]. rewrite <- (app_nil_r l) at 1. apply fold_perm. Qed.
  (** Sorted, with the last item first. *)
  Inductive down : list A -> Prop :=
  | D0 : down []
  | D1 : forall x l, down l -> Forall (fun y => cmp x y <> Lt) l -> down (x :: l).
  Hypothesis HO : order_like cmp.
  Lemma sym : forall x y, cmp y x = CompOpp (cmp x y). Proof. exact (proj1 HO). Qed.
  Lemma trans : forall c x y z, cmp x y = c -> cmp y z = c -> cmp x z = c. Proof. exact (proj2 HO). Qed.
  Lemma refl : forall x, cmp x x = Eq.
  Proof. intros x. pose proof (sym x x) as S. destruct (cmp x x); [reflexivity|discriminate|discriminate]. Qed.
  Lemma nlt_trans : forall x y z, cmp x y <> Lt -> cmp y z <> Lt -> cmp x z <> Lt.
  Proof.
    intros x y z H1 H2 H3. destruct (cmp x y) eqn:E; [| |].
    - assert (E' : cmp y x = Eq) by (rewrite sym, E; reflexivity). destruct (cmp y z) eqn:F; [|contradiction|].
      + rewrite (trans Eq x y z E F) in H3. discriminate.
      + assert (G : cmp z y = Lt) by (rewrite sym, F; reflexivity). pose proof (trans Lt x z y H3 G) as K. congruence.
    - contradiction.
    - destruct (cmp y z) eqn:F; [|contradiction|].
      + assert (G : cmp z x = Gt) by (rewrite sym, H3; reflexivity). pose proof (trans Gt z x y G E) as K. rewrite sym, F in K. discriminate.
      + rewrite (trans Gt x y z E F) in H3. discriminate.
  Qed.
  Lemma insert_down : forall x l, down l -> down (insert_tail cmp x l).
  Proof.
    intros x l D. induction D as [|y l D IH F]; cbn [insert_tail].
    - constructor; [constructor|constructor].
    - destruct (cmp x y) eqn:E.
      + constructor; [constructor; assumption|]. constructor; [congruence|]. eapply Forall_impl; [|exact F]. intros z Hz. apply (nlt_trans x y z); [congruence|exact Hz].
      + constructor; [exact IH|]. assert (P := insert_perm x l). apply Forall_forall. intros z I. apply (Permutation_in _ (Permutation_sym P)) in I. destruct I as [<-|I].
        * rewrite sym, E. discriminate.
        * rewrite Forall_forall in F. apply F. exact I.
      + constructor; [constructor; assumption|]. constructor; [congruence|]. eapply Forall_impl; [|exact F]. intros z Hz. apply (nlt_trans x y z); [congruence|exact Hz].
  Qed.
  Lemma fold_down : forall l r, down r -> down (fold_left (fun r x => insert_tail cmp x r) l r).
  Proof. intros l. induction l as [|x l IH]; intros r D; [exact D|]. apply IH. apply insert_down. exact D. Qed.
  Lemma down_app : forall l x r y s, down (l ++ x :: r ++ y :: s) -> cmp x y <> Lt.
  Proof.
    intros l. induction l as [|z l IH]; intros x r y s D; inversion D as [|? ? D1 D2]; subst; [|exact (IH _ _ _ _ D1)]. rewrite Forall_forall in D2. apply D2. apply in_or_app. right. left. reflexivity.
  Qed.
  Lemma sort_ordered : forall l a b, before (sort_by cmp l) a b -> cmp a b <> Gt.
  Proof.
    intros l a b [l1 [l2 [l3 E]]]. unfold sort_by in E. apply (f_equal (@rev A)) in E. rewrite rev_involutive in E. rewrite rev_app_distr in E. cbn [rev] in E. rewrite rev_app_distr in E. cbn [rev] in E. rewrite <- !app_assoc in E. cbn [app] in E.
    pose proof (fold_down l [] D0) as D. rewrite E in D. apply down_app in D. rewrite sym. destruct (cmp b a); [discriminate| |discriminate]. contradiction.
  Qed.
  (** A sorted list stays. *)
  Lemma down_fixed : forall l r, down (rev l ++ r) -> fold_left (fun r x => insert_tail cmp x r) l r = rev l ++ r.
  Proof.
    intros l. induction l as [|x l IH]; intros r D; [reflexivity|]. cbn [fold_left rev] in *. rewrite <- app_assoc in *. cbn [app] in *.
    assert (E : insert_tail cmp x r = x :: r).
    { assert (K : down (x :: r)) by (clear IH; induction (rev l) as [|z m IHm]; [exact D|inversion D; subst; apply IHm; assumption]). inversion K as [|? ? K1 K2]; subst. destruct r as [|y r]; [reflexivity|]. cbn [insert_tail].
      inversion K2 as [|? ? K3 _]; subst. destruct (cmp x y); [reflexivity|contradiction|reflexivity]. }
    rewrite E. apply IH. exact D.
  Qed.
  Lemma sort_twice : forall l, sort_by cmp (sort_by cmp l) = sort_by cmp l.
  Proof.
    intros l. unfold sort_by at 1. rewrite down_fixed; [rewrite app_nil_r, rev_involutive; reflexivity|]. rewrite app_nil_r. unfold sort_by. rewrite rev_involutive. apply fold_down. constructor.
  Qed.
  (** Items that are not equal to each other are in one order only. *)
  Lemma down_unique : forall l m, down l -> down m -> Permutation l m -> (forall x y, In x l -> In y l -> cmp x y = Eq -> x = y) -> l = m.
  Proof.
    intros l. induction l as [|x l IH]; intros m Dl Dm P U.
    - apply Permutation_nil in P. symmetry. exact P.
    - destruct m as [|y m]; [exfalso; exact (Permutation_nil_cons (Permutation_sym P))|]. inversion Dl as [|? ? L1 L2]; subst. inversion Dm as [|? ? M1 M2]; subst.
      assert (E : x = y).
      { assert (Iy : In y (x :: l)) by (apply (Permutation_in _ (Permutation_sym P)); left; reflexivity). assert (Ix : In x (y :: m)) by (apply (Permutation_in _ P); left; reflexivity).
        destruct Iy as [E|Iy]; [exact E|]. destruct Ix as [E|Ix]; [symmetry; exact E|]. rewrite Forall_forall in L2, M2. specialize (L2 y Iy). specialize (M2 x Ix).
        apply U; [left; reflexivity|right; exact Iy|]. rewrite sym in M2. destruct (cmp x y); [reflexivity|contradiction|cbn in M2; contradiction]. }
      subst y. f_equal. apply IH; [exact L1|exact M1|exact (Permutation_cons_inv P)|]. intros a b Ia Ib. apply U; right; assumption.
  Qed.
  Lemma sort_unique : forall l m, Permutation l m -> (forall x y, In x l -> In y l -> cmp x y = Eq -> x = y) -> sort_by cmp l = sort_by cmp m.
  Proof.
    intros l m P U. unfold sort_by. f_equal. assert (Pl := fold_perm l []). assert (Pm := fold_perm m []). rewrite app_nil_r in Pl, Pm. apply down_unique; try (apply fold_down; constructor).
    - eapply Permutation_trans; [apply Permutation_sym; exact Pl|]. eapply Permutation_trans; [exact P|exact Pm].
    - intros x y Ix Iy. apply U; eapply Permutation_in; try (apply Permutation_sym; exact Pl); assumption.
  Qed.
  (** Items that are equal to each other keep their order. *)
  Lemma insert_filter : forall p x l, (forall a b, p a = true -> p b = true -> cmp a b = Eq) -> filter p (insert_tail cmp x l) = filter p (x :: l).
  Proof.
    intros p x l H. induction l as [|y l IH]; [reflexivity|]. cbn [insert_tail]. destruct (cmp x y) eqn:E; try reflexivity. cbn [filter] in *. rewrite IH. destruct (p x) eqn:X; [|reflexivity]. destruct (p y) eqn:Y; [|reflexivity].
    rewrite (H x y X Y) in E. discriminate.
  Qed.
  Lemma filter_rev : forall p (l : list A), filter p (rev l) = rev (filter p l).
  Proof. intros p l. induction l as [|x l IH]; [reflexivity|]. cbn [rev]. rewrite filter_app, IH. cbn [filter]. destruct (p x); [reflexivity|rewrite app_nil_r; reflexivity]. Qed.
  Lemma sort_stable : forall p l, (forall a b, p a = true -> p b = true -> cmp a b = Eq) -> filter p (sort_by cmp l) = filter p l.
  Proof.
    intros p l H. unfold sort_by. rewrite filter_rev. assert (K : forall l r, filter p (fold_left (fun r x => insert_tail cmp x r) l r) = rev (filter p l) ++ filter p r).
    { clear l. intros l. induction l as [|x l IH]; intros r; [reflexivity|]. cbn [fold_left]. rewrite IH, (insert_filter p x r H). cbn [filter]. destruct (p x); [cbn [rev]; rewrite <- app_assoc; reflexivity|reflexivity]. }
    rewrite K. cbn [filter]. rewrite app_nil_r, rev_involutive. reflexivity.
  Qed.
End Sort.

Lemma text_reflect : forall a b, reflect (a = b) (text_eqb a b).
Proof. intros a b. destruct (text_eqb a b) eqn:E; constructor; [apply text_eqb_spec; exact E|]. intros H. apply text_eqb_spec in H. congruence. Qed.
(** ** Orders *)
Lemma order_lex : forall {A} (f g : A -> A -> comparison), order_like f -> order_like g -> order_like (fun x y => match f x y with Eq => g x y | c => c end).
Proof.
  intros A f g [F1 F2] [G1 G2]. split.
  - intros x y. rewrite F1, G1. destruct (f x y); reflexivity.
  - assert (FE : forall x y z, f x y = Eq -> f x z = f y z).
    { intros x y z E. assert (E' : f y x = Eq) by (rewrite F1, E; reflexivity). destruct (f y z) eqn:Y.
      - exact (F2 Eq x y z E Y).
      - destruct (f x z) eqn:X; [|reflexivity|].
        + rewrite (F2 Eq y x z E' X) in Y. discriminate.
        + assert (Z : f z x = Lt) by (rewrite F1, X; reflexivity). rewrite (F2 Lt y z x Y Z) in E'. discriminate.
      - destruct (f x z) eqn:X; [| |reflexivity].
        + rewrite (F2 Eq y x z E' X) in Y. discriminate.
        + assert (Z : f z x = Gt) by (rewrite F1, X; reflexivity). rewrite (F2 Gt y z x Y Z) in E'. discriminate. }
    assert (FE' : forall x y z, f y z = Eq -> f x z = f x y).
    { intros x y z E. rewrite (F1 z x), (F1 y x). f_equal. apply FE. rewrite F1, E. reflexivity. }
    intros c x y z. destruct (f x y) eqn:X; [|intros <-|intros <-].
    + rewrite (FE x y z X). destruct (f y z) eqn:Y; [|intros H1 H2; exact H2|intros H1 H2; exact H2]. apply G2.
    + destruct (f y z) eqn:Y; [|intros _|discriminate].
      * rewrite (FE' x y z Y), X. reflexivity.
      * rewrite (F2 Lt x y z X Y). reflexivity.
    + destruct (f y z) eqn:Y; [|discriminate|intros _].
      * rewrite (FE' x y z Y), X. reflexivity.
      * rewrite (F2 Gt x y z X Y). reflexivity.
Qed.
Lemma order_map : forall {A B} (h : A -> B) (f : B -> B -> comparison), order_like f -> order_like (fun x y => f (h x) (h y)).
Proof. intros A B h f [F1 F2]. split; [intros x y; apply F1|intros c x y z; apply F2]. Qed.
Lemma order_flip : forall {A} (f : A -> A -> comparison), order_like f -> order_like (fun x y => f y x).
Proof. intros A f [F1 F2]. split; [intros x y; apply F1|intros c x y z H1 H2; exact (F2 c z y x H2 H1)]. Qed.
Lemma order_ext : forall {A} (f g : A -> A -> comparison), (forall x y, f x y = g x y) -> order_like g -> order_like f.
Proof. intros A f g E [G1 G2]. split; [intros x y; rewrite !E; apply G1|intros c x y z; rewrite !E; apply G2]. Qed.
Lemma order_nat : order_like Nat.compare.
Proof.
  split; [intros x y; rewrite Nat.compare_antisym; destruct (Nat.compare y x); reflexivity|]. intros [| |] x y z H1 H2;
  rewrite ?Nat.compare_eq_iff, ?Nat.compare_lt_iff, ?Nat.compare_gt_iff in *; lia.
Qed.
Lemma order_N : order_like N.compare.
Proof.
  split; [intros x y; rewrite N.compare_antisym; reflexivity|]. intros [| |] x y z H1 H2; rewrite ?N.compare_eq_iff, ?N.compare_lt_iff, ?N.compare_gt_iff in *; lia.
Qed.
Lemma text_cmp_eq : forall a b, text_cmp a b = Eq -> a = b.
Proof. intros a. induction a as [|x a IH]; intros [|y b]; cbn; intros H; try discriminate; [reflexivity|]. destruct (N.compare x y) eqn:E; try discriminate. apply N.compare_eq_iff in E. f_equal; [exact E|exact (IH b H)]. Qed.
Lemma order_text : order_like text_cmp.
Proof.
  destruct order_N as [N1 N2]. split.
  - intros a. induction a as [|x a IH]; intros [|y b]; cbn [text_cmp]; try reflexivity. rewrite (N1 x y). destruct (N.compare x y); [apply IH|reflexivity|reflexivity].
  - intros c a. revert c. induction a as [|x a IH]; intros c [|y b] [|z d]; cbn [text_cmp]; intros H1 H2; try congruence.
    destruct (N.compare x y) eqn:X.
    + apply N.compare_eq_iff in X. subst y. destruct (N.compare x z); [exact (IH c b d H1 H2)|exact H2|exact H2].
    + subst c. destruct (N.compare y z) eqn:Y; [|rewrite (N2 Lt x y z X Y); reflexivity|discriminate]. apply N.compare_eq_iff in Y. subst z. rewrite X. reflexivity.
    + subst c. destruct (N.compare y z) eqn:Y; [|discriminate|rewrite (N2 Gt x y z X Y); reflexivity]. apply N.compare_eq_iff in Y. subst z. rewrite X. reflexivity.
Qed.
Lemma order_prefix : order_like prefix_cmp.
Proof.
  destruct order_text as [T1 T2]. split.
  - intros [a|] [b|]; cbn; try reflexivity. apply T1.
  - intros c [x|] [y|] [z|]; cbn; intros H1 H2; try congruence. exact (T2 c x y z H1 H2).
Qed.
Lemma prefix_cmp_eq : forall a b, prefix_cmp a b = Eq -> a = b.
Proof. intros [a|] [b|]; cbn; intros H; try discriminate; [f_equal; apply text_cmp_eq; exact H|reflexivity]. Qed.
Lemma order_name : order_like name_cmp.
Proof. exact (order_lex _ _ (order_map prefix _ order_prefix) (order_map local _ order_text)). Qed.
Lemma name_cmp_eq : forall a b, name_cmp a b = Eq -> qualified a = qualified b.
Proof. intros a b. unfold name_cmp. destruct (prefix_cmp (prefix a) (prefix b)) eqn:E; intros H; try discriminate. unfold qualified. f_equal; [apply prefix_cmp_eq; exact E|apply text_cmp_eq; exact H]. Qed.

(** ** Attributes *)
Definition place (order : list text) (a : name) : nat := match position (stem (local a)) order with Some i => i | None => length order end.
Lemma position_bound : forall t l i, position t l = Some i -> i < length l.
Proof. intros t l. induction l as [|x l IH]; cbn; intros i H; [discriminate|]. destruct (text_eqb x t); [injection H as <-; lia|]. destruct (position t l) as [j|]; [|discriminate]. injection H as <-. specialize (IH j eq_refl). lia. Qed.
Lemma position_same : forall s t l i, position s l = Some i -> position t l = Some i -> s = t.
Proof.
  intros s t l. induction l as [|x l IH]; cbn; intros i H1 H2; [discriminate|]. destruct (text_reflect x s) as [E|E]; destruct (text_reflect x t) as [F|F].
  - congruence.
  - injection H1 as <-. destruct (position t l); discriminate.
  - injection H2 as <-. destruct (position s l); discriminate.
  - destruct (position s l) as [j|]; [|discriminate]. destruct (position t l) as [k|]; [|discriminate]. cbn in *. apply (IH j); congruence.
Qed.
Lemma attr_cmp_lex : forall order front a b, attr_cmp order front a b =
  match Nat.compare (ns_priority front b) (ns_priority front a) with Eq => match Nat.compare (place order a) (place order b) with Eq => name_cmp a b | c => c end | c => c end.
Proof.
  intros order front a b. unfold attr_cmp. destruct (Nat.eqb_spec (ns_priority front a) (ns_priority front b)) as [E|E]; cbn [negb].
  - rewrite E, Nat.compare_refl. unfold place. destruct (text_reflect (stem (local a)) (stem (local b))) as [S|S].
    + rewrite S, Nat.compare_refl. reflexivity.
    + destruct (position (stem (local a)) order) as [i|] eqn:P; destruct (position (stem (local b)) order) as [j|] eqn:Q.
      * destruct (Nat.compare i j) eqn:C; [|reflexivity|reflexivity]. apply Nat.compare_eq_iff in C. subst j. exfalso. apply S. exact (position_same _ _ _ _ P Q).
      * apply position_bound in P. apply Nat.compare_lt_iff in P. rewrite P. reflexivity.
      * apply position_bound in Q. apply Nat.compare_gt_iff in Q. rewrite Q. reflexivity.
      * rewrite Nat.compare_refl. reflexivity.
  - destruct (Nat.compare (ns_priority front b) (ns_priority front a)) eqn:C; [|reflexivity|reflexivity]. apply Nat.compare_eq_iff in C. congruence.
Qed.
Lemma attr_order : forall order front, order_like (attr_cmp order front).
Proof.
  intros order front. eapply order_ext; [apply attr_cmp_lex|].
  exact (order_lex _ _ (order_map (ns_priority front) _ (order_flip _ order_nat)) (order_lex _ _ (order_map (place order) _ order_nat) order_name)).
Qed.
Lemma attrs_perm : forall o al l, Permutation l (sort_attrs o al l).
Proof. intros o al l. apply sort_perm. Qed.
Lemma attrs_order : forall o al, order_like (fun a b : name * text => attr_cmp (match o with Some o => o | None => default_order end) (negb al) (fst a) (fst b)).
Proof. intros o al. apply (order_map fst). apply attr_order. Qed.
Lemma attrs_twice : forall o al l, sort_attrs o al (sort_attrs o al l) = sort_attrs o al l.
Proof. intros o al l. apply sort_twice. apply attrs_order. Qed.
Lemma attr_cmp_eq : forall order front a b, attr_cmp order front a b = Eq -> qualified a = qualified b.
Proof.
  intros order front a b. rewrite attr_cmp_lex. destruct (Nat.compare (ns_priority front b) (ns_priority front a)); try discriminate. destruct (Nat.compare (place order a) (place order b)); try discriminate. apply name_cmp_eq.
Qed.
Lemma nodup_inj : forall {A B} (f : A -> B) l x y, NoDup (map f l) -> In x l -> In y l -> f x = f y -> x = y.
Proof.
  intros A B f l x y. induction l as [|z l IH]; intros N Ix Iy E; [destruct Ix|]. inversion N as [|? ? N1 N2]; subst. destruct Ix as [->|Ix], Iy as [->|Iy]; [reflexivity| | |apply IH; assumption].
  - exfalso. apply N1. rewrite E. apply in_map. exact Iy.
  - exfalso. apply N1. rewrite <- E. apply in_map. exact Ix.
Qed.
Lemma attrs_predictable : forall o al l m, well_formed l -> Permutation l m -> sort_attrs o al l = sort_attrs o al m.
Proof.
  intros o al l m W P. apply sort_unique; [apply attrs_order|exact P|]. intros x y Ix Iy E. apply attr_cmp_eq in E. exact (nodup_inj (fun a => qualified (fst a)) l x y W Ix Iy E).
Qed.
Lemma perm_filter : forall {A} (p : A -> bool) l m, Permutation l m -> Permutation (filter p l) (filter p m).
Proof.
  intros A p l m P. induction P as [|x l m P IH|x y l|l m k P IH Q IH2]; cbn [filter]; [constructor| | |eapply Permutation_trans; eassumption].
  - destruct (p x); [constructor; exact IH|exact IH].
  - destruct (p x), (p y); try apply Permutation_refl. apply perm_swap.
Qed.
Lemma attrs_get : forall o al l n, Permutation (get (sort_attrs o al l) n) (get l n).
Proof. intros o al l n. unfold get. apply Permutation_map. apply perm_filter. apply Permutation_sym. apply attrs_perm. Qed.
Lemma attrs_before : forall o al l a b, before (sort_attrs o al l) a b -> attr_cmp (match o with Some o => o | None => default_order end) (negb al) (fst a) (fst b) <> Gt.
Proof. intros o al l a b B. exact (sort_ordered _ (attrs_order o al) l a b B). Qed.
Lemma priority_svg : forall front a, ns a = SVG -> text_eqb (local a) (lit "xmlns") = false -> ns_priority front a = 0.
Proof. intros front a E F. unfold ns_priority. rewrite E, F, !andb_false_r. reflexivity. Qed.
Lemma stem_plain : forall t, ~ In 45%N t -> stem t = t.
Proof. intros t. induction t as [|c t IH]; intros H; [reflexivity|]. cbn [stem]. destruct (N.eqb_spec c 45) as [E|E]; [exfalso; apply H; left; exact E|]. f_equal. apply IH. intros I. apply H. right. exact I. Qed.
(** Listed attributes come in the order of the list, before those that are not. *)
Lemma attrs_listed : forall order al l a b i, before (sort_attrs (Some order) al l) a b -> ns (fst a) = SVG -> ns (fst b) = SVG -> local (fst a) <> lit "xmlns" -> local (fst b) <> lit "xmlns" ->
  position (stem (local (fst b))) order = Some i -> exists j, position (stem (local (fst a))) order = Some j /\ j <= i.
Proof.
  intros order al l a b i B Sa Sb Xa Xb P. apply attrs_before in B. rewrite attr_cmp_lex in B. rewrite !priority_svg in B by (try assumption; destruct (text_reflect (local (fst a)) (lit "xmlns")), (text_reflect (local (fst b)) (lit "xmlns")); congruence).
  cbn [Nat.compare] in B. unfold place in B. rewrite P in B. destruct (position (stem (local (fst a))) order) as [j|] eqn:Q.
  - exists j. split; [reflexivity|]. destruct (Nat.compare j i) eqn:C; [apply Nat.compare_eq_iff in C; lia|apply Nat.compare_lt_iff in C; lia|contradiction].
  - apply position_bound in P. apply Nat.compare_gt_iff in P. rewrite P in B. contradiction.
Qed.
(** The others are in the order of their names. *)
Lemma attrs_unlisted : forall order al l a b, before (sort_attrs (Some order) al l) a b -> ns (fst a) = SVG -> ns (fst b) = SVG -> local (fst a) <> lit "xmlns" -> local (fst b) <> lit "xmlns" ->
  prefix (fst a) = prefix (fst b) -> position (stem (local (fst a))) order = position (stem (local (fst b))) order -> text_cmp (local (fst a)) (local (fst b)) <> Gt.
Proof.
  intros order al l a b B Sa Sb Xa Xb E P. apply attrs_before in B. rewrite attr_cmp_lex in B. rewrite !priority_svg in B by (try assumption; destruct (text_reflect (local (fst a)) (lit "xmlns")), (text_reflect (local (fst b)) (lit "xmlns")); congruence).
  cbn [Nat.compare] in B. unfold place in B. rewrite P, Nat.compare_refl in B. unfold name_cmp in B. rewrite E in B. rewrite (refl _ order_prefix) in B. exact B.
Qed.
(** Declarations of namespaces come first. *)
Lemma attrs_front : forall o l a b, before (sort_attrs o false l) a b -> ns (fst b) = XMLNS \/ (ns (fst b) = SVG /\ local (fst b) = lit "xmlns") -> ns (fst a) = XMLNS \/ (ns (fst a) = SVG /\ local (fst a) = lit "xmlns").
Proof.
  intros o l a b B H. apply attrs_before in B. rewrite attr_cmp_lex in B. cbn [negb] in B. assert (Hb : 2 <= ns_priority true (fst b)).
  { destruct H as [H|[H1 H2]]; unfold ns_priority; [rewrite H; cbn; lia|]. rewrite H1, H2. replace (text_eqb (lit "xmlns") (lit "xmlns")) with true by reflexivity. cbn. lia. }
  assert (Ha : 2 <= ns_priority true (fst a)).
  { destruct (Nat.compare (ns_priority true (fst b)) (ns_priority true (fst a))) eqn:C; [apply Nat.compare_eq_iff in C; lia|apply Nat.compare_lt_iff in C; lia|contradiction]. }
  unfold ns_priority in Ha. destruct (ns (fst a)) as [| |u]; [|left; reflexivity|cbn in Ha; lia]. destruct (text_reflect (local (fst a)) (lit "xmlns")) as [E|E]; cbn in Ha; [right; split; [reflexivity|exact E]|lia].
Qed.

(** ** Children of [defs] *)
Lemma element_order : forall l, order_like (element_cmp l).
Proof.
  intros l. unfold element_cmp. exact (order_lex _ _ (order_map (frequency l) _ (order_flip _ order_nat)) (order_lex _ _ (order_map name_len _ (order_flip _ order_nat)) (order_flip _ order_name))).
Qed.
(** Nodes that are not elements come first, each new one before the others. *)
Definition elems (l : list child) : list child := filter is_elem l.
Definition nodes (l : list child) : list child := filter (fun c => negb (is_elem c)) l.
Lemma insert_node : forall k x l, insert_tail (child_cmp k) (Node x) l = l ++ [Node x].
Proof. intros k x l. induction l as [|y l IH]; [reflexivity|]. cbn [insert_tail child_cmp app]. rewrite IH. reflexivity. Qed.
Lemma insert_elem : forall k n x l m, Forall (fun c => is_elem c = true) l -> Forall (fun c => is_elem c = false) m -> insert_tail (child_cmp k) (Elem n x) (l ++ m) = insert_tail (child_cmp k) (Elem n x) l ++ m.
Proof.
  intros k n x l m E M. induction E as [|y l Y E IH]; cbn [app insert_tail].
  - destruct M as [|z m Z M]; [reflexivity|]. cbn [insert_tail]. destruct z as [n' x'|x']; [discriminate|]. reflexivity.
  - destruct (child_cmp k (Elem n x) y); [reflexivity|rewrite IH; reflexivity|reflexivity].
Qed.
Lemma sort_parts : forall k l r m, Forall (fun c => is_elem c = true) r -> Forall (fun c => is_elem c = false) m ->
  fold_left (fun r x => insert_tail (child_cmp k) x r) l (r ++ m) = fold_left (fun r x => insert_tail (child_cmp k) x r) (elems l) r ++ m ++ nodes l.
Proof.
  intros k l. induction l as [|[n x|x] l IH]; intros r m R M; cbn [fold_left elems nodes filter is_elem negb].
  - rewrite app_nil_r. reflexivity.
  - rewrite insert_elem by assumption. apply IH; [|exact M]. apply Forall_forall. intros c I. apply (Permutation_in _ (Permutation_sym (insert_perm (child_cmp k) (Elem n x) r))) in I. destruct I as [<-|I]; [reflexivity|]. rewrite Forall_forall in R. apply R. exact I.
  - rewrite insert_node. rewrite <- app_assoc. rewrite IH; [|exact R|apply Forall_app; split; [exact M|repeat constructor]]. rewrite <- app_assoc. reflexivity.
Qed.
Lemma defs_parts : forall l, sort_defs true l = rev (nodes l) ++ sort_by (child_cmp l) (elems l).
Proof. intros l. unfold sort_defs, sort_by. pose proof (sort_parts l l [] [] (Forall_nil _) (Forall_nil _)) as E. cbn [app] in E. rewrite E, rev_app_distr. reflexivity. Qed.
Lemma defs_perm : forall on l, Permutation l (sort_defs on l).
Proof. intros [|] l; [apply sort_perm|apply Permutation_refl]. Qed.
(** On elements alone, the comparison is an order. *)
Definition elem_cmp' (k : list child) (a b : child) : comparison :=
  match a, b with
  | Elem m _, Elem n _ => element_cmp k m n
  | Elem _ _, Node _ => Gt
  | Node _, Elem _ _ => Lt
  | Node _, Node _ => Eq
  end.
Lemma order_elem' : forall k, order_like (elem_cmp' k).
Proof.
  intros k. destruct (element_order k) as [E1 E2]. split.
  - intros [m x|x] [n y|y]; cbn; try reflexivity. apply E1.
  - intros c [m x|x] [n y|y] [p z|z]; cbn; intros H1 H2; try congruence. exact (E2 c m n p H1 H2).
Qed.
Lemma insert_same : forall k x l, is_elem x = true -> insert_tail (child_cmp k) x l = insert_tail (elem_cmp' k) x l.
Proof. intros k [m x|x] l X; [|discriminate]. induction l as [|[n y|y] l IH]; [reflexivity| |reflexivity]. cbn [insert_tail child_cmp elem_cmp']. rewrite IH. reflexivity. Qed.
Lemma sort_same : forall k l, Forall (fun c => is_elem c = true) l -> sort_by (child_cmp k) l = sort_by (elem_cmp' k) l.
Proof.
  intros k l E. unfold sort_by. f_equal. generalize (@nil child). induction E as [|x l X E IH]; intros r; [reflexivity|]. cbn [fold_left]. rewrite (insert_same k x r X). apply IH.
Qed.
Lemma elems_all : forall l, Forall (fun c => is_elem c = true) (elems l).
Proof. intros l. apply Forall_forall. intros c I. apply filter_In in I. exact (proj2 I). Qed.
Lemma filter_all : forall {A} (p : A -> bool) l, Forall (fun x => p x = true) l -> filter p l = l.
Proof. intros A p l H. induction H as [|x l X H IH]; [reflexivity|]. cbn [filter]. rewrite X, IH. reflexivity. Qed.
Lemma filter_none : forall {A} (p : A -> bool) l, Forall (fun x => p x = false) l -> filter p l = [].
Proof. intros A p l H. induction H as [|x l X H IH]; [reflexivity|]. cbn [filter]. rewrite X. exact IH. Qed.
Lemma sorted_elems : forall k l, Forall (fun c => is_elem c = true) (sort_by (child_cmp k) (elems l)).
Proof. intros k l. apply Forall_forall. intros c I. apply (Permutation_in _ (Permutation_sym (sort_perm _ _))) in I. pose proof (elems_all l) as A. rewrite Forall_forall in A. apply A. exact I. Qed.
Lemma nodes_all : forall l, Forall (fun c => is_elem c = false) (rev (nodes l)).
Proof. intros l. apply Forall_forall. intros c I. apply in_rev in I. apply filter_In in I. apply negb_true_iff. exact (proj2 I). Qed.
Lemma defs_elems : forall l, elems (sort_defs true l) = sort_by (elem_cmp' l) (elems l).
Proof.
  intros l. rewrite defs_parts. unfold elems at 1. rewrite filter_app. rewrite (filter_none _ _ (nodes_all l)). rewrite (filter_all _ _ (sorted_elems l l)). cbn [app]. apply sort_same. apply elems_all.
Qed.
(** Elements of the same name keep their order. *)
Lemma frequency_same : forall l a b, ns a = ns b -> local a = local b -> frequency l a = frequency l b.
Proof.
  intros l a b E F. unfold frequency. f_equal. apply filter_ext. intros [m x|x]; [|reflexivity]. unfold same_name. rewrite E, F. reflexivity.
Qed.
Lemma defs_same_name : forall on n l, filter (named n) (sort_defs on l) = filter (named n) l.
Proof.
  intros [|] n l; [|reflexivity]. set (p := named n). assert (PE : forall k, filter p k = filter p (elems k)).
  { intros k. unfold elems. induction k as [|[m x|x] k IH]; [reflexivity| |exact IH]. cbn [filter is_elem]. rewrite IH. reflexivity. }
  rewrite (PE (sort_defs true l)), (PE l), defs_elems. apply sort_stable.
  assert (PQ : forall m x, p (Elem m x) = true -> m = n).
  { intros m x H. unfold p, named in H. apply andb_prop in H. destruct H as [H H3]. apply andb_prop in H. destruct H as [H1 H2]. destruct (text_reflect (local m) (local n)) as [E|E]; [|discriminate].
    destruct m as [s1 p1 l1], n as [s2 p2 l2]; cbn in *. subst. f_equal.
    - destruct s1, s2; try discriminate; try reflexivity. cbn in H1. destruct (text_reflect uri uri0) as [E|E]; [f_equal; exact E|discriminate].
    - destruct p1 as [a|], p2 as [b|]; try discriminate; [|reflexivity]. destruct (text_reflect a b) as [E|E]; [f_equal; exact E|discriminate]. }
  intros [m x|x] [m' y|y] H1 H2; try discriminate. apply PQ in H1. apply PQ in H2. subst. cbn [elem_cmp']. apply (refl _ (element_order l)).
Qed.
(** What is more frequent comes first. *)
Lemma in_split2 : forall {A} (l1 l2 l3 : list A) a b p, p a = true -> p b = true -> exists m1 m2 m3, filter p (l1 ++ a :: l2 ++ b :: l3) = m1 ++ a :: m2 ++ b :: m3.
Proof. intros A l1 l2 l3 a b p Pa Pb. exists (filter p l1), (filter p l2), (filter p l3). rewrite filter_app. cbn [filter]. rewrite Pa, filter_app. cbn [filter]. rewrite Pb. reflexivity. Qed.
Lemma defs_frequent : forall l a x b y, before (sort_defs true l) (Elem a x) (Elem b y) -> frequency l b <= frequency l a.
Proof.
  intros l a x b y [l1 [l2 [l3 E]]]. destruct (in_split2 l1 l2 l3 (Elem a x) (Elem b y) is_elem eq_refl eq_refl) as [m1 [m2 [m3 M]]]. rewrite <- E in M. fold (elems (sort_defs true l)) in M. rewrite defs_elems in M.
  assert (B : before (sort_by (elem_cmp' l) (elems l)) (Elem a x) (Elem b y)) by (exists m1, m2, m3; exact M). apply (sort_ordered _ (order_elem' l)) in B. cbn [elem_cmp'] in B. unfold element_cmp in B.
  destruct (Nat.compare (frequency l b) (frequency l a)) eqn:C; [apply Nat.compare_eq_iff in C; lia|apply Nat.compare_lt_iff in C; lia|contradiction].
Qed.
Lemma frequency_perm : forall l m n, Permutation l m -> frequency l n = frequency m n.
Proof. intros l m n P. unfold frequency. apply Permutation_length. apply perm_filter. exact P. Qed.
Lemma element_cmp_perm : forall l m, Permutation l m -> forall a b, element_cmp l a b = element_cmp m a b.
Proof. intros l m P a b. unfold element_cmp. rewrite (frequency_perm l m a P), (frequency_perm l m b P). reflexivity. Qed.
Lemma insert_ext : forall {A} (f g : A -> A -> comparison), (forall a b, f a b = g a b) -> forall x l, insert_tail f x l = insert_tail g x l.
Proof. intros A f g E x l. induction l as [|y l IH]; [reflexivity|]. cbn [insert_tail]. rewrite E, IH. reflexivity. Qed.
Lemma sort_ext : forall {A} (f g : A -> A -> comparison), (forall a b, f a b = g a b) -> forall l, sort_by f l = sort_by g l.
Proof. intros A f g E l. unfold sort_by. f_equal. generalize (@nil A). induction l as [|x l IH]; intros r; [reflexivity|]. cbn [fold_left]. rewrite (insert_ext f g E). apply IH. Qed.
Lemma defs_twice : forall l, Forall (fun c => is_elem c = true) l -> sort_defs true (sort_defs true l) = sort_defs true l.
Proof.
  intros l E. assert (Q : forall k, Forall (fun c => is_elem c = true) k -> sort_defs true k = sort_by (elem_cmp' k) k) by (intros k K; unfold sort_defs; apply sort_same; exact K).
  assert (P := defs_perm true l). assert (E' : Forall (fun c => is_elem c = true) (sort_defs true l)) by (apply Forall_forall; intros c I; apply (Permutation_in _ (Permutation_sym P)) in I; rewrite Forall_forall in E; apply E; exact I).
  rewrite (Q (sort_defs true l) E'). rewrite (sort_ext (elem_cmp' (sort_defs true l)) (elem_cmp' l)).
  - rewrite (Q l E). apply sort_twice. apply order_elem'.
  - intros [m x|x] [n y|y]; cbn [elem_cmp']; try reflexivity. symmetry. apply element_cmp_perm. exact P.
Qed.
(** References. *)
Lemma refers_in : forall ids l i c, NoDup (ids_of ids l) -> (refers ids l i = Some c <-> In c l /\ match c with Elem _ x => ids x = Some i | Node _ => False end).
Proof.
  intros ids l i c. unfold refers. induction l as [|d l IH]; intros N; cbn [find].
  - split; [discriminate|intros [[] _]].
  - cbn [ids_of flat_map] in N. change (flat_map _ l) with (ids_of ids l) in N. destruct d as [n x|x].
    + destruct (ids x) as [j|] eqn:J.
      * cbn [app] in N. inversion N as [|? ? N1 N2]; subst. destruct (Nat.eqb_spec i j) as [->|D].
        -- split.
           ++ intros H. injection H as <-. split; [left; reflexivity|exact J].
           ++ intros [[<-|I] H]; [reflexivity|]. exfalso. apply N1. unfold ids_of. apply in_flat_map. exists c. split; [exact I|]. destruct c as [m y|y]; [|destruct H]. rewrite H. left. reflexivity.
        -- rewrite (IH N2). split.
           ++ intros [I H]. split; [right; exact I|exact H].
           ++ intros [[<-|I] H]; [congruence|]. split; assumption.
      * rewrite (IH N). split.
        -- intros [I H]. split; [right; exact I|exact H].
        -- intros [[<-|I] H]; [congruence|]. split; assumption.
    + rewrite (IH N). split.
      * intros [I H]. split; [right; exact I|exact H].
      * intros [[<-|I] H]; [destruct H|]. split; assumption.
Qed.
Lemma perm_flat_map : forall {A B} (f : A -> list B) l m, Permutation l m -> Permutation (flat_map f l) (flat_map f m).
Proof.
  intros A B f l m P. induction P as [|x l m P IH|x y l|l m k P IH Q IH2]; cbn [flat_map]; [constructor|apply Permutation_app_head; exact IH| |eapply Permutation_trans; eassumption].
  rewrite !app_assoc. apply Permutation_app_tail. apply Permutation_app_comm.
Qed.
Lemma defs_refers : forall on ids l i, NoDup (ids_of ids l) -> refers ids (sort_defs on l) i = refers ids l i.
Proof.
  intros on ids l i N. assert (P := defs_perm on l). assert (N' : NoDup (ids_of ids (sort_defs on l))) by (eapply Permutation_NoDup; [apply perm_flat_map; exact P|exact N]).
  destruct (refers ids l i) as [c|] eqn:E.
  - apply (refers_in ids l i c N) in E. apply (refers_in ids _ i c N'). destruct E as [E1 E2]. split; [exact (Permutation_in _ P E1)|exact E2].
  - destruct (refers ids (sort_defs on l) i) as [c|] eqn:F; [|reflexivity]. apply (refers_in ids _ i c N') in F. destruct F as [F1 F2]. assert (G : refers ids l i = Some c) by (apply (refers_in ids l i c N); split; [exact (Permutation_in _ (Permutation_sym P) F1)|exact F2]). congruence.
Qed.
(** ** In the words of the specification *)
Lemma stem_stands : forall t, stands_for (stem t) t.
Proof.
  intros t. split.
  - induction t as [|c t IH]; cbn [stem]; [intros []|]. destruct (N.eqb_spec c 45) as [E|E]; [intros []|]. intros [H|H]; [congruence|exact (IH H)].
  - induction t as [|c t IH]; cbn [stem]; [left; reflexivity|]. destruct (N.eqb_spec c 45) as [E|E]; [right; exists t; rewrite E; reflexivity|]. destruct IH as [IH|[r IH]]; [left; f_equal; exact IH|right; exists r; cbn [app]; f_equal; exact IH].
Qed.
Lemma stands_stem : forall s t, stands_for s t -> stem t = s.
Proof.
  intros s t [N [->|[r ->]]]; [apply stem_plain; exact N|]. induction s as [|c s IH]; cbn [app stem]; [reflexivity|]. destruct (N.eqb_spec c 45) as [E|E]; [exfalso; apply N; left; exact E|]. f_equal. apply IH. intros I. apply N. right. exact I.
Qed.
Lemma position_nth : forall t l i, position t l = Some i -> nth_error l i = Some t.
Proof.
  intros t l. induction l as [|x l IH]; cbn; intros i H; [discriminate|]. destruct (text_reflect x t) as [E|E]; [injection H as <-; cbn; f_equal; exact E|]. destruct (position t l) as [j|]; [|discriminate]. injection H as <-. cbn. apply IH. reflexivity.
Qed.
Lemma nth_position : forall t l i, nth_error l i = Some t -> exists j, position t l = Some j /\ j <= i.
Proof.
  intros t l. induction l as [|x l IH]; intros [|i] H; cbn in *; try discriminate.
  - injection H as ->. rewrite text_eqb_refl. exists 0. split; [reflexivity|lia].
  - destruct (text_eqb x t); [exists 0; split; [reflexivity|lia]|]. destruct (IH i H) as [j [P L]]. rewrite P. exists (S j). split; [reflexivity|lia].
Qed.
Lemma text_cmp_alphabetical : forall a b, text_cmp a b <> Gt -> alphabetical a b.
Proof.
  intros a. induction a as [|x a IH]; intros b H; [left; exists b; reflexivity|]. destruct b as [|y b]; cbn [text_cmp] in H; [contradiction|]. destruct (N.compare x y) eqn:C; [| |contradiction].
  - apply N.compare_eq_iff in C. subst y. destruct (IH b H) as [[r E]|[p [u [v [r [s [E1 [E2 L]]]]]]]]; [left; exists r; cbn; f_equal; exact E|].
    right. exists (x :: p), u, v, r, s. cbn. rewrite E1, E2. repeat split. exact L.
  - apply N.compare_lt_iff in C. right. exists [], x, y, a, b. repeat split. exact C.
Qed.
Lemma listed : forall order al l a b i s, before (sort_attrs (Some order) al l) a b -> ordinary (fst a) -> ordinary (fst b) -> nth_error order i = Some s -> stands_for s (local (fst b)) ->
  exists j s', nth_error order j = Some s' /\ stands_for s' (local (fst a)) /\ j <= i.
Proof.
  intros order al l a b i s B [A1 A2] [B1 B2] N F. apply stands_stem in F. destruct (nth_position s order i N) as [k [K L]]. rewrite <- F in K.
  destruct (attrs_listed order al l a b k B A1 B1 A2 B2 K) as [j [J M]]. exists j, (stem (local (fst a))). split; [exact (position_nth _ _ _ J)|]. split; [apply stem_stands|lia].
Qed.
Lemma unlisted_position : forall order t, (forall s, In s order -> ~ stands_for s t) -> position (stem t) order = None.
Proof. intros order t H. destruct (position (stem t) order) as [i|] eqn:P; [|reflexivity]. apply position_nth in P. apply nth_error_In in P. exfalso. exact (H _ P (stem_stands t)). Qed.
Lemma alike : forall order al l a b, before (sort_attrs (Some order) al l) a b -> ordinary (fst a) -> ordinary (fst b) -> prefix (fst a) = prefix (fst b) ->
  (exists s, stands_for s (local (fst a)) /\ stands_for s (local (fst b))) \/ (forall s, In s order -> ~ stands_for s (local (fst a)) /\ ~ stands_for s (local (fst b))) ->
  alphabetical (local (fst a)) (local (fst b)).
Proof.
  intros order al l a b B [A1 A2] [B1 B2] E H. apply text_cmp_alphabetical. apply (attrs_unlisted order al l a b B A1 B1 A2 B2 E). destruct H as [[s [S1 S2]]|H].
  - apply stands_stem in S1. apply stands_stem in S2. congruence.
  - rewrite !unlisted_position; [reflexivity| |]; intros s I; apply H; exact I.
Qed.
Lemma frequency_times : forall l n, frequency l n = times n l.
Proof. intros l n. induction l as [|[m x|x] l IH]; [reflexivity| |exact IH]. cbn [times]. rewrite <- IH. unfold frequency. cbn [filter]. unfold same_name at 1. fold (same_space (ns m) (ns n)). destruct (same_space (ns m) (ns n) && text_eqb (local m) (local n)); reflexivity. Qed.
Lemma frequent : forall l a x b y, before (sort_defs true l) (Elem a x) (Elem b y) -> times b l <= times a l.
Proof. intros l a x b y B. rewrite <- !frequency_times. exact (defs_frequent l a x b y B). Qed.
