From Coq Require Import String List NArith ZArith Bool Lia Arith.
From Verif Require Import Chars NameModel AttrTable ElemModel TextModel ParseModel ListModel ScriptModel PruneModel PruneSpec DeprecatedModel MatcherModel MatcherSpec MatcherProofs MatcherProofs2.
Import ListNotations.

(** ** Counting *)
Fixpoint cnt (P : nat -> bool) (lo m : nat) : nat := match m with O => 0 | S m => (if P lo then 1 else 0) + cnt P (S lo) m end.
Lemma cnt_app P lo m n : cnt P lo (m + n) = cnt P lo m + cnt P (lo + m) n.
Proof. revert lo. induction m as [|m IH]; intros lo; [cbn; rewrite Nat.add_0_r; reflexivity|]. cbn [Nat.add cnt]. rewrite IH. replace (S lo + m) with (lo + S m) by lia. lia. Qed.
Lemma cnt_ext P Q m : forall lo, (forall k, lo <= k < lo + m -> P k = Q k) -> cnt P lo m = cnt Q lo m.
Proof. induction m as [|m IH]; intros lo H; [reflexivity|]. cbn [cnt]. rewrite (H lo) by lia. rewrite (IH (S lo)); [reflexivity|]. intros k K. apply H. lia. Qed.
Lemma cnt_zero P m : forall lo, (forall k, lo <= k < lo + m -> P k = false) -> cnt P lo m = 0.
Proof. induction m as [|m IH]; intros lo H; [reflexivity|]. cbn [cnt]. rewrite (H lo) by lia. rewrite IH; [reflexivity|]. intros k K. apply H. lia. Qed.
Lemma counts_fun P l m : counts P l m -> forall n, counts P l n -> m = n.
Proof. induction 1; intros n' H'; inversion H'; subst; try contradiction; try reflexivity; [f_equal|]; apply IHcounts; assumption. Qed.

Section Nth.
  Variable d : list tnode.
  Hypothesis U : usual_doc d.

  Lemma top_alone i k : is_elem d [i] = true -> k <> i -> is_elem d [k] = false.
  Proof. intros H N. apply not_true_is_false. intros K. apply N. apply (proj1 U); apply element_iff; assumption. Qed.
  Lemma below_top i m : is_elem d [i] = true -> m <= i -> below d [] m = [].
  Proof. intros H L. induction m as [|m IH]; [reflexivity|]. cbn [below]. rewrite (top_alone i m H) by lia. apply IH. lia. Qed.
  Lemma above_top i m : is_elem d [i] = true -> forall k, i < k -> above d [] k m = [].
  Proof. intros H. induction m as [|m IH]; intros k L; [reflexivity|]. cbn [above]. rewrite (top_alone i k H) by lia. apply IH. lia. Qed.
  Lemma prevs_all i up : is_elem d (i :: up) = true -> prevs d (i :: up) = below d up i.
  Proof. intros H. destruct up as [|j up]; [rewrite prevs_top, (below_top i i H (le_n _)); reflexivity|apply prevs_eq; [discriminate|exact H]]. Qed.
  Lemma nexts_all i up : is_elem d (i :: up) = true -> nexts d (i :: up) = above d up (S i) (List.length (kids d up) - S i).
  Proof. intros H. destruct up as [|j up]; [rewrite nexts_top, (above_top i _ H); [reflexivity|lia]|apply nexts_eq; [discriminate|exact H]]. Qed.
  Lemma prev_all i up : is_elem d (i :: up) = true -> prev_sibling d (i :: up) = hd_error (below d up i).
  Proof. intros H. destruct up as [|j up]; [rewrite (below_top i i H (le_n _)); reflexivity|apply prev_below; [discriminate|exact H]]. Qed.
  Lemma next_all i up : is_elem d (i :: up) = true -> next_sibling d (i :: up) = hd_error (above d up (S i) (List.length (kids d up) - S i)).
  Proof. intros H. destruct up as [|j up]; [rewrite (above_top i _ H); [reflexivity|lia]|apply next_above; [discriminate|exact H]]. Qed.

  (** Elements that count for the one at [p]. *)
  Definition same (t : bool) (p : place) (q : place) : bool := if t then is_same_type d p q else true.
  Definition like (t : bool) (p : place) (up : place) (k : nat) : bool := is_elem d (k :: up) && same t p (k :: up).
  Definition index (t f : bool) (p : place) : Z :=
    match p with
    | [] => 0
    | i :: up => 1 + Z.of_nat (if f then cnt (like t p up) (S i) (List.length (kids d up) - S i) else cnt (like t p up) 0 i)
    end%Z.
  Lemma same_eq t p q : is_elem d p = true -> is_elem d q = true -> same t p q = true -> forall x, is_elem d x = true -> same t p x = same t q x.
  Proof.
    intros Hp Hq S x Hx. unfold same in *. destruct t; [|reflexivity]. apply element_iff in Hp, Hq, Hx. destruct Hp as (e & a & Hp), Hq as (f & b & Hq), Hx as (g & c & Hx).
    apply (same_iff d U p q e a f b Hp Hq) in S. apply eq_true_iff_eq. rewrite (same_iff d U p x e a g c Hp Hx), (same_iff d U q x f b g c Hq Hx). destruct S as [-> ->]. reflexivity.
  Qed.
  Lemma same_refl t p : is_elem d p = true -> same t p p = true.
  Proof. intros Hp. unfold same. destruct t; [|reflexivity]. apply element_iff in Hp. destruct Hp as (e & a & Hp). apply (same_iff d U p p e a e a Hp Hp). auto. Qed.
  Lemma like_eq t p q up : is_elem d p = true -> is_elem d q = true -> same t p q = true -> forall k, like t p up k = like t q up k.
  Proof. intros Hp Hq S k. unfold like. destruct (is_elem d (k :: up)) eqn:E; [|reflexivity]. cbn. apply same_eq; assumption. Qed.

  Variable opaque : place -> N.
  Lemma count_none t p up m : forall lo i, count opaque (same t p) None (above d up lo m) i = ((i + Z.of_nat (cnt (like t p up) lo m))%Z, None).
  Proof.
    induction m as [|m IH]; intros lo i; [cbn; f_equal; lia|]. cbn [above cnt]. unfold like at 1. destruct (is_elem d (lo :: up)); cbn [app count andb].
    - destruct (same t p (lo :: up)); rewrite IH; f_equal; lia.
    - rewrite IH. f_equal.
  Qed.
  Lemma count_some t p up c i : forall x, match count opaque (same t p) (Some c) (below d up i) x with
    | (y, None) => y = (x + Z.of_nat (cnt (like t p up) 0 i))%Z
    | (y, Some v) => exists k, k < i /\ is_elem d (k :: up) = true /\ same t p (k :: up) = true /\ lookup c (opaque (k :: up)) = Some v /\ y = (x + Z.of_nat (cnt (like t p up) (S k) (i - S k)))%Z
    end.
  Proof.
    induction i as [|i IH]; intros x; [cbn; lia|]. cbn [below].
    assert (S1 : forall k, k < i -> cnt (like t p up) (S k) (S i - S k) = cnt (like t p up) (S k) (i - S k) + (if like t p up i then 1 else 0)).
    { intros k K. replace (S i - S k) with ((i - S k) + 1) by lia. rewrite cnt_app. cbn [cnt]. replace (S k + (i - S k)) with i by lia. lia. }
    assert (S0 : cnt (like t p up) 0 (S i) = cnt (like t p up) 0 i + (if like t p up i then 1 else 0)).
    { replace (S i) with (i + 1) by lia. rewrite cnt_app. cbn [cnt Nat.add]. lia. }
    assert (Step : forall z b, like t p up i = b -> (match count opaque (same t p) (Some c) (below d up i) z with
      | (y, None) => y = (z + Z.of_nat (cnt (like t p up) 0 i))%Z
      | (y, Some v) => exists k, k < i /\ is_elem d (k :: up) = true /\ same t p (k :: up) = true /\ lookup c (opaque (k :: up)) = Some v /\ y = (z + Z.of_nat (cnt (like t p up) (S k) (i - S k)))%Z
      end) -> z = (x + Z.of_nat (if b then 1 else 0))%Z -> match count opaque (same t p) (Some c) (below d up i) z with
      | (y, None) => y = (x + Z.of_nat (cnt (like t p up) 0 (S i)))%Z
      | (y, Some v) => exists k, k < S i /\ is_elem d (k :: up) = true /\ same t p (k :: up) = true /\ lookup c (opaque (k :: up)) = Some v /\ y = (x + Z.of_nat (cnt (like t p up) (S k) (S i - S k)))%Z
      end).
    { intros z b B H Z. rewrite <- B in Z. destruct (count _ _ _ _ z) as [y [v|]].
      - destruct H as (k & K & Ek & Sk & Lk & Y). exists k. rewrite (S1 k K). repeat split; try assumption; lia.
      - lia. }
    unfold like in Step. destruct (is_elem d (i :: up)) eqn:E; cbn [app count].
    - destruct (same t p (i :: up)) eqn:Sm.
      + destruct (lookup c (opaque (i :: up))) as [v|] eqn:L.
        * exists i. rewrite Nat.sub_diag. cbn [cnt]. repeat split; try assumption; lia.
        * apply (Step (x + 1)%Z true); [reflexivity|apply IH|lia].
      + apply (Step x false); [reflexivity|apply IH|lia].
    - apply (Step x false); [reflexivity|apply IH|lia].
  Qed.

  Definition caches_ok (cs : caches) : Prop := forall t f p i, is_elem d p = true -> lookup (cs t f) (opaque p) = Some i -> i = index t f p.
  Lemma nth_index_ok t f p cs : is_elem d p = true -> caches_ok cs -> nth_child_index d opaque t f p (cs t f) = index t f p.
  Proof.
    intros Hp Ok. destruct p as [|i up]; [discriminate|]. unfold nth_child_index. fold (same t (i :: up)). rewrite prevs_all, nexts_all by exact Hp.
    assert (C := count_some t (i :: up) up (cs t f) i 1%Z). destruct f.
    - assert (N : fst (count opaque (same t (i :: up)) None (above d up (S i) (List.length (kids d up) - S i)) 1) = index t true (i :: up)) by (rewrite count_none; reflexivity).
      destruct (cs t true) as [|e0 c0] eqn:Ec; [exact N|]. rewrite <- Ec in *. destruct (count opaque (same t (i :: up)) (Some (cs t true)) (below d up i) 1) as [y [v|]]; [|exact N].
      destruct C as (k & K & Ek & Sk & Lk & ->). rewrite (Ok t true _ v Ek Lk). cbn [index]. assert (Li := element_bound _ _ _ (proj1 (element_iff _ _) Hp)).
      replace (List.length (kids d up) - S k) with ((i - S k) + S (List.length (kids d up) - S i)) by lia. rewrite cnt_app. cbn [cnt]. replace (S k + (i - S k)) with i by lia.
      assert (Eq : forall x, like t (k :: up) up x = like t (i :: up) up x) by (intros x; symmetry; apply like_eq; assumption).
      rewrite (cnt_ext _ _ (i - S k) (S k) (fun x _ => Eq x)), (cnt_ext _ _ (List.length (kids d up) - S i) (S i) (fun x _ => Eq x)), Eq.
      unfold like at 2. rewrite Hp, (same_refl t _ Hp). cbn [andb]. lia.
    - destruct (count opaque (same t (i :: up)) (Some (cs t false)) (below d up i) 1) as [y [v|]]; [|rewrite C; reflexivity].
      destruct C as (k & K & Ek & Sk & Lk & ->). rewrite (Ok t false _ v Ek Lk). cbn [index].
      replace (cnt (like t (i :: up) up) 0 i) with (cnt (like t (i :: up) up) 0 (k + S (i - S k))) by (f_equal; lia). rewrite cnt_app. cbn [Nat.add cnt].
      assert (Eq : forall x, like t (k :: up) up x = like t (i :: up) up x) by (intros x; symmetry; apply like_eq; assumption).
      rewrite (cnt_ext _ _ k 0 (fun x _ => Eq x)). assert (Lk1 : like t (i :: up) up k = true) by (unfold like; rewrite Ek, Sk; reflexivity). rewrite Lk1. lia.
  Qed.
  Lemma lookup_insert cs t f k i t' f' k' : lookup (insert cs t f k i t' f') k' = if Bool.eqb t t' && Bool.eqb f f' && N.eqb k k' then Some i else lookup (cs t' f') k'.
  Proof.
    unfold insert. destruct (Bool.eqb t t' && Bool.eqb f f'); cbn [andb]; [|reflexivity]. unfold lookup. cbn [find fst]. destruct (N.eqb k k'); reflexivity.
  Qed.
  Lemma insert_ok cs t f p : told_apart d opaque -> caches_ok cs -> caches_ok (insert cs t f (opaque p) (index t f p)).
  Proof.
    intros Inj Ok t' f' q i Hq. rewrite lookup_insert. destruct (Bool.eqb t t') eqn:A; [|cbn [andb]; apply Ok, Hq]. destruct (Bool.eqb f f') eqn:B; [|cbn [andb]; apply Ok, Hq].
    apply eqb_prop in A, B. subst. cbn [andb]. destruct (N.eqb (opaque p) (opaque q)) eqn:E; [|apply Ok, Hq]. apply N.eqb_eq, Inj in E. subst. congruence.
  Qed.
  Lemma matches_index_iff a b i : matches_index a b i = true <-> exists n, (0 <= n /\ a * n + b = i)%Z.
  Proof.
    unfold matches_index. destruct (Z.eqb a 0) eqn:A.
    - apply Z.eqb_eq in A. subst a. rewrite Z.eqb_eq. split; [intros H; exists 0%Z; lia|intros (n & _ & H); lia].
    - apply Z.eqb_neq in A. rewrite andb_true_iff, Z.leb_le, Z.eqb_eq. split; [intros [H1 H2]; exists (Z.quot (i - b) a); lia|]. intros (n & H & E).
      assert (Q : Z.quot (i - b) a = n) by (replace (i - b)%Z with (n * a)%Z by lia; apply Z.quot_mul, A). rewrite Q. lia.
  Qed.
  (** Siblings as nodes. *)
  Lemma slice_counts t e a p up : element_at d p e a -> forall m lo, lo + m <= List.length (kids d up) ->
    counts (alike t e) (firstn m (skipn lo (kids d up))) (cnt (like t p up) lo m).
  Proof.
    intros Hp m. induction m as [|m IH]; intros lo L; [constructor|]. destruct (nth_error (kids d up) lo) as [n|] eqn:E; [|apply nth_error_None in E; lia].
    assert (Sk : skipn lo (kids d up) = n :: skipn (S lo) (kids d up)).
    { clear - E. revert lo E. induction (kids d up) as [|x l IHl]; intros [|lo] E; try discriminate; [injection E as ->; reflexivity|]. apply IHl, E. }
    rewrite Sk. cbn [firstn cnt]. assert (X : like t p up lo = true <-> alike t e n).
    { unfold like, alike, is_elem. cbn [look]. rewrite E. destruct n as [f b k| |]; cbn [andb]; try (split; [discriminate|intros []]). unfold same. destruct t.
      - assert (Hq : element_at d (lo :: up) f b) by (exists k; apply look_in; exact E). rewrite (same_iff d U p (lo :: up) e a f b Hp Hq). split; [intros H _; exact H|intros H; apply H; reflexivity].
      - split; [intros _ H; discriminate|reflexivity]. }
    destruct (like t p up lo); cbn [Nat.add]; [apply counts_yes|apply counts_no]; try (apply IH; lia); [apply X; reflexivity|intros H; apply X in H; discriminate].
  Qed.
  Lemma among_iff i up l : element_in d (i :: up) -> among d (i :: up) l <-> l = kids d up.
  Proof.
    intros H. destruct up as [|j up]; [reflexivity|]. cbn [among]. apply element_up in H. destruct H as (e & a & k & H). split.
    - intros (e' & a' & H'). rewrite (in_kids _ _ _ _ _ H'). reflexivity.
    - intros ->. exists e, a. rewrite (in_kids _ _ _ _ _ H). exact H.
  Qed.
  Lemma index_iff t f a b p : is_elem d p = true -> matches_index a b (index t f p) = true <-> means d None (SNth t f a b) p.
  Proof.
    intros Hp. assert (Hp' := proj1 (element_iff _ _) Hp). destruct p as [|i up]; [discriminate|]. destruct Hp' as (e & at_ & Hp'). assert (L := element_bound d i up (ex_intro _ e (ex_intro _ at_ Hp'))).
    assert (C : counts (alike t e) (if f then skipn (S i) (kids d up) else firstn i (kids d up)) (if f then cnt (like t (i :: up) up) (S i) (List.length (kids d up) - S i) else cnt (like t (i :: up) up) 0 i)).
    { destruct f; [|apply (slice_counts t e at_ (i :: up) up Hp' i 0); lia].
      assert (X := slice_counts t e at_ (i :: up) up Hp' (List.length (kids d up) - S i) (S i) ltac:(lia)). rewrite firstn_all2 in X by (rewrite skipn_length; lia). exact X. }
    rewrite matches_index_iff. cbn [means index]. split.
    - intros (n & N & E). exists i, up, (kids d up), e, at_. eexists. exists n. split; [reflexivity|]. split; [apply among_iff; [exists e, at_; exact Hp'|reflexivity]|]. split; [exact Hp'|]. split; [exact C|].
      split; [exact N|]. rewrite E. reflexivity.
    - intros (i' & up' & l & e' & a' & m & n & P & A & Hq & Cm & N & E). injection P as <- <-. apply among_iff in A; [|exists e, at_; exact Hp']. subst l.
      destruct (at_fun d _ _ _ _ _ Hp' Hq) as [<- <-]. rewrite (counts_fun _ _ _ Cm _ C) in E. exists n. split; [exact N|exact E].
  Qed.
  Lemma nth_ok t f a b p cs : is_elem d p = true -> caches_ok cs -> (counting (SNth t f a b) = true -> told_apart d opaque) ->
    (fst (nth_child d opaque t f a b p cs) = true <-> means d None (SNth t f a b) p) /\ caches_ok (snd (nth_child d opaque t f a b p cs)).
  Proof.
    intros Hp Ok Inj. rewrite <- (index_iff t f a b p Hp). unfold nth_child. cbn [counting] in Inj. destruct (Z.eqb a 0 && Z.eqb b 1 && negb t) eqn:Ed.
    - split; [|exact Ok]. cbn [fst]. apply andb_true_iff in Ed. destruct Ed as [Ed T]. apply andb_true_iff in Ed. destruct Ed as [A B]. apply Z.eqb_eq in A, B. destruct t; [discriminate|]. subst.
      destruct p as [|i up]; [discriminate|]. unfold matches_index, index. cbn [Z.eqb]. rewrite Z.eqb_eq.
      assert (Z0 : forall lo m, above d up lo m = [] <-> cnt (like false (i :: up) up) lo m = 0).
      { intros lo m. revert lo. induction m as [|m IH]; intros lo; [split; reflexivity|]. cbn [above cnt]. unfold like at 1. cbn [same]. rewrite andb_true_r.
        destruct (is_elem d (lo :: up)); cbn [app Nat.add]; [split; discriminate|apply IH]. }
      destruct f.
      + rewrite next_all by exact Hp. specialize (Z0 (S i) (List.length (kids d up) - S i)). destruct (above d up (S i) _); cbn [hd_error].
        * split; [intros _; rewrite (proj1 Z0 eq_refl); reflexivity|reflexivity].
        * split; [discriminate|]. intros H. exfalso. assert (K : cnt (like false (i :: up) up) (S i) (List.length (kids d up) - S i) = 0) by lia. apply Z0 in K. discriminate.
      + rewrite prev_all, below_rev by exact Hp. specialize (Z0 0 i). destruct (above d up 0 i) as [|q r]; cbn [rev hd_error].
        * split; [intros _; rewrite (proj1 Z0 eq_refl); reflexivity|reflexivity].
        * split; [destruct (rev r ++ [q]) eqn:X; [apply app_eq_nil in X; destruct X; discriminate|discriminate]|]. intros H. exfalso.
          assert (K : cnt (like false (i :: up) up) 0 i = 0) by lia. apply Z0 in K. discriminate.
    - destruct (lookup (cs t f) (opaque p)) as [v|] eqn:Lk; cbn [fst snd]; [rewrite (Ok t f p v Hp Lk); split; [reflexivity|exact Ok]|].
      rewrite (nth_index_ok t f p cs Hp Ok). split; [reflexivity|]. apply insert_ok; [apply Inj; reflexivity|exact Ok].
  Qed.
End Nth.
