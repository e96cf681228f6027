From Coq Require Import String List NArith ZArith Bool Lia Arith.
From Verif Require Import Chars NameModel AttrTable ElemModel TextModel ParseModel ListModel ScriptModel PruneModel PruneSpec DeprecatedModel MatcherModel MatcherSpec.
Import ListNotations.

(** ** Places *)
Lemma kids_spec d p n : p <> [] -> node_in d p n -> kids d p = match n with TElem _ _ k => k | _ => [] end /\ look d p = Some n.
Proof.
  intros _ H. induction H as [i n H|i p e a k n H IH K].
  - cbn. rewrite H. destruct n; split; reflexivity.
  - destruct IH as [IH1 IH2]. cbn [kids look]. rewrite IH1, K. destruct n; split; reflexivity.
Qed.
Lemma look_in d p n : look d p = Some n -> node_in d p n.
Proof.
  revert n. induction p as [|i up IH]; intros n H; [discriminate|]. cbn [look] in H. destruct up as [|j up]; [constructor; exact H|].
  destruct (look d (j :: up)) as [m|] eqn:E.
  - specialize (IH m eq_refl). destruct (kids_spec d (j :: up) m ltac:(discriminate) IH) as [K _]. rewrite K in H. destruct m as [e a k| |]; try (destruct i; discriminate).
    econstructor; eassumption.
  - cbn [kids] in H. cbn [look] in E. rewrite E in H. destruct i; discriminate.
Qed.
Lemma in_look d p n : node_in d p n -> look d p = Some n.
Proof. intros H. apply (kids_spec d p n); [inversion H; discriminate|exact H]. Qed.
Lemma in_kids d p e a k : node_in d p (TElem e a k) -> kids d p = k.
Proof. intros H. apply (kids_spec d p _) in H; [apply H|]. inversion H; discriminate. Qed.
Lemma node_fun d p n m : node_in d p n -> node_in d p m -> n = m.
Proof. intros A B. apply in_look in A, B. congruence. Qed.
Lemma element_iff d p : is_elem d p = true <-> element_in d p.
Proof.
  unfold is_elem. split.
  - destruct (look d p) as [[e a k| |]|] eqn:E; try discriminate. intros _. exists e, a, k. apply look_in, E.
  - intros (e & a & k & H). rewrite (in_look _ _ _ H). reflexivity.
Qed.
Lemma element_up d i j up : element_in d (i :: j :: up) -> element_in d (j :: up).
Proof. intros (e & a & k & H). inversion H; subst. exists e0, a0, k0. assumption. Qed.
Lemma element_bound d i up : element_in d (i :: up) -> i < List.length (kids d up).
Proof. intros (e & a & k & H). apply in_look in H. cbn [look] in H. apply nth_error_Some. congruence. Qed.
Lemma place_eqb_iff p q : place_eqb p q = true <-> p = q.
Proof.
  revert q. induction p as [|i p IH]; destruct q as [|j q]; cbn; split; intros H; try reflexivity; try discriminate.
  - apply andb_true_iff in H. destruct H as [H1 H2]. apply Nat.eqb_eq in H1. apply IH in H2. congruence.
  - injection H as -> ->. rewrite Nat.eqb_refl. apply IH. reflexivity.
Qed.

(** ** Siblings *)
Section Siblings.
  Variables (d : list tnode) (up : place).
  Notation E := (fun i => is_elem d (i :: up)).
  Fixpoint below (i : nat) : list place := match i with O => [] | S j => (if E j then [j :: up] else []) ++ below j end.
  Fixpoint above (i m : nat) : list place := match m with O => [] | S m => (if E i then [i :: up] else []) ++ above (S i) m end.
  Lemma above_filter i m : above i m = filter (is_elem d) (map (fun i => i :: up) (seq i m)).
  Proof. revert i. induction m as [|m IH]; intros i; [reflexivity|]. cbn [above seq map filter]. rewrite IH. destruct (is_elem d (i :: up)); reflexivity. Qed.
  Lemma children_above : children d up = above 0 (List.length (kids d up)).
  Proof. symmetry. apply above_filter. Qed.
  Lemma above_app i m n : above i (m + n) = above i m ++ above (i + m) n.
  Proof.
    revert i. induction m as [|m IH]; intros i; [cbn; rewrite Nat.add_0_r; reflexivity|]. cbn [Nat.add above]. rewrite IH, <- app_assoc. replace (S i + m) with (i + S m) by lia. reflexivity.
  Qed.
  Lemma below_rev i : below i = rev (above 0 i).
  Proof.
    induction i as [|i IH]; [reflexivity|]. cbn [below]. replace (S i) with (i + 1) by lia. rewrite above_app, rev_app_distr, <- IH. cbn [Nat.add above]. rewrite app_nil_r.
    destruct (is_elem d (i :: up)); reflexivity.
  Qed.
  Lemma above_in i m q : In q (above i m) <-> exists k, i <= k < i + m /\ q = k :: up /\ E k = true.
  Proof.
    rewrite above_filter, filter_In, in_map_iff. split.
    - intros ((k & <- & H) & T). apply in_seq in H. exists k. auto.
    - intros (k & H & -> & T). split; [exists k; split; [reflexivity|apply in_seq; exact H]|exact T].
  Qed.
  Lemma before_app prev A p B : ~ In p A -> before prev (A ++ p :: B) p = match rev A with [] => prev | q :: _ => Some q end.
  Proof.
    revert prev. induction A as [|q A IH]; intros prev H; cbn [app before].
    - rewrite (proj2 (place_eqb_iff p p) eq_refl). reflexivity.
    - destruct (place_eqb q p) eqn:X; [apply place_eqb_iff in X; subst; exfalso; apply H; left; reflexivity|].
      rewrite IH by (intros Y; apply H; right; exact Y). cbn [rev]. destruct (rev A); reflexivity.
  Qed.
  Lemma after_app A p B : ~ In p A -> after false (A ++ p :: B) p = hd_error B.
  Proof.
    induction A as [|q A IH]; intros H; cbn [app after].
    - rewrite (proj2 (place_eqb_iff p p) eq_refl). destruct B; reflexivity.
    - destruct (place_eqb q p) eqn:X; [apply place_eqb_iff in X; subst; exfalso; apply H; left; reflexivity|].
      rewrite IH by (intros Y; apply H; right; exact Y). reflexivity.
  Qed.
  Lemma children_at i : E i = true -> children d up = above 0 i ++ (i :: up) :: above (S i) (List.length (kids d up) - S i) /\ ~ In (i :: up) (above 0 i).
  Proof.
    intros H. assert (L := element_bound _ _ _ (proj1 (element_iff _ _) H)). split.
    - rewrite children_above. replace (List.length (kids d up)) with (i + S (List.length (kids d up) - S i)) at 1 by lia. rewrite above_app. cbn [Nat.add above]. rewrite H. reflexivity.
    - rewrite above_in. intros (k & K & X & _). injection X as ->. lia.
  Qed.
  Hypothesis inner : up <> [].
  Lemma parent_inner i : parent_element (i :: up) = Some up.
  Proof. destruct up; [congruence|reflexivity]. Qed.
  Lemma prev_below i : E i = true -> prev_sibling d (i :: up) = hd_error (below i).
  Proof.
    intros H. unfold prev_sibling. rewrite parent_inner. destruct (children_at i H) as [-> N]. rewrite before_app by exact N. rewrite below_rev. destruct (rev (above 0 i)); reflexivity.
  Qed.
  Lemma next_above i : E i = true -> next_sibling d (i :: up) = hd_error (above (S i) (List.length (kids d up) - S i)).
  Proof. intros H. unfold next_sibling. rewrite parent_inner. destruct (children_at i H) as [-> N]. apply after_app, N. Qed.
  Lemma below_split i q r : below i = q :: r -> exists k, q = k :: up /\ k < i /\ E k = true /\ r = below k /\ (forall x, k < x < i -> E x = false).
  Proof.
    revert q r. induction i as [|i IH]; intros q r H; [discriminate|]. cbn [below] in H. destruct (E i) eqn:X.
    - injection H as <- <-. exists i. repeat split; [lia|exact X|intros; lia].
    - destruct (IH _ _ H) as (k & A & B & C & D & F). exists k. repeat split; try assumption; [lia|]. intros x Hx. destruct (Nat.eq_dec x i) as [->|]; [exact X|]. apply F. lia.
  Qed.
  Lemma above_split m : forall i q r, above i m = q :: r -> exists k, q = k :: up /\ i <= k < i + m /\ E k = true /\ r = above (S k) (i + m - S k).
  Proof.
    induction m as [|m IH]; intros i q r H; [discriminate|]. cbn [above] in H. destruct (E i) eqn:X.
    - injection H as <- <-. exists i. replace (i + S m - S i) with m by lia. repeat split; try lia. exact X.
    - destruct (IH _ _ _ H) as (k & A & B & C & D). exists k. replace (i + S m - S k) with (S i + m - S k) by lia. repeat split; try assumption; lia.
  Qed.
  Lemma prevs_below i fuel : E i = true -> i <= fuel -> siblings (prev_sibling d) fuel (i :: up) = below i.
  Proof.
    revert i. induction fuel as [|fuel IH]; intros i H L; [replace i with 0 by lia; reflexivity|]. cbn [siblings]. rewrite (prev_below i H).
    destruct (below i) as [|q r] eqn:B; [reflexivity|]. cbn [hd_error]. destruct (below_split _ _ _ B) as (k & -> & K & Ek & -> & _). rewrite IH; [reflexivity|exact Ek|lia].
  Qed.
  Lemma nexts_above fuel : forall i, E i = true -> List.length (kids d up) - S i <= fuel -> siblings (next_sibling d) fuel (i :: up) = above (S i) (List.length (kids d up) - S i).
  Proof.
    induction fuel as [|fuel IH]; intros i H L.
    - replace (List.length (kids d up) - S i) with 0 by lia. reflexivity.
    - cbn [siblings]. rewrite (next_above i H). destruct (above (S i) _) as [|q r] eqn:B; [reflexivity|]. cbn [hd_error].
      destruct (above_split _ _ _ _ B) as (k & -> & K & Ek & ->). rewrite IH; [|exact Ek|lia]. f_equal. f_equal. lia.
  Qed.
End Siblings.

Lemma prevs_eq d i up : up <> [] -> is_elem d (i :: up) = true -> prevs d (i :: up) = below d up i.
Proof. intros U H. unfold prevs. cbn [tl]. apply prevs_below; [exact U|exact H|]. apply Nat.lt_le_incl, element_bound, element_iff, H. Qed.
Lemma nexts_eq d i up : up <> [] -> is_elem d (i :: up) = true -> nexts d (i :: up) = above d up (S i) (List.length (kids d up) - S i).
Proof. intros U H. unfold nexts. cbn [tl]. apply nexts_above; [exact U|exact H|lia]. Qed.
Lemma prevs_top d i : prevs d [i] = [].
Proof. unfold prevs. destruct (List.length _); reflexivity. Qed.
Lemma nexts_top d i : nexts d [i] = [].
Proof. unfold nexts. destruct (List.length _); reflexivity. Qed.
