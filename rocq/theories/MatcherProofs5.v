From Coq Require Import String List NArith ZArith Bool Lia Arith Sorted.
From Verif Require Import Chars NameModel AttrTable ElemModel TextModel ParseModel ListModel ScriptModel PruneModel PruneSpec DeprecatedModel MatcherModel MatcherSpec MatcherProofs MatcherProofs2 MatcherProofs3 MatcherProofs4.
Import ListNotations.

Lemma nodup_app {A} (a b : list A) : NoDup a -> NoDup b -> (forall x, In x a -> ~ In x b) -> NoDup (a ++ b).
Proof.
  induction 1 as [|x a Hx Ha IH]; intros Hb D; [exact Hb|]. cbn. constructor.
  - intros H. apply in_app_or in H. destruct H; [contradiction|]. apply (D x (or_introl eq_refl)). assumption.
  - apply IH; [exact Hb|]. intros y Hy. apply D. right. exact Hy.
Qed.
Section Breadth.
  Variable d : list tnode.
  Definition total (l : list tnode) : nat := fold_right (fun n s => size n + s) 0 l.
  Definition weight (p : place) : nat := match look d p with Some n => size n | None => 0 end.
  Definition load (q : list place) : nat := fold_right (fun p s => weight p + s) 0 q.
  Lemma load_app a b : load (a ++ b) = load a + load b.
  Proof. unfold load. induction a as [|p a IH]; [reflexivity|]. cbn. rewrite IH. lia. Qed.
  Lemma total_app a b : total (a ++ b) = total a + total b.
  Proof. unfold total. induction a as [|p a IH]; [reflexivity|]. cbn. rewrite IH. lia. Qed.
  Lemma load_above up m : forall lo, lo + m <= List.length (kids d up) -> load (above d up lo m) <= total (firstn m (skipn lo (kids d up))).
  Proof.
    induction m as [|m IH]; intros lo L; [cbn; lia|]. destruct (nth_error (kids d up) lo) as [n|] eqn:E; [|apply nth_error_None in E; lia].
    assert (Sk : skipn lo (kids d up) = n :: skipn (S lo) (kids d up)).
    { clear - E. revert lo E. induction (kids d up) as [|x l IHl]; intros [|lo] E; try discriminate; [injection E as ->; reflexivity|]. apply IHl, E. }
    rewrite Sk. cbn [firstn above]. rewrite load_app. change (total (n :: firstn m (skipn (S lo) (kids d up)))) with (size n + total (firstn m (skipn (S lo) (kids d up)))).
    specialize (IH (S lo) ltac:(lia)). destruct (is_elem d (lo :: up)); cbn [load fold_right]; unfold weight; cbn [look]; [rewrite E|]; lia.
  Qed.
  Lemma load_children p : load (children d p) <= total (kids d p).
  Proof. rewrite children_above. pose proof (load_above p (List.length (kids d p)) 0 (le_n _)) as H. cbn [skipn] in H. rewrite firstn_all in H. exact H. Qed.
  Lemma weight_element p : is_elem d p = true -> weight p = S (total (kids d p)).
  Proof. intros H. apply element_iff in H. destruct H as (e & a & k & H). unfold weight. rewrite (in_look _ _ _ H), (in_kids _ _ _ _ _ H). reflexivity. Qed.
  Lemma children_iff p q : In q (children d p) <-> is_elem d q = true /\ exists i, q = i :: p.
  Proof.
    rewrite children_above, above_in. split.
    - intros (k & K & -> & E). split; [exact E|exists k; reflexivity].
    - intros (E & i & ->). exists i. pose proof (element_bound _ _ _ (proj1 (element_iff _ _) E)). repeat split; [lia|lia|exact E].
  Qed.
  Lemma breadth_in fuel : forall queue, (forall q, In q queue -> is_elem d q = true) -> load queue <= fuel ->
    forall p, In p (breadth d fuel queue) <-> is_elem d p = true /\ exists q l, In q queue /\ p = l ++ q.
  Proof.
    induction fuel as [|fuel IH]; intros queue Q L p.
    - destruct queue as [|q queue]; [cbn; split; [intros []|intros (_ & q & l & [] & _)]|]. cbn [load fold_right] in L. rewrite (weight_element q (Q q (or_introl eq_refl))) in L. lia.
    - destruct queue as [|q queue]; [cbn; split; [intros []|intros (_ & q & l & [] & _)]|]. cbn [breadth In].
      assert (Hq := Q q (or_introl eq_refl)). rewrite IH.
      + split.
        * intros [<-|(Hp & r & l & Hr & ->)]; [split; [exact Hq|exists q, []; auto]|]. split; [exact Hp|]. apply in_app_or in Hr. destruct Hr as [Hr|Hr]; [exists r, l; auto|].
          apply children_iff in Hr. destruct Hr as (_ & i & ->). exists q, (l ++ [i]). rewrite <- app_assoc. auto.
        * intros (Hp & r & l & [<-|Hr] & ->); [|right; split; [exact Hp|exists r, l; split; [apply in_or_app; auto|reflexivity]]].
          destruct l as [|x l] using rev_ind; [left; reflexivity|]. right. split; [exact Hp|]. rewrite <- app_assoc in *. exists (x :: q), l. split; [|reflexivity]. apply in_or_app. right.
          apply children_iff. split; [|exists x; reflexivity]. apply element_iff. apply element_iff in Hp. apply (suffix_element d l); [discriminate|exact Hp].
      + intros r Hr. apply in_app_or in Hr. destruct Hr as [Hr|Hr]; [apply Q; right; exact Hr|apply children_iff in Hr; apply Hr].
      + cbn [load fold_right] in L. fold (load queue) in L. rewrite load_app. rewrite (weight_element q Hq) in L. pose proof (load_children q). lia.
  Qed.
  (** None of the places of a queue is in another. *)
  Definition apart (queue : list place) : Prop := NoDup queue /\ forall p q l, In p queue -> In q queue -> p = l ++ q -> l = [].
  Lemma suffix_comparable (p q l m : place) : l ++ p = m ++ q -> (exists x, p = x ++ q) \/ exists x, q = x ++ p.
  Proof.
    revert m. induction l as [|a l IH]; intros m E; [left; exists m; exact E|]. destruct m as [|b m]; [right; exists (a :: l); symmetry; exact E|]. injection E as _ E. apply (IH m E).
  Qed.
  Lemma nodup_above up m : forall lo, NoDup (above d up lo m).
  Proof.
    induction m as [|m IH]; intros lo; [constructor|]. cbn [above]. destruct (is_elem d (lo :: up)); cbn [app]; [|apply IH]. constructor; [|apply IH].
    rewrite above_in. intros (k & K & E & _). injection E as ->. lia.
  Qed.
  Lemma apart_next q queue : apart (q :: queue) -> apart (queue ++ children d q).
  Proof.
    intros [N A]. inversion N; subst. assert (Len : forall (l : place) r, r = l ++ r -> l = []) by (intros l r H; apply (f_equal (@List.length nat)) in H; rewrite app_length in H; destruct l; [reflexivity|cbn in H; lia]).
    split.
    - apply nodup_app; [exact H2|rewrite children_above; apply nodup_above|]. intros x Hx Hc. apply children_iff in Hc. destruct Hc as (_ & i & ->).
      assert (X := A (i :: q) q [i] (or_intror Hx) (or_introl eq_refl) eq_refl). discriminate.
    - intros p r l Hp Hr E. apply in_app_or in Hp, Hr. destruct Hp as [Hp|Hp], Hr as [Hr|Hr].
      + apply (A p r l); [right; exact Hp|right; exact Hr|exact E].
      + apply children_iff in Hr. destruct Hr as (_ & i & ->). exfalso. assert (X := A p q (l ++ [i]) (or_intror Hp) (or_introl eq_refl)). rewrite <- app_assoc in X. specialize (X E). destruct l; discriminate.
      + apply children_iff in Hp. destruct Hp as (_ & i & ->). destruct l as [|a l]; [reflexivity|]. injection E as -> E. exfalso. assert (X := A q r l (or_introl eq_refl) (or_intror Hr) E). subst l. cbn in E. subst r. contradiction.
      + apply children_iff in Hp, Hr. destruct Hp as (_ & i & ->), Hr as (_ & j & ->). apply (f_equal (@List.length nat)) in E. rewrite app_length in E. destruct l; [reflexivity|cbn in E; lia].
  Qed.
  Lemma breadth_nodup fuel : forall queue, (forall q, In q queue -> is_elem d q = true) -> load queue <= fuel -> apart queue -> NoDup (breadth d fuel queue).
  Proof.
    induction fuel as [|fuel IH]; intros queue Q L A; [constructor|]. destruct queue as [|q queue]; [constructor|]. cbn [breadth].
    assert (Hq := Q q (or_introl eq_refl)). assert (Q' : forall r, In r (queue ++ children d q) -> is_elem d r = true).
    { intros r Hr. apply in_app_or in Hr. destruct Hr as [Hr|Hr]; [apply Q; right; exact Hr|apply children_iff in Hr; apply Hr]. }
    assert (L' : load (queue ++ children d q) <= fuel).
    { cbn [load fold_right] in L. fold (load queue) in L. rewrite load_app. rewrite (weight_element q Hq) in L. pose proof (load_children q). lia. }
    constructor; [|apply IH; [exact Q'|exact L'|apply apart_next, A]]. rewrite (breadth_in fuel _ Q' L'). intros (_ & r & l & Hr & E). apply in_app_or in Hr. destruct Hr as [Hr|Hr].
    - assert (X := proj2 A q r l (or_introl eq_refl) (or_intror Hr) E). subst l. cbn in E. subst r. destruct A as [N _]. inversion N; contradiction.
    - apply children_iff in Hr. destruct Hr as (_ & i & ->). apply (f_equal (@List.length nat)) in E. rewrite app_length in E. cbn in E. lia.
  Qed.
  Definition shallow (p q : place) : Prop := List.length p <= List.length q.
  Lemma breadth_sorted fuel : forall queue k, (forall q, In q queue -> is_elem d q = true) -> load queue <= fuel ->
    StronglySorted shallow queue -> (forall q, In q queue -> k <= List.length q <= S k) -> StronglySorted shallow (breadth d fuel queue).
  Proof.
    induction fuel as [|fuel IH]; intros queue k Q L S B; [constructor|]. destruct queue as [|q queue]; [constructor|]. cbn [breadth].
    assert (Hq := Q q (or_introl eq_refl)). assert (Q' : forall r, In r (queue ++ children d q) -> is_elem d r = true).
    { intros r Hr. apply in_app_or in Hr. destruct Hr as [Hr|Hr]; [apply Q; right; exact Hr|apply children_iff in Hr; apply Hr]. }
    assert (L' : load (queue ++ children d q) <= fuel).
    { cbn [load fold_right] in L. fold (load queue) in L. rewrite load_app. rewrite (weight_element q Hq) in L. pose proof (load_children q). lia. }
    inversion S; subst. rewrite Forall_forall in H2. assert (Bq := B q (or_introl eq_refl)).
    assert (B' : forall r, In r (queue ++ children d q) -> List.length q <= List.length r <= Datatypes.S (List.length q)).
    { intros r Hr. apply in_app_or in Hr. destruct Hr as [Hr|Hr]; [specialize (H2 r Hr); specialize (B r (or_intror Hr)); unfold shallow in H2; lia|]. apply children_iff in Hr. destruct Hr as (_ & i & ->). cbn. lia. }
    constructor.
    - apply (IH _ (List.length q) Q' L'); [|exact B'].
      assert (C : StronglySorted shallow (children d q)).
      { assert (X : forall l, (forall r, In r l -> List.length r = Datatypes.S (List.length q)) -> StronglySorted shallow l).
        { clear. induction l as [|r l IH]; intros H; [constructor|]. constructor; [apply IH; intros x Hx; apply H; right; exact Hx|]. apply Forall_forall. intros x Hx. unfold shallow.
          rewrite (H r (or_introl eq_refl)), (H x (or_intror Hx)). lia. }
        apply X. intros r Hr. apply children_iff in Hr. destruct Hr as (_ & i & ->). reflexivity. }
      clear - H1 C B'. induction H1 as [|r queue H1 IH F]; [exact C|]. cbn [app]. constructor.
      + apply IH. intros x Hx. apply B'. right. exact Hx.
      + apply Forall_app. split; [exact F|]. apply Forall_forall. intros x Hx. unfold shallow. apply children_iff in Hx. destruct Hx as (_ & i & ->).
        assert (R := B' r (or_introl eq_refl)). cbn. lia.
    - apply Forall_forall. intros r Hr. apply (breadth_in fuel _ Q' L') in Hr. destruct Hr as (_ & x & l & Hx & ->). unfold shallow. rewrite app_length. specialize (B' x Hx). lia.
  Qed.

  Lemma total_nth l i n : nth_error l i = Some n -> size n <= total l.
  Proof. revert i. induction l as [|x l IH]; intros [|i] H; try discriminate; cbn; [injection H as ->; lia|]. specialize (IH i H). unfold total in IH. lia. Qed.
  Lemma total_kids p : total (kids d p) <= total d.
  Proof.
    assert (Z : total [] <= total d) by (unfold total at 1; cbn [fold_right]; lia).
    induction p as [|i up IH]; [apply le_n|]. cbn [kids]. destruct (nth_error (kids d up) i) as [n|] eqn:E; [|exact Z]. apply total_nth in E. destruct n as [e a k| |]; [|exact Z|exact Z].
    change (size (TElem e a k)) with (S (total k)) in E. lia.
  Qed.
  Lemma start_ok from : (forall q, In q (children d from) -> is_elem d q = true) /\ load (children d from) <= total d /\ apart (children d from).
  Proof.
    split; [intros q Hq; apply children_iff in Hq; apply Hq|]. split; [pose proof (load_children from); pose proof (total_kids from); lia|]. split; [rewrite children_above; apply nodup_above|].
    intros p q l Hp Hq E. apply children_iff in Hp, Hq. destruct Hp as (_ & i & ->), Hq as (_ & j & ->). apply (f_equal (@List.length nat)) in E. rewrite app_length in E. destruct l; [reflexivity|cbn in E; lia].
  Qed.
  Lemma breadth_first_in from p : In p (breadth_first d from) <-> element_in d p /\ inside p from.
  Proof.
    destruct (start_ok from) as (Q & L & _). unfold breadth_first. rewrite (breadth_in _ _ Q L), element_iff. split.
    - intros (Hp & q & l & Hq & ->). apply children_iff in Hq. destruct Hq as (_ & i & ->). split; [exact Hp|]. exists (l ++ [i]). split; [destruct l; discriminate|]. rewrite <- app_assoc. reflexivity.
    - intros (Hp & l & Ln & ->). split; [exact Hp|]. destruct l as [|x l] using rev_ind; [congruence|]. rewrite <- app_assoc in *. exists (x :: from), l. split; [|reflexivity].
      apply children_iff. split; [|exists x; reflexivity]. apply element_iff. apply (suffix_element d l); [discriminate|exact Hp].
  Qed.
  Lemma breadth_first_nodup from : NoDup (breadth_first d from).
  Proof. destruct (start_ok from) as (Q & L & A). apply breadth_nodup; assumption. Qed.
  Lemma breadth_first_sorted from : StronglySorted shallow (breadth_first d from).
  Proof.
    destruct (start_ok from) as (Q & L & A). apply (breadth_sorted _ _ (List.length from) Q L).
    - assert (X : forall l, (forall r, In r l -> List.length r = S (List.length from)) -> StronglySorted shallow l).
      { clear. induction l as [|r l IH]; intros H; [constructor|]. constructor; [apply IH; intros x Hx; apply H; right; exact Hx|]. apply Forall_forall. intros x Hx. unfold shallow.
        rewrite (H r (or_introl eq_refl)), (H x (or_intror Hx)). lia. }
      apply X. intros r Hr. apply children_iff in Hr. destruct Hr as (_ & i & ->). reflexivity.
    - intros r Hr. apply children_iff in Hr. destruct Hr as (_ & i & ->). cbn. lia.
  Qed.
End Breadth.

(** ** Put together *)
Lemma plain_readable d show s : plain d show s -> readable s = true.
Proof.
  induction s as [s N|c IH] using simple_induct; intros P; [destruct s; try reflexivity; [exfalso; eapply N; reflexivity|destruct P]|].
  cbn [plain readable] in *. induction IH as [|s c Hs IH IHc]; [reflexivity|]. destruct P as [P1 P2]. rewrite (Hs P1). apply IHc, P2.
Qed.
Lemma all_readable d show sel : all_plain d show sel -> readable_list sel = true.
Proof.
  unfold all_plain, components, readable_list. intros H. apply forallb_forall. intros c Hc. apply andb_true_iff.
  assert (A : forall s, In s (c_last c ++ flat_map snd (c_rest c)) -> readable s = true).
  { intros s Hs. apply (plain_readable d show). rewrite Forall_forall in H. apply H. apply in_flat_map. exists c. auto. }
  split; apply forallb_forall; [intros s Hs; apply A, in_or_app; left; exact Hs|]. intros r Hr. apply forallb_forall. intros s Hs. apply A, in_or_app. right. apply in_flat_map. exists r. auto.
Qed.
Lemma allowed_all d show opaque scope from sel : all_plain d show sel -> none_counting sel \/ (told_apart d opaque /\ scoped opaque scope from) -> Forall (allowed d show opaque scope from) (components sel).
Proof.
  unfold all_plain, none_counting. intros P C. rewrite Forall_forall in *. intros s Hs. split; [apply P, Hs|]. intros T. destruct C as [C|C]; [|exact C]. rewrite (C s Hs) in T. discriminate.
Qed.
Lemma naive_ok d show opaque sel p : usual_doc d -> element_in d p -> all_plain d show sel -> none_counting sel \/ told_apart d opaque ->
  exists b, matches_naive d show opaque sel p = Some b /\ (b = true <-> selects d None sel p).
Proof.
  intros U Hp P C. unfold matches_naive. rewrite (all_readable _ _ _ P). eexists. split; [reflexivity|].
  assert (A : Forall (allowed d show opaque None None) (components sel)) by (apply allowed_all; [exact P|destruct C; [left|right; split]; auto; exact Logic.I]).
  apply (list_good d show opaque None None U sel A p no_caches); [apply element_iff, Hp|intros t f q i _ H; discriminate].
Qed.
Lemma filter_sorted {A} (R : A -> A -> Prop) f l : StronglySorted R l -> StronglySorted R (filter f l).
Proof.
  induction 1 as [|x l H IH F]; [constructor|]. cbn. destruct (f x); [|exact IH]. constructor; [exact IH|]. rewrite Forall_forall in *. intros y Hy. apply filter_In in Hy. apply F, Hy.
Qed.
Lemma select_ok d show opaque scope_at from sel : usual_doc d -> all_plain d show sel -> none_counting sel \/ (told_apart d opaque /\ scope_at = opaque from) ->
  exists l, select d show opaque scope_at from sel = Some l /\ (forall p, In p l <-> element_in d p /\ inside p from /\ selects d (Some from) sel p) /\
    NoDup l /\ StronglySorted (fun p q => List.length p <= List.length q) l.
Proof.
  intros U P C. unfold select. rewrite (all_readable _ _ _ P). eexists. split; [reflexivity|].
  assert (A : Forall (allowed d show opaque (Some scope_at) (Some from)) (components sel)) by (apply allowed_all; [exact P|exact C]).
  destruct (pick_good d show opaque (Some scope_at) (Some from) U sel A (breadth_first d from) no_caches) as (f & F & ->).
  - intros p Hp. apply breadth_first_in in Hp. apply element_iff, Hp.
  - intros t g q i _ H. discriminate.
  - split; [|split; [apply NoDup_filter, breadth_first_nodup|apply filter_sorted, breadth_first_sorted]].
    intros p. rewrite filter_In, breadth_first_in. split.
    + intros ((H1 & H2) & H3). split; [exact H1|]. split; [exact H2|]. apply F; [apply breadth_first_in; auto|exact H3].
    + intros (H1 & H2 & H3). split; [auto|]. apply F; [apply breadth_first_in; auto|exact H3].
Qed.
