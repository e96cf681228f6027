From Coq Require Import String List NArith ZArith Bool Lia Arith.
From Verif Require Import Chars NameModel AttrTable ElemModel TextModel ParseModel ListModel ScriptModel PruneModel PruneSpec DeprecatedModel MatcherModel MatcherSpec MatcherProofs MatcherProofs2 MatcherProofs3.
Import ListNotations.

Lemma simple_induct (P : simple -> Prop) : (forall s, (forall c, s <> SNot c) -> P s) -> (forall c, Forall P c -> P (SNot c)) -> forall s, P s.
Proof.
  intros H0 H1. fix IH 1. intros s. destruct s; try (apply H0; intros; discriminate). apply H1. induction c as [|s c IHc]; [constructor|]. constructor; [apply IH|exact IHc].
Qed.

Section Eval.
  Variables (d : list tnode) (show : attr_id -> text -> option text) (opaque : place -> N) (scope : option N) (from : option place).
  Hypothesis U : usual_doc d.
  Definition scoped : Prop := match scope, from with Some k, Some q => k = opaque q | None, None => True | _, _ => False end.
  Definition allowed (s : simple) : Prop := plain d show s /\ (counting s = true -> told_apart d opaque /\ scoped).
  Definition good (s : simple) : Prop := allowed s -> forall p cs, is_elem d p = true -> caches_ok d opaque cs ->
    (fst (eval d show opaque scope s p cs) = true <-> means d from s p) /\ caches_ok d opaque (snd (eval d show opaque scope s p cs)).

  Lemma all_good c : Forall good c -> Forall allowed c -> forall p cs, is_elem d p = true -> caches_ok d opaque cs ->
    (fst (eval_all d show opaque scope c p cs) = true <-> Forall (fun s => means d from s p) c) /\ caches_ok d opaque (snd (eval_all d show opaque scope c p cs)).
  Proof.
    intros G A. induction G as [|s c Gs G IH]; intros p cs Hp Ok; [split; [split; [constructor|reflexivity]|exact Ok]|]. inversion A; subst. cbn [eval_all].
    destruct (Gs H1 p cs Hp Ok) as [G1 G2]. destruct (eval d show opaque scope s p cs) as [b cs']. cbn [fst snd] in G1, G2. destruct b.
    - destruct (IH H2 p cs' Hp G2) as [I1 I2]. split; [|exact I2]. rewrite I1. split; [intros H; constructor; [apply G1; reflexivity|exact H]|intros H; inversion H; assumption].
    - split; [|exact G2]. cbn [fst]. split; [discriminate|]. intros H. inversion H; subst. apply G1 in H4. discriminate.
  Qed.
  Lemma eval_all_not c p cs : eval d show opaque scope (SNot c) p cs = let (b, cs) := eval_all d show opaque scope c p cs in (negb b, cs).
  Proof.
    cbn [eval].
    assert (H : forall cs, (fix go (l : list simple) (cs0 : caches) {struct l} : bool * caches :=
      match l with | [] => (true, cs0) | s :: l0 => let (b, cs1) := eval d show opaque scope s p cs0 in if b then go l0 cs1 else (false, cs1) end) c cs = eval_all d show opaque scope c p cs); [|rewrite H; reflexivity].
    clear cs. induction c as [|s c IH]; intros cs; [reflexivity|]. cbn [eval_all]. destruct (eval d show opaque scope s p cs) as [[|] cs']; [apply IH|reflexivity].
  Qed.
  Lemma not_means c p : means d from (SNot c) p <-> ~ Forall (fun s => means d from s p) c.
  Proof.
    cbn [means].
    assert (H : (fix all (l : list simple) : Prop := match l with | [] => True | s :: l0 => means d from s p /\ all l0 end) c <-> Forall (fun s => means d from s p) c); [|rewrite H; reflexivity].
    induction c as [|s c IH]; [split; constructor|]. rewrite IH. split; [intros [A B]; constructor; assumption|intros A; inversion A; auto].
  Qed.
  Lemma not_allowed c : allowed (SNot c) -> Forall allowed c.
  Proof.
    intros [P C]. cbn [plain counting] in P, C. induction c as [|s c IH]; [constructor|]. destruct P as [P1 P2]. constructor.
    - split; [exact P1|]. intros H. apply C. rewrite H. reflexivity.
    - apply IH; [exact P2|]. intros H. apply C. rewrite H. apply orb_true_r.
  Qed.
  Lemma every_good s : good s.
  Proof.
    induction s as [s N|c IH] using simple_induct; intros A p cs Hp Ok.
    - destruct A as [P C]. assert (Hp' := proj1 (element_iff _ _) Hp). destruct s; try (exfalso; eapply N; reflexivity); cbn [eval]; try (split; [cbn [fst means]|exact Ok]).
      + split; [intros _; exact Logic.I|reflexivity].
      + apply local_iff; assumption.
      + apply has_id_iff; assumption.
      + apply has_class_iff; assumption.
      + apply attr_iff; assumption.
      + apply root_iff.
      + apply (empty_iff d show p P Hp').
      + apply (nth_ok d U opaque of_type from_end a b p cs Hp Ok). intros H. apply C, H.
      + destruct (C eq_refl) as [Inj Sc]. unfold scoped in Sc. destruct scope as [k|], from as [q|]; try contradiction; [|apply root_iff]. subst k. rewrite N.eqb_eq. split; [apply Inj|congruence].
      + destruct P.
    - rewrite eval_all_not, not_means. destruct (all_good c IH (not_allowed c A) p cs Hp Ok) as [G1 G2]. destruct (eval_all d show opaque scope c p cs) as [b cs']. cbn [fst snd] in *.
      split; [|exact G2]. rewrite <- G1. destruct b; cbn; split; intros H; try discriminate; try reflexivity; exfalso; apply H; reflexivity.
  Qed.

  (** Where combinators lead. *)
  Lemma ancestors_in p q : In q (ancestors p) <-> q <> [] /\ exists l, l <> [] /\ p = l ++ q.
  Proof.
    induction p as [|i up IH]; [cbn; split; [intros []|intros (Q & l & L & E); destruct l; [congruence|discriminate]]|]. cbn [ancestors]. destruct up as [|j up].
    - split; [intros []|]. intros (Q & l & L & E). destruct l as [|x l]; [congruence|]. injection E as _ E. destruct l, q; try discriminate. congruence.
    - cbn [In]. rewrite IH. split.
      + intros [<-|(Q & l & L & E)]; [split; [discriminate|exists [i]; split; [discriminate|reflexivity]]|]. split; [exact Q|]. exists (i :: l). split; [discriminate|]. rewrite E. reflexivity.
      + intros (Q & l & L & E). destruct l as [|x l]; [congruence|]. injection E as -> E. destruct l as [|y l]; [left; exact E|right]. split; [exact Q|]. exists (y :: l). split; [discriminate|exact E].
  Qed.
  Lemma element_nonempty p : element_in d p -> p <> [].
  Proof. intros (e & a & k & H). inversion H; discriminate. Qed.
  Lemma suffix_element l q : q <> [] -> element_in d (l ++ q) -> element_in d q.
  Proof. intros Q. induction l as [|i l IH]; intros H; [exact H|]. apply IH. cbn [app] in H. destruct (l ++ q) as [|j r] eqn:E; [apply app_eq_nil in E; destruct E; contradiction|]. eapply element_up, H. Qed.
  Lemma below_in up i q : In q (below d up i) <-> exists k, k < i /\ q = k :: up /\ is_elem d (k :: up) = true.
  Proof. rewrite below_rev, <- in_rev, above_in. split; intros (k & K & H); exists k; (split; [lia|exact H]). Qed.
  Lemma candidates_iff c p q : is_elem d p = true -> In q (candidates d c p) <-> element_in d q /\ leads d c p q.
  Proof.
    intros Hp. assert (Hp' := proj1 (element_iff _ _) Hp). destruct c; cbn [candidates leads].
    - destruct p as [|i [|j up]]; [discriminate| |]; cbn [parent_element In].
      + split; [intros []|]. intros (Hq & k & E). injection E as _ <-. exfalso. eapply element_nonempty; [exact Hq|reflexivity].
      + split; [intros [<-|[]]; split; [eapply element_up, Hp'|exists i; reflexivity]|]. intros (_ & k & E). injection E as _ <-. left. reflexivity.
    - rewrite ancestors_in. split.
      + intros (Q & l & L & ->). split; [eapply suffix_element; eassumption|exists l; auto].
      + intros (Hq & l & L & E). split; [apply element_nonempty, Hq|]. exists l. auto.
    - destruct p as [|i up]; [discriminate|]. rewrite (prev_all d U i up Hp). destruct (below d up i) as [|r l] eqn:B; cbn [hd_error In].
      + split; [intros []|]. intros (Hq & i' & j & up' & E & -> & L & _). injection E as <- <-. assert (X : In (j :: up) (below d up i)) by (apply below_in; exists j; repeat split; [exact L|apply element_iff, Hq]).
        rewrite B in X. destruct X.
      + destruct (below_split _ _ _ _ _ B) as (k & -> & K & Ek & _ & No). split.
        * intros [<-|[]]. split; [apply element_iff, Ek|]. exists i, k, up. repeat split; try lia. intros x X Y. apply element_iff in Y. rewrite No in Y by exact X. discriminate.
        * intros (Hq & i' & j & up' & E & -> & L & F). injection E as <- <-. left. f_equal. destruct (Nat.lt_trichotomy k j) as [X|[X|X]]; [|exact X|].
          -- exfalso. assert (Y := No j (conj X L)). apply element_iff in Hq. congruence.
          -- exfalso. apply (F k (conj X K)). apply element_iff, Ek.
    - destruct p as [|i up]; [discriminate|]. rewrite (prevs_all d U i up Hp), below_in. split.
      + intros (k & K & -> & Ek). split; [apply element_iff, Ek|]. exists i, k, up. auto.
      + intros (Hq & i' & j & up' & E & -> & L). injection E as <- <-. exists j. repeat split; [exact L|apply element_iff, Hq].
  Qed.

  Lemma rest_good rest : Forall allowed (flat_map snd rest) -> forall p cs, is_elem d p = true -> caches_ok d opaque cs ->
    (fst (eval_rest d show opaque scope rest p cs) = true <-> rest_means d from rest p) /\ caches_ok d opaque (snd (eval_rest d show opaque scope rest p cs)).
  Proof.
    induction rest as [|[c s] rest IH]; intros A p cs Hp Ok; [split; [split; [intros _; exact Logic.I|reflexivity]|exact Ok]|].
    cbn [flat_map snd] in A. apply Forall_app in A. destruct A as [A1 A2]. cbn [eval_rest rest_means].
    assert (Q : forall q, In q (candidates d c p) -> is_elem d q = true) by (intros q Hq; apply element_iff, (candidates_iff c p q Hp), Hq).
    assert (Goal' : forall l, (forall q, In q l -> is_elem d q = true) -> forall cs, caches_ok d opaque cs ->
      let r := (fix try (l : list place) (cs : caches) : bool * caches :=
        match l with [] => (false, cs) | q :: l => let (b, cs) := eval_all d show opaque scope s q cs in
          if b then let (b, cs) := eval_rest d show opaque scope rest q cs in if b then (true, cs) else try l cs else try l cs end) l cs in
      (fst r = true <-> exists q, In q l /\ Forall (fun s => means d from s q) s /\ rest_means d from rest q) /\ caches_ok d opaque (snd r)).
    { clear cs Ok Q. induction l as [|q l IHl]; intros Q cs Ok; [split; [split; [discriminate|intros (q & [] & _)]|exact Ok]|].
      assert (Hq := Q q (or_introl eq_refl)). assert (Ql : forall q, In q l -> is_elem d q = true) by (intros x Hx; apply Q; right; exact Hx).
      assert (Gs : Forall good s) by (apply Forall_forall; intros x _; apply every_good).
      destruct (all_good s Gs A1 q cs Hq Ok) as [G1 G2]. destruct (eval_all d show opaque scope s q cs) as [b cs1]. cbn [fst snd] in G1, G2.
      assert (No : ~ (Forall (fun s => means d from s q) s /\ rest_means d from rest q) -> (exists q0, In q0 l /\ Forall (fun s => means d from s q0) s /\ rest_means d from rest q0) <-> (exists q0, In q0 (q :: l) /\ Forall (fun s => means d from s q0) s /\ rest_means d from rest q0)).
      { intros N. split; intros (x & Hx & H); [exists x; split; [right; exact Hx|exact H]|]. destruct Hx as [<-|Hx]; [contradiction|exists x; auto]. }
      destruct b.
      - destruct (IH A2 q cs1 Hq G2) as [R1 R2]. destruct (eval_rest d show opaque scope rest q cs1) as [b2 cs2]. cbn [fst snd] in R1, R2. destruct b2.
        + split; [|exact R2]. split; [|reflexivity]. intros _. exists q. split; [left; reflexivity|]. split; [apply G1; reflexivity|apply R1; reflexivity].
        + destruct (IHl Ql cs2 R2) as [I1 I2]. split; [|exact I2]. rewrite I1. apply No. intros [_ H]. apply R1 in H. discriminate.
      - destruct (IHl Ql cs1 G2) as [I1 I2]. split; [|exact I2]. rewrite I1. apply No. intros [H _]. apply G1 in H. discriminate. }
    destruct (Goal' (candidates d c p) Q cs Ok) as [G1 G2]. split; [|exact G2]. rewrite G1. split.
    - intros (q & Hq & H). apply (candidates_iff c p q Hp) in Hq. exists q. destruct Hq, H. auto.
    - intros (q & Hq & L & H). exists q. split; [apply (candidates_iff c p q Hp); auto|exact H].
  Qed.
  Lemma list_good sel : Forall allowed (components sel) -> forall p cs, is_elem d p = true -> caches_ok d opaque cs ->
    (fst (eval_list d show opaque scope sel p cs) = true <-> selects d from sel p) /\ caches_ok d opaque (snd (eval_list d show opaque scope sel p cs)).
  Proof.
    unfold selects. induction sel as [|c sel IH]; intros A p cs Hp Ok; [split; [split; [discriminate|intros H; inversion H]|exact Ok]|].
    unfold components in A. cbn [flat_map] in A. apply Forall_app in A. destruct A as [A A3]. apply Forall_app in A. destruct A as [A1 A2]. cbn [eval_list]. unfold eval_complex.
    assert (Gs : Forall good (c_last c)) by (apply Forall_forall; intros x _; apply every_good).
    destruct (all_good (c_last c) Gs A1 p cs Hp Ok) as [G1 G2]. destruct (eval_all d show opaque scope (c_last c) p cs) as [b cs1]. cbn [fst snd] in G1, G2.
    assert (No : ~ complex_means d from c p -> List.Exists (fun c => complex_means d from c p) sel <-> List.Exists (fun c => complex_means d from c p) (c :: sel)).
    { intros N. split; [apply Exists_cons_tl|]. intros H. inversion H; subst; [contradiction|assumption]. }
    destruct b.
    - destruct (rest_good (c_rest c) A2 p cs1 Hp G2) as [R1 R2]. destruct (eval_rest d show opaque scope (c_rest c) p cs1) as [b2 cs2]. cbn [fst snd] in R1, R2. destruct b2.
      + split; [|exact R2]. split; [|reflexivity]. intros _. apply Exists_cons_hd. split; [apply G1; reflexivity|apply R1; reflexivity].
      + destruct (IH A3 p cs2 Hp R2) as [I1 I2]. split; [|exact I2]. rewrite I1. apply No. intros [_ H]. apply R1 in H. discriminate.
    - destruct (IH A3 p cs1 Hp G2) as [I1 I2]. split; [|exact I2]. rewrite I1. apply No. intros [H _]. apply G1 in H. discriminate.
  Qed.
  Lemma pick_good sel : Forall allowed (components sel) -> forall l cs, (forall p, In p l -> is_elem d p = true) -> caches_ok d opaque cs ->
    exists f, (forall p, In p l -> f p = true <-> selects d from sel p) /\ pick d show opaque scope sel l cs = filter f l.
  Proof.
    intros A. assert (Dec : forall p, is_elem d p = true -> {selects d from sel p} + {~ selects d from sel p}).
    { intros p Hp. assert (Ok0 : caches_ok d opaque no_caches) by (intros t f q i _ H; discriminate). destruct (list_good sel A p no_caches Hp Ok0) as [G _].
      destruct (fst (eval_list d show opaque scope sel p no_caches)); [left; apply G; reflexivity|right; intros H; apply G in H; discriminate]. }
    intros l cs Q Ok.
    exists (fun p => fst (eval_list d show opaque scope sel p no_caches)).
    assert (Ok0 : caches_ok d opaque no_caches) by (intros t f q i _ H; discriminate). split; [intros p Hp; apply (list_good sel A p no_caches (Q p Hp) Ok0)|].
    revert cs Ok. induction l as [|p l IH]; intros cs Ok; [reflexivity|]. cbn [pick filter]. assert (Hp := Q p (or_introl eq_refl)).
    destruct (list_good sel A p cs Hp Ok) as [G1 G2]. destruct (list_good sel A p no_caches Hp Ok0) as [G3 _]. rewrite <- G3 in G1.
    destruct (eval_list d show opaque scope sel p cs) as [b cs1]. cbn [fst snd] in G1, G2. rewrite <- (IH (fun x Hx => Q x (or_intror Hx)) cs1 G2).
    replace (fst (eval_list d show opaque scope sel p no_caches)) with b by (apply eq_true_iff_eq, G1). reflexivity.
  Qed.
End Eval.
