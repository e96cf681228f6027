From Coq Require Import String List NArith ZArith Bool Lia Arith Sorted.
From Verif Require Import Chars NameModel AttrTable ElemModel TextModel ParseModel ListModel ScriptModel PruneModel PruneSpec DeprecatedModel MatcherModel MatcherSpec MatcherProofs MatcherProofs2 MatcherProofs3 MatcherProofs4 MatcherProofs5.
Import ListNotations.

(** ** Documents for the examples *)
Fixpoint every (P : tnode -> Prop) (n : tnode) : Prop :=
  P n /\ match n with TElem _ _ k => (fix all (l : list tnode) : Prop := match l with [] => True | n :: l => every P n /\ all l end) k | _ => True end.
Definition every_in (P : tnode -> Prop) (l : list tnode) : Prop := (fix all (l : list tnode) : Prop := match l with [] => True | n :: l => every P n /\ all l end) l.
Lemma every_nth P l i n : every_in P l -> nth_error l i = Some n -> every P n.
Proof. revert i. induction l as [|x l IH]; intros [|i] H E; try discriminate; destruct H as [H1 H2]; [injection E as <-; exact H1|apply (IH i); assumption]. Qed.
Lemma every_at P d p n : every_in P d -> node_in d p n -> every P n.
Proof. intros H X. induction X as [i n E|i p e a k n X IH E]; [eapply every_nth; eassumption|]. destruct IH as [_ IH]. eapply every_nth; [exact IH|exact E]. Qed.
Lemma every_here P n : every P n -> P n.
Proof. destruct n; intros [H _]; exact H. Qed.

Definition el (n : string) (attrs : list (string * string)) (k : list tnode) : tnode :=
  let e := elem_new (PKnown SVG) (lit n) in TElem e (map (fun a => (parse_attr_id e (PKnown SVG) (lit (fst a)), lit (snd a))) attrs) k.
(** [<svg><g id="a" class="b c"/><rect/><rect/></svg>] *)
Definition sample : list tnode := [el "svg" [] [el "g" [("id", "a"); ("class", "b c")]%string []; el "rect" [] []; el "rect" [] []]].
Definition kind_id_ : kind := mkKind (lit "Id") SVG (lit "id").
Definition kind_class_ : kind := mkKind (lit "Class") SVG (lit "class").
Lemma el_ids (n : nat) : parse_attr_id (elem_new (PKnown SVG) (lit "g")) (PKnown SVG) (lit "id") = ABase (BKnown kind_id_) /\ parse_attr_id (elem_new (PKnown SVG) (lit "g")) (PKnown SVG) (lit "class") = ABase (BKnown kind_class_).
Proof. clear n. split; vm_compute; reflexivity. Qed.
Definition gentle (n : tnode) : Prop := match n with TElem e attrs _ => elem_prefix e = PKnown SVG /\ NoDup (map (fun a => (prefix_value (id_prefix (fst a)), id_local (fst a))) attrs) /\ Forall (fun a => usual_attr (fst a) (snd a)) attrs | _ => True end.
Lemma usual_id : usual_attr (ABase (BKnown kind_id_)) (lit "a").
Proof.
  split; [|split; [|split]].
  - split; [intros _; split; reflexivity|intros _; exists kind_id_; split; reflexivity].
  - split; [intros (k & E & K); injection E as <-; vm_compute in K; discriminate|intros [_ K]; vm_compute in K; discriminate].
  - intros _. split; [discriminate|repeat constructor].
  - intros (k & E & K). injection E as <-. vm_compute in K. discriminate.
Qed.
Lemma usual_class : usual_attr (ABase (BKnown kind_class_)) (lit "b c").
Proof.
  split; [|split; [|split]].
  - split; [intros (k & E & K); injection E as <-; vm_compute in K; discriminate|intros [_ K]; vm_compute in K; discriminate].
  - split; [intros _; split; reflexivity|intros _; exists kind_class_; split; reflexivity].
  - intros (k & E & K). injection E as <-. vm_compute in K. discriminate.
  - intros _. exists [lit "b"; lit "c"]. split; [reflexivity|]. repeat constructor; discriminate.
Qed.
Local Opaque parse_attr_id.
Lemma sample_usual : usual_doc sample.
Proof.
  split.
  - assert (X : forall i, element_in sample [i] -> i = 0).
    { intros [|i] (e & a & k & H); [reflexivity|]. exfalso. apply in_look in H. destruct i; discriminate. }
    intros i j A B. rewrite (X i A), (X j B). reflexivity.
  - intros p e attrs (k & H).
    assert (E : every_in gentle sample).
    { unfold sample, el. cbn [every_in every map fst snd]. rewrite (proj1 (el_ids 0)), (proj2 (el_ids 0)).
      assert (N0 : NoDup (map (fun a : attr_id * text => (prefix_value (id_prefix (fst a)), id_local (fst a))) [])) by constructor.
      assert (N2 : NoDup (map (fun a : attr_id * text => (prefix_value (id_prefix (fst a)), id_local (fst a))) [(ABase (BKnown kind_id_), lit "a"); (ABase (BKnown kind_class_), lit "b c")])).
      { constructor; [intros [X|[]]; vm_compute in X; discriminate|]. constructor; [intros []|constructor]. }
      assert (F2 : Forall (fun a : attr_id * text => usual_attr (fst a) (snd a)) [(ABase (BKnown kind_id_), lit "a"); (ABase (BKnown kind_class_), lit "b c")]) by (constructor; [exact usual_id|constructor; [exact usual_class|constructor]]).
      assert (P : forall n, elem_prefix (elem_new (PKnown SVG) (lit n)) = PKnown SVG).
      { intros n. unfold elem_new. destruct (match prefix_unaliased (PKnown SVG) with PKnown SVG => _ | _ => None end); reflexivity. }
      unfold gentle. rewrite !P. repeat (split; [auto|]); exact Logic.I. }
    apply every_at with (p := p) (n := TElem e attrs k) in E; [|exact H]. apply every_here in E. destruct E as (P & N & F). split; [|split; [exact N|]].
    + exists (known_uri SVG), None. rewrite P. vm_compute. reflexivity.
    + intros a v Hin. rewrite Forall_forall in F. apply (F (a, v) Hin).
Qed.
Local Transparent parse_attr_id.
Definition one (l : list simple) : list complex := [mkComplex l []].
(** [svg > .b#a:empty ~ rect] *)
Definition sample_selector : list complex := [mkComplex [SType (lit "rect")] [(LaterSibling, [SClass (lit "b"); SId (lit "a"); SEmpty]); (Child, [SType (lit "svg")])]].
Lemma sample_plain : all_plain sample show_class sample_selector.
Proof.
  unfold all_plain, sample_selector, components. cbn [flat_map app c_last c_rest snd]. repeat constructor.
  intros p n H. assert (E : every_in (fun n => match n with TElem _ _ _ => True | _ => False end) sample) by (cbn; tauto).
  apply every_at with (p := p) (n := n) in E; [|exact H]. apply every_here in E. destruct n; [exact Logic.I|destruct E|destruct E].
Qed.
Lemma sample_none : none_counting sample_selector.
Proof. unfold none_counting, sample_selector, components. cbn [flat_map app c_last c_rest snd]. repeat constructor. Qed.
Lemma sample_result opaque k : select sample show_class opaque k [] sample_selector = Some [[1; 0]; [2; 0]].
Proof. vm_compute. reflexivity. Qed.
(** [rect:nth-child(2)] *)
Definition second : list complex := one [SType (lit "rect"); SNth false false 0 2].
Lemma second_plain : all_plain sample show_class second.
Proof. unfold all_plain, second, components, one. cbn [flat_map app c_last c_rest]. repeat constructor. Qed.

(** ** What is not so *)
Lemma at_place d p e a k : look d p = Some (TElem e a k) -> element_at d p e a.
Proof. intros H. exists k. apply look_in, H. Qed.
Lemma one_means d from s p : selects d from (one [s]) p <-> means d from s p.
Proof.
  unfold selects, one. split.
  - intros H. inversion H; subst; [|inversion H1]. destruct H1 as [F _]. inversion F; assumption.
  - intros H. apply List.Exists_cons_hd. split; [constructor; [exact H|constructor]|exact Logic.I].
Qed.
Lemma capitals_refuted : exists d n p, element_in d p /\ (forall show opaque, selects d None (one [SType n]) p /\ matches_naive d show opaque (one [SType n]) p = Some false).
Proof.
  exists [el "svg" [] [el "linearGradient" [] []]], (lit "linearGradient"), [0; 0]. assert (H : element_at [el "svg" [] [el "linearGradient" [] []]] [0; 0] (elem_new (PKnown SVG) (lit "linearGradient")) []) by (eapply at_place; reflexivity).
  split; [eexists _, _; exact H|]. intros show opaque. split; [|vm_compute; reflexivity]. apply one_means. eexists _, _. split; [exact H|]. vm_compute. reflexivity.
Qed.
Lemma view_box_refuted : exists d n p, element_in d p /\ (forall show opaque, selects d None (one [SAttr false n None]) p /\ matches_naive d show opaque (one [SAttr false n None]) p = Some false).
Proof.
  set (d := [el "svg" [("viewBox", "0 0 1 1")]%string []]). exists d, (lit "viewBox"), [0].
  assert (H : element_at d [0] (elem_new (PKnown SVG) (lit "svg")) [(parse_attr_id (elem_new (PKnown SVG) (lit "svg")) (PKnown SVG) (lit "viewBox"), lit "0 0 1 1")]) by (eapply at_place; reflexivity).
  split; [eexists _, _; exact H|]. intros show opaque. split; [|vm_compute; reflexivity]. apply one_means. eexists _, _, _, _. split; [exact H|]. split; [left; reflexivity|]. split; [right; vm_compute; reflexivity|].
  split; [vm_compute; reflexivity|exact Logic.I].
Qed.
Lemma value_refuted : exists d n v p, element_in d p /\ (forall opaque, selects d None (one [SAttr false n (Some (OEqual, v, None))]) p /\ matches_naive d show_class opaque (one [SAttr false n (Some (OEqual, v, None))]) p = Some false).
Proof.
  set (d := [el "svg" [("class", "a  b")]%string []]). exists d, (lit "class"), (lit "a  b"), [0].
  assert (H : element_at d [0] (elem_new (PKnown SVG) (lit "svg")) [(parse_attr_id (elem_new (PKnown SVG) (lit "svg")) (PKnown SVG) (lit "class"), lit "a  b")]) by (eapply at_place; reflexivity).
  split; [eexists _, _; exact H|]. intros opaque. split; [|vm_compute; reflexivity]. apply one_means. eexists _, _, _, _. split; [exact H|]. split; [left; reflexivity|]. split; [right; vm_compute; reflexivity|].
  split; vm_compute; reflexivity.
Qed.
Lemma case_refuted : exists d n v p, element_in d p /\ (forall opaque, ~ selects d None (one [SAttr false n (Some (OEqual, v, None))]) p /\ matches_naive d show_class opaque (one [SAttr false n (Some (OEqual, v, None))]) p = Some true).
Proof.
  set (d := [el "svg" [("lang", "EN")]%string []]). exists d, (lit "lang"), (lit "en"), [0].
  assert (H : element_at d [0] (elem_new (PKnown SVG) (lit "svg")) [(parse_attr_id (elem_new (PKnown SVG) (lit "svg")) (PKnown SVG) (lit "lang"), lit "EN")]) by (eapply at_place; reflexivity).
  split; [eexists _, _; exact H|]. intros opaque. split; [|vm_compute; reflexivity]. rewrite one_means. intros (e & attrs & a & v & Hp & Hin & _ & _ & V).
  destruct (at_fun d _ _ _ _ _ H Hp) as [_ <-]. destruct Hin as [E|[]]. apply (f_equal snd) in E. cbn [snd] in E. subst v. vm_compute in V. discriminate.
Qed.
(** [xlink:href="#a"] *)
Definition linked : tnode := let e := elem_new (PKnown SVG) (lit "use") in TElem e [(parse_attr_id e (PKnown XLink) (lit "href"), lit "#a")] [].
Lemma namespace_refuted : exists d n p, element_in d p /\ (forall show opaque, selects d None (one [SAttr true n None]) p /\ matches_naive d show opaque (one [SAttr true n None]) p = Some false).
Proof.
  exists [linked], (lit "href"), [0].
  assert (H : element_at [linked] [0] (elem_new (PKnown SVG) (lit "use")) [(parse_attr_id (elem_new (PKnown SVG) (lit "use")) (PKnown XLink) (lit "href"), lit "#a")]) by (exists []; apply top_in; cbn [nth_error]; unfold linked; reflexivity).
  split; [eexists _, _; exact H|]. intros show opaque. split; [|vm_compute; reflexivity]. apply one_means. eexists _, _, _, _. split; [exact H|]. split; [left; reflexivity|]. split; [left; reflexivity|].
  split; [vm_compute; reflexivity|exact Logic.I].
Qed.
Lemma empty_refuted : (exists d p, element_in d p /\ forall show opaque, selects d None (one [SEmpty]) p /\ matches_naive d show opaque (one [SEmpty]) p = Some false) /\
  exists d p, element_in d p /\ forall show opaque, ~ selects d None (one [SEmpty]) p /\ matches_naive d show opaque (one [SEmpty]) p = Some true.
Proof.
  split.
  - set (d := [el "svg" [] [TNote]]). exists d, [0]. assert (H : node_in d [0] (el "svg" [] [TNote])) by (apply look_in; reflexivity). split; [eexists _, _, _; exact H|]. intros show opaque.
    split; [|vm_compute; reflexivity]. apply one_means. eexists _, _, _. split; [exact H|]. repeat constructor.
  - set (d := [el "svg" [] [TText [160%N]]]). exists d, [0]. assert (H : node_in d [0] (el "svg" [] [TText [160%N]])) by (apply look_in; reflexivity). split; [eexists _, _, _; exact H|]. intros show opaque.
    split; [|vm_compute; reflexivity]. rewrite one_means. intros (e & a & k & H' & F). assert (X := node_fun _ _ _ _ H H'). injection X as _ _ <-. apply Forall_inv in F. apply Forall_inv in F. repeat (destruct F as [E|F]; [discriminate|]). destruct F.
Qed.
Lemma link_refuted : exists d p s, element_in d p /\ forall show opaque, matches_naive d show opaque (one [SType (lit "svg"); SPseudo s]) p = None /\ matches_naive d show opaque [mkComplex [SType (lit "svg")] []; mkComplex [SPseudo s] []] p = None.
Proof.
  exists [el "svg" [] []], [0], (lit "link"). split; [|intros show opaque; split; vm_compute; reflexivity].
  eexists _, _. eapply at_place. reflexivity.
Qed.
(** A way to tell places apart. *)
Fixpoint code (p : place) : N := match p with [] => 0 | i :: p => 2 ^ N.of_nat i * (2 * code p + 1) end%N.
Lemma code_pow i j (a b : N) : (2 ^ N.of_nat i * (2 * a + 1) = 2 ^ N.of_nat j * (2 * b + 1))%N -> i = j /\ a = b.
Proof.
  revert j. induction i as [|i IH]; intros [|j] H; rewrite ?Nat2N.inj_succ, ?N.pow_succ_r' in H; cbn [N.of_nat N.pow] in H.
  - split; lia.
  - exfalso. lia.
  - exfalso. lia.
  - destruct (IH j) as [-> ->]; [lia|split; reflexivity].
Qed.
Lemma code_apart d : told_apart d code.
Proof.
  intros p. induction p as [|i p IH]; intros [|j q] H; cbn [code] in H.
  - reflexivity.
  - exfalso. assert (0 < 2 ^ N.of_nat j)%N by (apply N.neq_0_lt_0, N.pow_nonzero; discriminate). nia.
  - exfalso. assert (0 < 2 ^ N.of_nat i)%N by (apply N.neq_0_lt_0, N.pow_nonzero; discriminate). nia.
  - apply code_pow in H. destruct H as [-> H]. f_equal. apply IH, H.
Qed.
Lemma second_result : select sample show_class code (code []) [] second = Some [[1; 0]].
Proof. vm_compute. reflexivity. Qed.

Lemma count_refuted : exists d sel from, usual_doc d /\ all_plain d show_class sel /\ exists opaque l p, select d show_class opaque (opaque from) from sel = Some l /\ In p l /\ ~ selects d (Some from) sel p.
Proof.
  exists sample, second, []. split; [exact sample_usual|]. split; [exact second_plain|]. exists (fun _ => 0%N), [[1; 0]; [2; 0]], [2; 0]. split; [vm_compute; reflexivity|]. split; [right; left; reflexivity|].
  intros H. inversion H as [? ? H1|? ? H1]; subst; [|inversion H1]. destruct H1 as [F _]. inversion F as [|? ? _ F1]; subst. inversion F1 as [|? ? M _]; subst. clear - M.
  destruct M as (i & up & l & e & at_ & m & n & E & A & _ & C & Hn & X). injection E as <- <-. destruct A as (e' & a' & A).
  assert (Y : node_in sample [0] (el "svg" [] [el "g" [("id", "a"); ("class", "b c")]%string []; el "rect" [] []; el "rect" [] []])) by (apply look_in; reflexivity).
  assert (Z := node_fun _ _ _ _ Y A). injection Z as _ _ <-. cbn [firstn] in C.
  assert (m = 2); [|lia]. apply (counts_fun _ _ _ C). apply counts_yes; [intros K; discriminate|]. apply counts_yes; [intros K; discriminate|]. constructor.
Qed.
(** [:scope > g] *)
Definition under_scope : list complex := [mkComplex [SType (lit "g")] [(Child, [SScope])]].
Lemma scope_refuted : exists d sel from, usual_doc d /\ all_plain d show_class sel /\ exists opaque scope_at p, told_apart d opaque /\ element_in d p /\ inside p from /\ selects d (Some from) sel p /\ select d show_class opaque scope_at from sel = Some [].
Proof.
  exists sample, under_scope, [0]. split; [exact sample_usual|].
  split; [unfold all_plain, under_scope, components; cbn [flat_map app c_last c_rest snd]; repeat constructor|].
  exists code, 1000%N, [0; 0]. split; [apply code_apart|].
  assert (H : exists a, element_at sample [0; 0] (elem_new (PKnown SVG) (lit "g")) a) by (eexists; eapply at_place; reflexivity). destruct H as [a H].
  assert (H0 : element_in sample [0]) by (eexists _, _; eapply at_place; reflexivity).
  split; [eexists _, _; exact H|]. split; [exists [0]; split; [discriminate|reflexivity]|]. split; [|vm_compute; reflexivity].
  apply List.Exists_cons_hd. split.
  - cbn [c_last]. constructor; [|constructor]. eexists _, _. split; [exact H|]. vm_compute. reflexivity.
  - exists [0]. split; [exact H0|]. split; [exists 0; reflexivity|]. split; [|exact Logic.I]. constructor; [reflexivity|constructor].
Qed.
