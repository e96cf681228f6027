From Coq Require Import String List NArith Bool Arith Lia.
From Verif Require Import Chars TemplateModel TemplateSpec.
Import ListNotations.

Lemma remove_mid (a : list tree) x b : remove_at (List.length a) (a ++ x :: b) = Some (a ++ b).
Proof. induction a as [|y a IH]; [reflexivity|]. cbn [List.length app remove_at]. rewrite IH. reflexivity. Qed.
Lemma insert_mid (a : list tree) x b : insert_at (List.length a) x (a ++ b) = Some (a ++ x :: b).
Proof. induction a as [|y a IH]; [destruct b; reflexivity|]. cbn [List.length app insert_at]. rewrite IH. reflexivity. Qed.
Lemma replace_mid (a : list tree) new x b : replace_at (List.length a) new (a ++ x :: b) = Some (a ++ new ++ b).
Proof.
  unfold replace_at. rewrite remove_mid. rewrite <- (rev_involutive new) at 2. generalize (rev new) as r. intros r. revert b. induction r as [|y r IH]; intros b; [reflexivity|].
  cbn [fold_left rev]. rewrite insert_mid, IH, <- app_assoc. reflexivity.
Qed.
Definition filled (f : tree -> option (list tree)) (x : tree) : list tree := match f x with Some new => new | None => [x] end.
Lemma splice_from f l : forall a, fold_left (fun o x => match o with Some l => replace_at (fst x) (snd x) l | None => None end) (rev (insertions f (List.length a) l)) (Some (a ++ l)) = Some (a ++ flat_map (filled f) l).
Proof.
  induction l as [|x l IH]; intros a; [reflexivity|]. cbn [insertions flat_map]. specialize (IH (a ++ [x])). rewrite app_length, Nat.add_comm in IH. cbn [List.length Nat.add] in IH. rewrite <- !app_assoc in IH. cbn [app] in IH.
  unfold filled at 1. destruct (f x) as [new|].
  - cbn [rev]. rewrite fold_left_app, IH. cbn [fold_left fst snd]. rewrite replace_mid. reflexivity.
  - rewrite IH. cbn [app]. reflexivity.
Qed.
Lemma splice_spec f l : splice f l = Some (flat_map (filled f) l).
Proof. exact (splice_from f l []). Qed.

Section Ind.
  Variable P : tree -> Prop.
  Hypothesis HL : forall k x, P (Leaf k x).
  Hypothesis HN : forall k items rest, Forall P items -> Forall P rest -> P (Node k items rest).
  Fixpoint tree_all (t : tree) : P t :=
    match t with
    | Leaf k x => HL k x
    | Node k items rest =>
      HN k items rest
        ((fix go (l : list tree) : Forall P l := match l with [] => Forall_nil P | x :: l => Forall_cons x (tree_all x) (go l) end) items)
        ((fix go (l : list tree) : Forall P l := match l with [] => Forall_nil P | x :: l => Forall_cons x (tree_all x) (go l) end) rest)
    end.
End Ind.

Section Visit.
  Variable v : variables.
  Hypothesis ok : proper v.
  Notation visit := (visit v).
  Notation becomes := (becomes v).

  Lemma name_not s : v_name v <> 36%N :: s.
  Proof. intros E. apply (proj1 ok). rewrite E. left. reflexivity. Qed.
  Lemma jsx_not k x : v_jsx v <> Node KExpr [] [Leaf k x] /\ v_jsx v <> Leaf k x.
  Proof. destruct (proj2 ok) as (n & i & r & ->). split; discriminate. Qed.

  Definition done (x x' : tree) : Prop := visit x = Some x' /\ becomes x x'.
  Lemma together_done l : Forall (fun t => exists t', done t t') l -> exists l', together (map visit l) = Some l' /\ Forall2 done l l'.
  Proof.
    induction 1 as [|x l (x' & H) _ (l' & T & F)]; [exists []; split; [reflexivity|constructor]|]. exists (x' :: l'). cbn [map together]. rewrite (proj1 H), T. split; [reflexivity|]. constructor; assumption.
  Qed.
  Lemma each_done l l' : Forall2 done l l' -> each v l l'.
  Proof. induction 1 as [|x x' l l' H _ IH]; constructor; [exact (proj2 H)|exact IH]. Qed.

  (** A child that looks like a leaf or an identifier after the visit. *)
  Lemma visit_leaf y k s : visit y = Some (Leaf k (36%N :: s)) -> y = Leaf k (36%N :: s).
  Proof.
    destruct y as [k' x|k' items rest]; cbn [TemplateModel.visit].
    - destruct k'; intros H; try (injection H as <- E; destruct (text_eqb x (lit "$componentName")); [destruct (name_not s E)|rewrite E; reflexivity]). exact (f_equal (fun o => match o with Some t => t | None => y end) H) || (injection H as <- ->; reflexivity).
    - destruct (together (map visit items)) as [i|]; [|discriminate]. destruct (together (map visit rest)) as [r|]; [|discriminate].
      destruct k'; try discriminate; try (rewrite splice_spec; discriminate). intros H. injection H as H. exfalso. unfold jsx_in in H.
      destruct i as [|? ?]; [|discriminate H]. destruct r as [|[[]|] [|]]; try discriminate H. destruct (text_eqb t (lit "$jsx")); [|discriminate H]. exact (proj2 (jsx_not _ _) H).
  Qed.
  Lemma together_nil l : together (map visit l) = Some [] -> l = [].
  Proof. destruct l as [|x l]; [reflexivity|]. cbn [map together]. destruct (visit x); [|discriminate]. destruct (together (map visit l)); discriminate. Qed.
  Lemma together_one l x : together (map visit l) = Some [x] -> exists y, l = [y] /\ visit y = Some x.
  Proof.
    destruct l as [|y l]; [discriminate|]. cbn [map together]. destruct (visit y) as [y'|] eqn:Y; [|discriminate]. destruct (together (map visit l)) as [[|]|] eqn:T; try discriminate.
    intros H. injection H as <-. apply together_nil in T. subst l. exists y. split; [reflexivity|exact Y].
  Qed.
  Lemma visit_ident y s : visit y = Some (Node KExpr [] [Leaf LIdent (36%N :: s)]) -> y = Node KExpr [] [Leaf LIdent (36%N :: s)].
  Proof.
    destruct y as [k' x|k' items rest]; cbn [TemplateModel.visit]; [destruct k'; discriminate|].
    destruct (together (map visit items)) as [i|] eqn:I; [|discriminate]. destruct (together (map visit rest)) as [r|] eqn:R; [|discriminate].
    destruct k'; try discriminate; try (rewrite splice_spec; discriminate). intros H. injection H as H.
    assert (X : Node KExpr i r = Node KExpr [] [Leaf LIdent (36%N :: s)]).
    { unfold jsx_in in H. destruct i as [|? ?]; [|discriminate H]. destruct r as [|[[]|] [|]]; try discriminate H; try exact H. destruct (text_eqb t (lit "$jsx")); [|exact H]. destruct (proj1 (jsx_not _ _) H). }
    injection X as -> ->. apply together_nil in I. apply together_one in R. destruct R as (z & -> & Z). apply visit_leaf in Z. subst items z. reflexivity.
  Qed.
  Lemma visit_kind y k i r : visit y = Some (Node k i r) -> (forall n : unit, k <> KExpr) -> k <> KConstructor -> k <> KFunction -> k <> KArrow -> k <> KModule ->
    exists items rest, y = Node k items rest /\ together (map visit items) = Some i /\ together (map visit rest) = Some r.
  Proof.
    intros H A B C D E. destruct y as [k' x|k' items rest]; cbn [TemplateModel.visit] in H; [destruct k'; discriminate|].
    destruct (together (map visit items)) as [i'|] eqn:I; [|discriminate]. destruct (together (map visit rest)) as [r'|] eqn:R; [|discriminate].
    destruct k'; try (rewrite splice_spec in H; injection H as <- _ _; congruence); try (injection H as <- <- <-; exists items, rest; split; [reflexivity|]; split; assumption).
    injection H as H. exfalso. unfold jsx_in in H. assert (X : Node KExpr i' r' = Node k i r \/ v_jsx v = Node k i r).
    { destruct i' as [|? ?]; [|left; exact H]. destruct r' as [|[[]|] [|]]; try (left; exact H). destruct (text_eqb t (lit "$jsx")); [right|left]; exact H. }
    destruct X as [X|X]; [injection X as <- _ _; exact (A tt eq_refl)|]. destruct (proj2 ok) as (n & i2 & r2 & J). rewrite J in X. injection X as <- _ _. exact (A tt eq_refl).
  Qed.

  Definition chooses (k : kind) : option (tree -> option (list tree)) :=
    match k with KFunction | KConstructor => Some (in_params v) | KArrow => Some (in_arrow v) | KModule => Some (in_module v) | _ => None end.
  Lemma lit_neq (a b : text) : text_eqb a b = false -> a <> b.
  Proof. intros H ->. rewrite text_eqb_refl in H. discriminate. Qed.
  Lemma in_params_spec x x' new : visit x = Some x' -> (in_params v x' = Some new <-> x = param "$props" /\ new = map (fun p => Node KParam [] [p]) (v_props v)).
  Proof.
    intros V. split.
    - intros H. unfold in_params in H. destruct x' as [|[] [|] [|[[]|] [|]]]; try discriminate H. destruct (text_eqb t (lit "$props")) eqn:E; [|discriminate H]. apply text_eqb_spec in E. subst t. injection H as <-.
      apply visit_kind in V; try discriminate. destruct V as (i & r & -> & I & R). apply together_nil in I. apply together_one in R. destruct R as (z & -> & Z). apply (visit_leaf z LBinding) in Z. subst i z. split; reflexivity.
    - intros [-> ->]. injection V as <-. reflexivity.
  Qed.
  Lemma in_arrow_spec x x' new : visit x = Some x' -> (in_arrow v x' = Some new <-> x = arrow_param "$props" /\ new = v_props v).
  Proof.
    intros V. split.
    - intros H. unfold in_arrow in H. destruct x' as [[]|]; try discriminate H. destruct (text_eqb t (lit "$props")) eqn:E; [|discriminate H]. apply text_eqb_spec in E. subst t. injection H as <-.
      apply (visit_leaf x LBinding) in V. split; [exact V|reflexivity].
    - intros [-> ->]. injection V as <-. reflexivity.
  Qed.
  Lemma in_module_spec x x' new : visit x = Some x' -> (in_module v x' = Some new <->
    (x = statement "$imports" /\ new = v_imports v) \/ (x = statement "$interfaces" /\ new = v_interfaces v) \/ (x = statement "$exports" /\ new = v_exports v)).
  Proof.
    intros V. split.
    - intros H. unfold in_module in H. destruct x' as [|[] [|] [|[|[] [|] [|[[]|] [|]]] [|]]]; try discriminate H.
      assert (W : forall s, t = 36%N :: s -> x = Node KStatement [] [Node KExpr [] [Leaf LIdent t]]).
      { intros s ->. apply visit_kind in V; try discriminate. destruct V as (i & r & -> & I & R). apply together_nil in I. apply together_one in R. destruct R as (z & -> & Z). apply visit_ident in Z. subst i z. reflexivity. }
      destruct (text_eqb t (lit "$imports")) eqn:E1; [apply text_eqb_spec in E1; injection H as <-; left; split; [rewrite (W _ E1), E1; reflexivity|reflexivity]|].
      destruct (text_eqb t (lit "$interfaces")) eqn:E2; [apply text_eqb_spec in E2; injection H as <-; right; left; split; [rewrite (W _ E2), E2; reflexivity|reflexivity]|].
      destruct (text_eqb t (lit "$exports")) eqn:E3; [apply text_eqb_spec in E3; injection H as <-; right; right; split; [rewrite (W _ E3), E3; reflexivity|reflexivity]|discriminate H].
    - intros [[-> ->]|[[-> ->]|[-> ->]]]; injection V as <-; reflexivity.
  Qed.
  Lemma chooses_spec k f x x' new : chooses k = Some f -> visit x = Some x' -> (f x' = Some new <-> stands v k x new).
  Proof.
    intros C V. destruct k; try discriminate C; injection C as <-.
    - rewrite (in_params_spec x x' new V). split; [intros [-> ->]; constructor|intros H; inversion H; auto].
    - rewrite (in_arrow_spec x x' new V). split; [intros [-> ->]; constructor|intros H; inversion H; auto].
    - rewrite (in_params_spec x x' new V). split; [intros [-> ->]; constructor|intros H; inversion H; auto].
    - rewrite (in_module_spec x x' new V). split; [intros [[-> ->]|[[-> ->]|[-> ->]]]; constructor|intros H; inversion H; auto].
  Qed.
  Lemma all_chosen k f l l' : chooses k = Some f -> Forall2 done l l' -> all v k l (flat_map (filled f) l').
  Proof.
    intros C. induction 1 as [|x x' l l' H _ IH]; [constructor|]. cbn [flat_map]. unfold filled at 1. destruct (f x') as [new|] eqn:F.
    - apply all_stands; [apply (chooses_spec k f x x' new C (proj1 H)); exact F|exact IH].
    - cbn [app]. apply all_keep; [|exact (proj2 H)|exact IH]. intros new S. apply (chooses_spec k f x x' new C (proj1 H)) in S. congruence.
  Qed.
  Lemma all_kept k l l' : chooses k = None -> Forall2 done l l' -> all v k l l'.
  Proof. intros C. induction 1 as [|x x' l l' H _ IH]; [constructor|]. apply all_keep; [|exact (proj2 H)|exact IH]. intros new S. destruct S; discriminate C. Qed.

  Lemma visit_done t : exists t', done t t'.
  Proof.
    induction t as [k x|k items rest HI HR] using tree_all.
    - destruct k; [| | |exists (Leaf LWord x); split; [reflexivity|constructor; left; reflexivity]]; (eexists; split; [reflexivity|]; destruct (text_eqb x (lit "$componentName")) eqn:E; [apply text_eqb_spec in E; subst x; constructor; discriminate|constructor; right; apply lit_neq; exact E]).
    - destruct (together_done items HI) as (i & TI & FI). destruct (together_done rest HR) as (r & TR & FR). unfold done. cbn [TemplateModel.visit]. rewrite TI, TR.
      assert (N : forall k' f, k = k' -> chooses k = Some f -> becomes (Node k items rest) (Node k (flat_map (filled f) i) r)).
      { intros k' f E C. apply becomes_node; [intros X; injection X as -> _ _; discriminate C|apply all_chosen; assumption|apply each_done; exact FR]. }
      assert (M : chooses k = None -> Node k items rest <> jsx_place -> becomes (Node k items rest) (Node k i r)) by (intros C X; apply becomes_node; [exact X|apply all_kept; assumption|apply each_done; exact FR]).
      destruct k; try (rewrite splice_spec; eexists; split; [reflexivity|]; exact (N _ _ eq_refl eq_refl)); try (eexists; split; [reflexivity|]; apply M; [reflexivity|discriminate]).
      eexists. split; [reflexivity|]. assert (D : {Node KExpr items rest = jsx_place} + {Node KExpr items rest <> jsx_place}).
      { destruct items as [|? ?]; [|right; discriminate]. destruct rest as [|[[]|] [|]]; try (right; discriminate). destruct (text_eq_dec t (lit "$jsx")) as [-> |X]; [left; reflexivity|right]. intros Y. injection Y as Y. exact (X Y). }
      destruct D as [D|D].
      + injection D as -> ->. cbn in TI, TR. injection TI as <-. injection TR as <-. cbn. apply becomes_jsx.
      + assert (J : jsx_in v i r = Node KExpr i r); [|rewrite J; apply M; [reflexivity|exact D]].
        unfold jsx_in. destruct i as [|? ?]; [|reflexivity]. destruct r as [|[[]|] [|]]; try reflexivity. destruct (text_eqb t (lit "$jsx")) eqn:E; [|reflexivity]. exfalso. apply text_eqb_spec in E. subst t.
        apply together_nil in TI. apply together_one in TR. destruct TR as (z & -> & Z). apply (visit_leaf z LIdent) in Z. subst items z. exact (D eq_refl).
  Qed.

  Lemma stands_one k x a b : stands v k x a -> stands v k x b -> a = b.
  Proof. intros H K. destruct H; inversion K; reflexivity. Qed.
  Lemma becomes_one t : forall a b, becomes t a -> becomes t b -> a = b.
  Proof.
    induction t as [k x|k items rest HI HR] using tree_all; intros a b A B.
    - inversion A as [k1 N1 E1|k1 x1 N1 E1|E1|]; inversion B as [k2 N2 E2|k2 x2 N2 E2|E2|]; subst; try reflexivity; try congruence; try (destruct N1; congruence); try (destruct N2; congruence).
    - assert (E : forall l, Forall (fun t => forall a b, becomes t a -> becomes t b -> a = b) l -> forall a b, each v l a -> each v l b -> a = b).
      { induction 1 as [|x l X _ IH]; intros a0 b0 A0 B0; inversion A0; inversion B0; subst; [reflexivity|]. f_equal; [apply X; assumption|apply IH; assumption]. }
      assert (L : forall l, Forall (fun t => forall a b, becomes t a -> becomes t b -> a = b) l -> forall a b, all v k l a -> all v k l b -> a = b).
      { induction 1 as [|x l X _ IH]; intros a0 b0 A0 B0; inversion A0 as [|? ? n1 ? l1 S1 R1|? ? y1 ? l1 S1 Y1 R1]; inversion B0 as [|? ? n2 ? l2 S2 R2|? ? y2 ? l2 S2 Y2 R2]; subst; try reflexivity.
        - rewrite (stands_one k x n1 n2 S1 S2), (IH l1 l2 R1 R2). reflexivity.
        - destruct (S2 n1 S1).
        - destruct (S1 n2 S2).
        - rewrite (X y1 y2 Y1 Y2), (IH l1 l2 R1 R2). reflexivity. }
      inversion A as [| |E1|k1 i1 r1 i1' r1' N1 I1 R1]; inversion B as [| |E2|k2 i2 r2 i2' r2' N2 I2 R2]; subst; try reflexivity.
      + destruct (N2 eq_refl).
      + destruct (N1 eq_refl).
      + rewrite (L items HI i1' i2' I1 I2), (E rest HR r1' r2' R1 R2). reflexivity.
  Qed.
  Lemma visit_spec t t' : visit t = Some t' <-> becomes t t'.
  Proof.
    destruct (visit_done t) as (u & V & B). split.
    - intros H. rewrite V in H. injection H as <-. exact B.
    - intros H. rewrite (becomes_one t t' u H B). exact V.
  Qed.
End Visit.

(** A template without placeholders. *)
Definition any (w : text) (l : list tree) : Prop := exists x, In x l /\ occurs w x.
Lemma occurs_node w k items rest : occurs w (Node k items rest) <-> any w items \/ any w rest.
Proof.
  assert (A : forall l, (fix any (l : list tree) : Prop := match l with [] => False | x :: l => occurs w x \/ any l end) l <-> any w l).
  { induction l as [|x l IH]; [split; [intros []|intros (x & [] & _)]|]. rewrite IH. split.
    - intros [H|(y & Y & H)]; [exists x; split; [left; reflexivity|exact H]|exists y; split; [right; exact Y|exact H]].
    - intros (y & [-> |Y] & H); [left; exact H|right; exists y; split; assumption]. }
  cbn [occurs]. rewrite !A. reflexivity.
Qed.
Lemma becomes_self v t : (forall w, In w placeholders -> ~ occurs w t) -> becomes v t t.
Proof.
  induction t as [k x|k items rest HI HR] using tree_all; intros H.
  - constructor. destruct k; [right|right|right|left; reflexivity]; intros ->; apply (H (lit "$componentName")); cbn; auto.
  - assert (E : forall l, Forall (fun t => (forall w, In w placeholders -> ~ occurs w t) -> becomes v t t) l -> (forall w, In w placeholders -> ~ any w l) -> Forall (fun x => becomes v x x /\ forall w, In w placeholders -> ~ occurs w x) l).
    { intros l F N. apply Forall_forall. intros x X. rewrite Forall_forall in F. assert (O : forall w, In w placeholders -> ~ occurs w x) by (intros w W O; apply (N w W); exists x; split; assumption). split; [apply F; assumption|exact O]. }
    assert (EI := E items HI (fun w W X => H w W (proj2 (occurs_node w k items rest) (or_introl X)))). assert (ER := E rest HR (fun w W X => H w W (proj2 (occurs_node w k items rest) (or_intror X)))). clear E.
    apply becomes_node.
    + intros X. apply (H (lit "$jsx")); [cbn; auto|]. rewrite X. apply occurs_node. right. eexists. split; [left; reflexivity|]. reflexivity.
    + clear -EI. induction EI as [|x l [X N] _ IH]; [constructor|]. apply all_keep; [|exact X|exact IH]. intros new S. destruct S;
      [apply (N (lit "$props"))|apply (N (lit "$props"))|apply (N (lit "$props"))|apply (N (lit "$imports"))|apply (N (lit "$interfaces"))|apply (N (lit "$exports"))]; cbn; auto 10.
    + clear -ER. induction ER as [|x l [X N] _ IH]; constructor; assumption.
Qed.
Lemma visit_self v t : proper v -> (forall w, In w placeholders -> ~ occurs w t) -> visit v t = Some t.
Proof. intros P H. apply visit_spec; [exact P|]. apply becomes_self. exact H. Qed.
