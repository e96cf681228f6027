From Coq Require Import String List NArith ZArith Bool Lia Arith.
From Verif Require Import Chars NameModel AttrTable ElemModel TextModel ParseModel ListModel ScriptModel PruneModel PruneSpec DeprecatedModel MatcherModel MatcherSpec MatcherProofs MatcherProofs2 MatcherProofs3 MatcherProofs4 MatcherProofs5 MatcherProofs6 BareModel BareSpec BareProofs.
Import ListNotations.

(** ** Lists without some entries *)
Lemma without_filter {A} (P : A -> Prop) f (l : list A) : (forall x, In x l -> (f x = false <-> P x)) -> without P l (filter f l).
Proof.
  induction l as [|x l IH]; intros H; [constructor|]. cbn. assert (Hx := H x (or_introl eq_refl)). destruct (f x).
  - apply without_keep; [|apply IH; intros y Hy; apply H; right; exact Hy]. intros C. apply Hx in C. discriminate.
  - apply without_drop; [apply Hx; reflexivity|]. apply IH. intros y Hy. apply H. right. exact Hy.
Qed.
Lemma without_fun {A} (P : A -> Prop) l m1 : without P l m1 -> forall m2, without P l m2 -> m1 = m2.
Proof.
  induction 1 as [|x l m Hx H IH|x l m Hx H IH]; intros m2 H2; inversion H2; subst; try contradiction; try reflexivity; [apply IH; assumption|f_equal; apply IH; assumption].
Qed.
Lemma without_all {A} (P : A -> Prop) (l : list A) : (forall x, In x l -> ~ P x) -> without P l l.
Proof. induction l as [|x l IH]; intros H; [constructor|]. apply without_keep; [apply H; left; reflexivity|apply IH; intros y Hy; apply H; right; exact Hy]. Qed.
Lemma without_in {A} (P : A -> Prop) l m : without P l m -> forall x, In x m -> In x l.
Proof. induction 1 as [|x l m Hx H IH|x l m Hx H IH]; intros y Hy; [exact Hy|right; apply IH, Hy|]. destruct Hy as [-> |Hy]; [left; reflexivity|right; apply IH, Hy]. Qed.
Lemma without_nodup {A B} (P : A -> Prop) (f : A -> B) l m : without P l m -> NoDup (map f l) -> NoDup (map f m).
Proof.
  induction 1 as [|x l m Hx H IH|x l m Hx H IH]; intros N; cbn in *; [constructor|apply IH; inversion N; assumption|]. inversion N; subst. constructor; [|apply IH; assumption].
  intros C. apply H2. apply in_map_iff in C. destruct C as (y & E & Hy). apply in_map_iff. exists y. split; [exact E|apply (without_in _ _ _ H), Hy].
Qed.
Lemma without_ext {A} (P Q : A -> Prop) l m : (forall x, In x l -> (P x <-> Q x)) -> without P l m -> without Q l m.
Proof.
  intros E H. induction H as [|x l m Hx H IH|x l m Hx H IH]; [constructor| |].
  - apply without_drop; [apply E; [left; reflexivity|exact Hx]|apply IH; intros y Hy; apply E; right; exact Hy].
  - apply without_keep; [intros C; apply Hx, E; [left; reflexivity|exact C]|apply IH; intros y Hy; apply E; right; exact Hy].
Qed.

(** ** One item *)
Lemma stays_iff names a v : match a with ABase _ => True | AAliased _ _ => False end -> (stays names (a, v) = false <-> In (qualified a) names).
Proof.
  intros A. destruct a as [b|]; [|destruct A]. unfold stays. cbn [fst id_unaliased]. rewrite negb_false_iff, existsb_exists. unfold qualified, name_text, id_prefix, id_local, id_unaliased.
  change (lit ":") with [58%N]. cbn [app]. split.
  - intros (x & Hx & E). apply text_eqb_spec in E. rewrite <- E in Hx. exact Hx.
  - intros H. eexists. split; [exact H|]. apply text_eqb_spec. reflexivity.
Qed.
Lemma near_less d0 names S d P : usual_prefixes d0 -> near d0 names S d -> (forall p a v, element_in d0 p -> attr_somewhere d0 a v -> (P p (a, v) <-> S p = true /\ In (qualified a) names)) -> less P d0 d.
Proof.
  intros UP [_ H] E. split; [|split].
  - intros p t. split; intros X; apply in_look in X; apply look_in; specialize (H p); rewrite X in H.
    + destruct (look d0 p) as [[e a k|u|]|]; try contradiction. cbn in H. subst u. reflexivity.
    + destruct (look d p) as [[e a k|u|]|]; try contradiction. cbn in H. subst u. reflexivity.
  - intros p. split; intros X; apply in_look in X; apply look_in; specialize (H p); rewrite X in H.
    + destruct (look d0 p) as [[e a k|u|]|]; try contradiction. reflexivity.
    + destruct (look d p) as [[e a k|u|]|]; try contradiction. reflexivity.
  - assert (W : forall p e a k, node_in d0 p (TElem e a k) -> without (P p) a (if S p then filter (stays names) a else a)).
    { intros p e a k X. assert (Hp : element_in d0 p) by (exists e, a, k; exact X). assert (Ha : forall x v, In (x, v) a -> attr_somewhere d0 x v) by (intros x v Hx; exists p, e, a; split; [exists k; exact X|exact Hx]).
      destruct (S p) eqn:Sp.
      - apply without_filter. intros [x v] Hx. rewrite (E p x v Hp (Ha x v Hx)), Sp. rewrite (stays_iff names x v (UP x v (Ha x v Hx))). tauto.
      - apply without_all. intros [x v] Hx C. apply (E p x v Hp (Ha x v Hx)) in C. rewrite Sp in C. destruct C. discriminate. }
    intros p e attrs'. split.
    + intros (k & X). apply in_look in X. specialize (H p). rewrite X in H. destruct (look d0 p) as [[e0 a0 k0|u|]|] eqn:L; try contradiction. cbn in H. destruct H as (-> & -> & _).
      apply look_in in L. exists a0. split; [exists k0; exact L|apply (W p e0 a0 k0 L)].
    + intros (attrs & (k & X) & Wi). assert (X' := in_look _ _ _ X). specialize (H p). rewrite X' in H. destruct (look d p) as [[e0 a0 k0|u|]|] eqn:L; try contradiction. cbn in H. destruct H as (-> & -> & _).
      rewrite (without_fun _ _ _ Wi _ (W p e attrs k X)). exists k0. apply look_in, L.
Qed.
Lemma loop_ok d0 show opaque scope_at sel names : usual_doc d0 -> usual_prefixes d0 -> all_plain d0 show sel -> local_only names sel ->
  Forall (allowed d0 show opaque (Some scope_at) (Some [])) (components sel) ->
  forall l d S cs, NoDup l -> (forall p, In p l -> is_elem d0 p = true /\ S p = false) -> near d0 names S d -> caches_ok d0 opaque cs ->
  exists S', near d0 names S' (strip_loop show opaque scope_at sel names l d cs) /\ forall p, S' p = true <-> S p = true \/ (In p l /\ selects d0 (Some []) sel p).
Proof.
  intros U UP P M A. induction l as [|p l IH]; intros d S cs ND Hl Hn Ok.
  - exists S. split; [exact Hn|]. intros p. cbn. tauto.
  - inversion ND as [|? ? Np ND']; subst. destruct (Hl p (or_introl eq_refl)) as [Hp Sp]. cbn [strip_loop].
    rewrite (eval_list_near d0 names S d Hn U UP show opaque (Some scope_at) sel p P M Sp cs).
    destruct (list_good d0 show opaque (Some scope_at) (Some []) U sel A p cs Hp Ok) as [G1 G2].
    destruct (eval_list d0 show opaque (Some scope_at) sel p cs) as [b cs']. cbn [fst snd] in G1, G2. destruct b.
    + destruct (IH (strip_at d names p) (fun q => place_eqb p q || S q) cs' ND') as (S' & N' & E').
      * intros q Hq. destruct (Hl q (or_intror Hq)) as [H1 H2]. split; [exact H1|]. apply orb_false_iff. split; [|exact H2].
        destruct (place_eqb p q) eqn:E; [|reflexivity]. apply place_eqb_iff in E. subst q. contradiction.
      * apply near_step; [exact Hn|exact Sp].
      * exact G2.
      * exists S'. split; [exact N'|]. intros q. rewrite E', orb_true_iff, place_eqb_iff. cbn [In]. split.
        -- intros [[-> |H]|[H1 H2]]; [right; split; [left; reflexivity|apply G1; reflexivity]|left; exact H|right; split; [right; exact H1|exact H2]].
        -- intros [H|[[-> |H1] H2]]; [left; right; exact H|left; left; reflexivity|right; split; assumption].
    + destruct (IH d S cs' ND') as (S' & N' & E').
      * intros q Hq. apply Hl. right. exact Hq.
      * exact Hn.
      * exact G2.
      * exists S'. split; [exact N'|]. intros q. rewrite E'. cbn [In]. split; [intros [H|[H1 H2]]; [left; exact H|right; split; [right; exact H1|exact H2]]|].
        intros [H|[[-> |H1] H2]]; [left; exact H|apply G1 in H2; discriminate|right; split; assumption].
Qed.
Definition tellable (d : list tnode) opaque (scope_at : N) (sel : list complex) : Prop := none_counting sel \/ (told_apart d opaque /\ scope_at = opaque []).
Lemma item_ok d show opaque scope_at sel names : usual_doc d -> usual_prefixes d -> all_plain d show sel -> local_only names sel -> tellable d opaque scope_at sel ->
  less (asked_for d sel names) d (strip_loop show opaque scope_at sel names (breadth_first d []) d no_caches).
Proof.
  intros U UP P M C.
  assert (A : Forall (allowed d show opaque (Some scope_at) (Some [])) (components sel)) by (apply allowed_all; [exact P|exact C]).
  destruct (loop_ok d show opaque scope_at sel names U UP P M A (breadth_first d []) d (fun _ => false) no_caches) as (S' & N' & E').
  - apply breadth_first_nodup.
  - intros p Hp. split; [apply breadth_first_in in Hp; apply element_iff; apply Hp|reflexivity].
  - apply near_refl.
  - intros t f q i _ H. discriminate.
  - apply (near_less d names S' _ _ UP N'). intros p a v Hp Ha. unfold asked_for. cbn [fst]. rewrite E'. split.
    + intros [H1 H2]. split; [|exact H2]. right. split; [|exact H1]. apply breadth_first_in. split; [exact Hp|]. exists p. split; [|rewrite app_nil_r; reflexivity].
      intros ->. destruct Hp as (e & b & k & X). inversion X.
    + intros [[H|[_ H]] H2]; [discriminate|split; assumption].
Qed.

(** ** Items in a row *)
Lemma less_attr P d d' a v : less P d d' -> attr_somewhere d' a v -> attr_somewhere d a v.
Proof. intros (_ & _ & H) (p & e & at_ & X & Hin). apply H in X. destruct X as (at0 & X & W). exists p, e, at0. split; [exact X|apply (without_in _ _ _ W), Hin]. Qed.
Lemma less_element P d d' p : less P d d' -> element_in d' p -> element_in d p.
Proof. intros (_ & _ & H) (e & a & X). apply H in X. destruct X as (a0 & X & _). exists e, a0. exact X. Qed.
Lemma less_usual P d d' : less P d d' -> usual_doc d -> usual_doc d'.
Proof.
  intros L [R U]. split; [intros i j Hi Hj; apply R; apply (less_element P d d' _ L); assumption|]. intros p e attrs X. destruct L as (_ & _ & H). apply H in X. destruct X as (a0 & X & W).
  destruct (U p e a0 X) as (U1 & U2 & U3). split; [exact U1|]. split; [apply (without_nodup _ _ _ _ W U2)|]. intros a v Hin. apply U3, (without_in _ _ _ W), Hin.
Qed.
Lemma less_prefixes P d d' : less P d d' -> usual_prefixes d -> usual_prefixes d'.
Proof. intros L U a v H. apply (U a v), (less_attr P d d' a v L H). Qed.
Lemma less_plain P d d' show s : less P d d' -> plain d show s -> plain d' show s.
Proof.
  intros L. induction s as [s N|c IH] using simple_induct; intros H.
  - destruct s; try exact H; try (exfalso; eapply N; reflexivity).
    + destruct H as (H1 & H2 & H3 & H4). split; [exact H1|]. split; [intros a v Ha; apply H2, (less_attr P d d' a v L Ha)|]. split; [|exact H4]. intros A a v Ha. exact (H3 A a v (less_attr P d d' a v L Ha)).
    + cbn [plain] in *. intros p n X. destruct n as [e a k|t|]; [exact Logic.I| |].
      * apply (proj1 L) in X. exact (H p _ X).
      * apply (proj1 (proj2 L)) in X. exact (H p _ X).
  - cbn [plain] in *. induction IH as [|s c Hs IH IHc]; [exact Logic.I|]. destruct H as [H1 H2]. split; [apply Hs, H1|apply IHc, H2].
Qed.
Definition item_fine (d : list tnode) show opaque scope_at (i : list complex * list text) : Prop := all_plain d show (fst i) /\ local_only (snd i) (fst i) /\ tellable d opaque scope_at (fst i).
Lemma run_ok show opaque scope_at items : forall d, usual_doc d -> usual_prefixes d -> Forall (item_fine d show opaque scope_at) items -> exists d', run show opaque scope_at items d = (d', false) /\ stages items d d'.
Proof.
  induction items as [|[sel names] items IH]; intros d U UP F; [exists d; split; [reflexivity|constructor]|]. apply Forall_cons_iff in F. destruct F as [(P & M & C) F]. cbn [fst snd] in P, M, C.
  cbn [run]. rewrite (all_readable d show sel P). assert (L := item_ok d show opaque scope_at sel names U UP P M C). set (d1 := strip_loop _ _ _ _ _ _ _ _) in *.
  destruct (IH d1 (less_usual _ _ _ L U) (less_prefixes _ _ _ L UP)) as (d' & E & St).
  - apply Forall_forall. intros i Hi. rewrite Forall_forall in F. destruct (F i Hi) as (F1 & F2 & F3). split; [|split; [exact F2|exact F3]].
    unfold all_plain in *. rewrite Forall_forall in *. intros s Hs. apply (less_plain _ _ _ show s L), F1, Hs.
  - exists d'. split; [exact E|]. econstructor; eassumption.
Qed.
Lemma run_fails show opaque scope_at items : forall d, snd (run show opaque scope_at items d) = true <-> List.Exists (fun i => readable_list (fst i) = false) items.
Proof.
  induction items as [|[sel names] items IH]; intros d; [split; [discriminate|intros H; inversion H]|]. cbn [run]. destruct (readable_list sel) eqn:E.
  - rewrite IH. split; [intros H; apply List.Exists_cons_tl, H|intros H; apply List.Exists_cons in H; destruct H as [H|H]; [cbn [fst] in H; rewrite H in E; discriminate|exact H]].
  - split; [intros _; apply List.Exists_cons_hd; exact E|reflexivity].
Qed.

(** ** Examples *)
(** [#a, svg > .b] without [class] and [id]. *)
Definition bare_selector : list complex := [mkComplex [SId (lit "a")] []; mkComplex [SType (lit "rect")] [(Child, [SType (lit "svg")])]].
Definition bare_names : list text := [lit "class"; lit "id"].
Lemma sample_prefixes : usual_prefixes sample.
Proof.
  intros a v (p & e & attrs & (k & X) & Hin).
  assert (E : every_in (fun n => match n with TElem _ at_ _ => Forall (fun a => match fst a with ABase _ => True | AAliased _ _ => False end) at_ | _ => True end) sample).
  { unfold sample, el. cbn [every_in every map fst snd]. rewrite (proj1 (el_ids 0)), (proj2 (el_ids 0)). cbn. repeat split; repeat constructor. }
  apply every_at with (p := p) (n := TElem e attrs k) in E; [|exact X]. apply every_here in E. rewrite Forall_forall in E. apply (E (a, v) Hin).
Qed.
Lemma bare_fine opaque : item_fine sample show_class opaque 0%N (bare_selector, bare_names).
Proof.
  split; [|split].
  - unfold all_plain, bare_selector, components. cbn [fst flat_map app c_last c_rest snd]. repeat constructor.
  - unfold local_only, bare_selector. cbn [fst snd]. repeat constructor. intros [].
  - left. unfold none_counting, bare_selector, components. cbn [fst flat_map app c_last c_rest snd]. repeat constructor.
Qed.
Lemma bare_result opaque : run show_class opaque 0%N [(bare_selector, bare_names)] sample = ([el "svg" [] [el "g" [] []; el "rect" [] []; el "rect" [] []]], false).
Proof. vm_compute. reflexivity. Qed.

(** [<g fill="red"><rect fill="red"/></g>] and [g, :not([fill]) > rect] without [fill]: the rectangle is not selected, but it is when the group has lost its fill. *)
Definition lazy_doc : list tnode := [el "g" [("fill", "red")]%string [el "rect" [("fill", "red")]%string []]].
Definition lazy_selector : list complex := [mkComplex [SType (lit "g")] []; mkComplex [SType (lit "rect")] [(Child, [SNot [SAttr false (lit "fill") None]])]].
Lemma lazy_refuted : exists d sel names p e a, usual_prefixes d /\ element_at d p e a /\ ~ selects d (Some []) sel p /\ forall opaque scope_at, exists d', run show_class opaque scope_at [(sel, names)] d = (d', false) /\ ~ element_at d' p e a.
Proof.
  set (e := elem_new (PKnown SVG) (lit "rect")). set (a := [(parse_attr_id e (PKnown SVG) (lit "fill"), lit "red")]).
  exists lazy_doc, lazy_selector, [lit "fill"], [0; 0], e, a.
  assert (H : element_at lazy_doc [0; 0] e a) by (exists []; apply look_in; reflexivity).
  assert (G : element_at lazy_doc [0] (elem_new (PKnown SVG) (lit "g")) [(parse_attr_id (elem_new (PKnown SVG) (lit "g")) (PKnown SVG) (lit "fill"), lit "red")]) by (eexists; apply look_in; reflexivity).
  split; [|split; [exact H|split]].
  - intros x v (p & f & attrs & (k & X) & Hin).
    assert (E : every_in (fun n => match n with TElem _ at_ _ => Forall (fun a => match fst a with ABase _ => True | AAliased _ _ => False end) at_ | _ => True end) lazy_doc).
    { assert (F1 : match parse_attr_id (elem_new (PKnown SVG) (lit "g")) (PKnown SVG) (lit "fill") with ABase _ => True | AAliased _ _ => False end) by (vm_compute; exact Logic.I).
      assert (F2 : match parse_attr_id (elem_new (PKnown SVG) (lit "rect")) (PKnown SVG) (lit "fill") with ABase _ => True | AAliased _ _ => False end) by (vm_compute; exact Logic.I).
      unfold lazy_doc, el. cbn [every_in every map fst snd]. split; [|exact Logic.I]. split; [apply Forall_cons; [exact F1|apply Forall_nil]|]. split; [|exact Logic.I]. split; [apply Forall_cons; [exact F2|apply Forall_nil]|exact Logic.I]. }
    apply every_at with (p := p) (n := TElem f attrs k) in E; [|exact X]. apply every_here in E. rewrite Forall_forall in E. apply (E (x, v) Hin).
  - intros C. apply List.Exists_cons in C. destruct C as [C1|C].
    + destruct C1 as [F _]. apply Forall_inv in F. destruct F as (f & b & F1 & F2). destruct (at_fun lazy_doc _ _ _ _ _ H F1) as [Ef _]. rewrite <- Ef in F2. vm_compute in F2. discriminate.
    + apply List.Exists_cons in C. destruct C as [C2|C]; [|inversion C]. destruct C2 as [_ (q & _ & (i & Q) & F & _)]. injection Q as <- <-. apply Forall_inv in F. apply F. split; [|exact Logic.I].
      eexists _, _, _, _. split; [exact G|]. split; [left; reflexivity|]. split; [right; vm_compute; reflexivity|]. split; [vm_compute; reflexivity|exact Logic.I].
  - intros opaque scope_at. eexists. split; [vm_compute; reflexivity|]. intros (k & X). apply in_look in X. vm_compute in X. discriminate.
Qed.
(** [xl:href] with [xmlns:xl] bound to the namespace of XLink. *)
Definition aliased_attr : attr_id := parse_attr_id (elem_new (PKnown SVG) (lit "use")) (PAliased (PKnown XLink) (Some (lit "xl"))) (lit "href").
Definition aliased_doc : list tnode := [TElem (elem_new (PKnown SVG) (lit "use")) [(aliased_attr, lit "#a")] []].
Lemma alias_refuted : qualified aliased_attr = lit "xl:href" /\ selects aliased_doc (Some []) (one [SAny]) [0] /\ forall opaque scope_at,
  run show_class opaque scope_at [(one [SAny], [lit "xl:href"])] aliased_doc = (aliased_doc, false) /\
  exists d', run show_class opaque scope_at [(one [SAny], [lit "xlink:href"])] aliased_doc = (d', false) /\ d' <> aliased_doc.
Proof.
  split; [vm_compute; reflexivity|]. split; [apply one_means; exact Logic.I|]. intros opaque scope_at. split; [vm_compute; reflexivity|]. eexists. split; [vm_compute; reflexivity|].
  intros C. apply (f_equal (fun l => match l with [TElem _ a _] => List.length a | _ => 0 end)) in C. vm_compute in C. discriminate.
Qed.
Lemma half_refuted : exists items d, forall opaque scope_at, snd (run show_class opaque scope_at items d) = true /\ fst (run show_class opaque scope_at items d) <> d.
Proof.
  exists [(bare_selector, bare_names); (one [SPseudo (lit "hover")], [])], sample. intros opaque scope_at. split; [vm_compute; reflexivity|].
  intros C. apply (f_equal (fun l => match l with [TElem _ _ (TElem _ a _ :: _)] => List.length a | _ => 0 end)) in C. vm_compute in C. discriminate.
Qed.
