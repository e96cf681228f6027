From Coq Require Import String List NArith ZArith QArith Bool Lia.
From Verif Require Import Chars NameModel AttrTable ElemModel TextModel JsxNamesModel JsxModel JsxSpec JsxProofs PresetModel PresetSpec PresetProofs PresetProofs2.
Import ListNotations.

Inductive bare : jsx -> Prop :=
| b_element n a sc kids cl : no_spread a -> Forall bare kids -> bare (JElement n a sc kids cl)
| b_fragment kids : Forall bare kids -> bare (JFragment kids)
| b_text t : bare (JText t)
| b_empty : bare JEmpty.
Lemma to_jsx_bare uni camel n : bare (to_jsx uni camel n).
Proof.
  induction n as [kids IH|e a kids IH|[t|]|t|[t|]|t] using xnode_all; cbn [to_jsx]; try constructor.
  - assert (F : Forall bare (flat_map (fun k => if in_document k then [to_jsx uni camel k] else []) kids)).
    { induction IH as [|k l C F IH]; cbn [flat_map]; [constructor|]. destruct (in_document k); [cbn [app]; constructor; [exact C|exact IH]|exact IH]. }
    destruct (flat_map _ kids) as [|j [|j' l]]; [constructor; exact F|inversion F; assumption|constructor; exact F].
  - destruct (negb (prefix_is_empty (elem_prefix e))); [constructor|]. constructor; [|apply Forall_map, IH].
    unfold attrs_to_jsx. generalize (if elem_is e (lit "Svg") then filter (fun a => negb (is_xmlns a)) a else a). intros l. unfold no_spread.
    induction l as [|x l IHl]; cbn [flat_map]; [constructor|]. apply Forall_app. split; [|exact IHl]. unfold attr_to_jsx. destruct (jsx_name uni (fst x)); repeat constructor.
Qed.
Definition QT : list jattr -> list jsx -> Prop := fun _ _ => True.
Definition QN : list jattr -> list jsx -> Prop := fun a _ => no_spread a.
Definition QD : list jattr -> list jsx -> Prop := fun a kids => no_spread a /\ Forall (lacks (lit "title")) kids /\ Forall (lacks (lit "svg")) kids.
Lemma bare_quiet name (Q : list jattr -> list jsx -> Prop) j : (forall a kids, no_spread a -> Q a kids) -> bare j -> quiet name Q j.
Proof.
  intros H. induction j as [n a sc kids cl IH|kids IH|t| |x|u x yes no IHy IHn] using jsx_all; intros B; inversion B as [? ? ? ? ? N K|? K| |]; subst; constructor.
  - intros _. apply H, N.
  - clear B. induction IH; inversion K; subst; constructor; auto.
  - clear B. induction IH; inversion K; subst; constructor; auto.
Qed.
Lemma elems_dom s j : forall l e, bare j -> render s j = Some l -> In e (jelems j) ->
  exists n a sc kids cl ks, e = JElement n a sc kids cl /\ seq (map (render s) kids) = Some ks /\ In (DElem n (eval_attrs s a) ks) (flat_map elems l) /\ no_spread a /\ Forall bare kids.
Proof.
  assert (K : forall kids, Forall (fun j => forall l e, bare j -> render s j = Some l -> In e (jelems j) ->
     exists n a sc kids cl ks, e = JElement n a sc kids cl /\ seq (map (render s) kids) = Some ks /\ In (DElem n (eval_attrs s a) ks) (flat_map elems l) /\ no_spread a /\ Forall bare kids) kids ->
     forall l e, Forall bare kids -> seq (map (render s) kids) = Some l -> In e (flat_map jelems kids) ->
     exists n a sc kids cl ks, e = JElement n a sc kids cl /\ seq (map (render s) kids) = Some ks /\ In (DElem n (eval_attrs s a) ks) (flat_map elems l) /\ no_spread a /\ Forall bare kids).
  { clear. induction 1 as [|k r H F IH]; intros l e B E I; [destruct I|]. cbn [map seq] in E. destruct (render s k) as [x|] eqn:R; [|discriminate].
    destruct (seq (map (render s) r)) as [y|] eqn:S; [|discriminate]. injection E as <-. inversion B as [|? ? B1 B2]; subst. cbn [flat_map] in I. apply in_app_iff in I.
    destruct I as [I|I].
    - destruct (H x e B1 eq_refl I) as (n & a & sc & kids & cl & ks & E1 & E2 & E3 & E4). exists n, a, sc, kids, cl, ks. split; [exact E1|]. split; [exact E2|]. split; [|exact E4].
      rewrite flat_map_app. apply in_app_iff. auto.
    - destruct (IH y e B2 eq_refl I) as (n & a & sc & kids & cl & ks & E1 & E2 & E3 & E4). exists n, a, sc, kids, cl, ks. split; [exact E1|]. split; [exact E2|]. split; [|exact E4].
      rewrite flat_map_app. apply in_app_iff. auto. }
  induction j as [n a sc kids cl IH|kids IH|t| |x|u x yes no IHy IHn] using jsx_all; intros l e B R I; inversion B as [? ? ? ? ? N KB|? KB| |]; subst; try (destruct I; fail).
  - apply element_render in R. destruct R as (ks & KS & -> & _). cbn [flat_map elems]. rewrite app_nil_r. cbn [jelems] in I. destruct I as [<-|I].
    + exists n, a, sc, kids, cl, ks. split; [reflexivity|]. split; [exact KS|]. split; [left; reflexivity|]. split; [exact N|exact KB].
    + destruct (K kids IH ks e KB KS I) as (n' & a' & sc' & kids' & cl' & ks' & E1 & E2 & E3 & E4). exists n', a', sc', kids', cl', ks'.
      split; [exact E1|]. split; [exact E2|]. split; [right; exact E3|exact E4].
  - cbn [render] in R. destruct (apart kids); [|discriminate]. apply (K kids IH l e KB R I).
Qed.
Lemma without_lacks s name kids ks : Forall bare kids -> seq (map (render s) kids) = Some ks -> without name ks -> Forall (lacks name) kids.
Proof.
  intros B S W. apply Forall_forall. intros k K e I. apply in_split in K. destruct K as (x & y & ->). apply seq_mid in S. destruct S as (l1 & l2 & l3 & _ & R & _ & ->).
  apply Forall_app in B. destruct B as [_ B]. inversion B as [|? ? B1 _]; subst. destruct (elems_dom s k l2 e B1 R I) as (n & a & sc & kids & cl & ks & -> & _ & X & _).
  cbn [jname]. intros ->. apply (W (DElem name (eval_attrs s a) ks)); [|reflexivity]. rewrite !flat_map_app, !in_app_iff. auto.
Qed.
Lemma simple_quiet s j l : bare j -> render s j = Some l -> simple_desc l -> quiet (lit "desc") QD j.
Proof.
  intros B R S. assert (H : forall a sc kids cl, In (JElement (lit "desc") a sc kids cl) (jelems j) -> QD a kids).
  { intros a sc kids cl I. destruct (elems_dom s j l _ B R I) as (n & a' & sc' & kids' & cl' & ks & E & KS & X & N & KB). injection E as <- <- <- <- <-.
    destruct (S _ _ X) as [W1 W2]. split; [exact N|]. split; eapply without_lacks; eauto. }
  clear R S l. induction j as [n a sc kids cl IH|kids IH|t| |x|u x yes no IHy IHn] using jsx_all; inversion B as [? ? ? ? ? N K|? K| |]; subst; constructor.
  - intros ->. apply (H a sc kids cl). left. reflexivity.
  - clear N B. apply Forall_forall. intros k I. apply (proj1 (Forall_forall _ _) IH k I); [apply (proj1 (Forall_forall _ _) K k I)|].
    intros a' sc' kids' cl' X. apply (H a' sc' kids' cl'). cbn [jelems]. right. apply in_flat_map. eauto.
  - apply Forall_forall. intros k I. apply (proj1 (Forall_forall _ _) IH k I); [apply (proj1 (Forall_forall _ _) K k I)|].
    intros a' sc' kids' cl' X. apply (H a' sc' kids' cl'). cbn [jelems]. apply in_flat_map. eauto.
Qed.

(** ** The changes *)
Lemma change_good s o vs : good_change s (lit "svg") QN (change_svg o vs) (svg_changed s o (jval s vs)).
Proof.
  intros a sc kids cl d N R. apply element_render in R. destruct R as (ks & KS & E & AP & IN & CL). injection E as ->. cbn [change_svg].
  eexists. split; [apply render_element; [exact KS|exact AP|exact IN|exact CL]|]. split; [|reflexivity].
  exists (lit "svg"), (eval_attrs s a), ks, (eval_attrs s (svg_attrs o vs a)). split; [reflexivity|]. split; [reflexivity|].
  intros D k. apply svg_value; [exact N|exact D].
Qed.
Lemma or_id_spec s id l x l' : no_spread l -> or_id id l = (x, l') ->
  id_changed s id (eval_attrs s l) (eval_attrs s l') (match x with Some v => eval s v | None => option_map PStr (e_name s id) end).
Proof.
  intros N. revert x l'. induction N as [|[n v|y] l B F IH]; intros x l' E; cbn [or_id] in E; [injection E as <- <-; constructor| |contradiction].
  destruct (text_eqb n (lit "id")) eqn:K.
  - apply text_eqb_spec in K. subst n. injection E as <- <-. cbn [eval_attrs flat_map app eval]. apply id_here.
  - destruct (or_id id l) as [y r]. injection E as <- <-. cbn [eval_attrs flat_map app]. apply id_later; [intros ->; rewrite teq_refl in K; discriminate|]. apply IH. reflexivity.
Qed.
Lemma inserting_render s tag child id : intrinsic tag = true -> render s (inserting tag child id) = Some [DElem tag [(lit "id", eval s id)] (shown_name s child)].
Proof.
  intros T. unfold inserting. rewrite (render_element s tag _ false [JName child] (Some tag) (shown_name s child)); [reflexivity| |reflexivity|rewrite T; reflexivity|reflexivity].
  cbn [map seq render]. rewrite app_nil_r. reflexivity.
Qed.
Lemma conditional_good s (Q : list jattr -> list jsx -> Prop) tag id child : intrinsic tag = true -> (forall a kids, Q a kids -> no_spread a) -> good_change s tag Q (conditional tag id child) (replaced s tag id child).
Proof.
  intros T QI a sc kids cl d N R. apply QI in N. apply element_render in R. destruct R as (ks & KS & E & AP & IN & CL). injection E as ->. cbn [conditional].
  destruct (or_id id a) as [x a'] eqn:O. apply (or_id_spec s) in O; [|exact N].
  exists (match e_name s child with None => [DElem tag (eval_attrs s a') ks] | Some _ => [DElem tag [(lit "id", match x with Some v => eval s v | None => option_map PStr (e_name s id) end)] (shown_name s child)] end).
  split; [|split; [|reflexivity]].
  - change (render s (JWhen true child (JElement tag a' sc kids cl) (Some (inserting tag child (match x with Some v => v | None => JIdent id end))))) with
      (if match e_name s child with None => true | Some _ => false end then render s (JElement tag a' sc kids cl) else render s (inserting tag child (match x with Some v => v | None => JIdent id end))).
    destruct (e_name s child).
    + rewrite inserting_render by exact T. destruct x; reflexivity.
    + apply render_element; [exact KS|exact AP|exact IN|exact CL].
  - eexists. eexists. eexists. eexists. split; [reflexivity|]. split; [exact O|]. reflexivity.
Qed.
Lemma insert_good s tag id child : intrinsic tag = true -> good_change s (lit "svg") QT (insert_first tag id child) (put_first s tag id child).
Proof.
  intros T a sc kids cl d _ R. apply element_render in R. destruct R as (ks & KS & E & AP & IN & CL). injection E as ->. cbn [insert_first].
  eexists. split; [apply render_element; [|exact AP|exact IN|reflexivity]|split; [|reflexivity]].
  - cbn [map seq]. change (render s (JWhen false child (inserting tag child (JIdent id)) None)) with (if truthy (e_name s child) then render s (inserting tag child (JIdent id)) else Some []).
    rewrite inserting_render by exact T. instantiate (1 := (if truthy (e_name s child) then [DElem tag [(lit "id", option_map PStr (e_name s id))] (shown_name s child)] else []) ++ ks).
    destruct (truthy (e_name s child)); rewrite KS; reflexivity.
  - exists (lit "svg"), (eval_attrs s a), ks. split; reflexivity.
Qed.
Lemma lacks_update name f j : lacks name j -> update_first name f j = None.
Proof.
  assert (K : forall kids, Forall (fun j => lacks name j -> update_first name f j = None) kids -> (forall e, In e (flat_map jelems kids) -> jname e <> name) -> go name f kids = None).
  { clear. induction 1 as [|k r H F IH]; intros L; cbn [go]; [reflexivity|]. rewrite H by (intros e I; apply L; cbn [flat_map]; apply in_app_iff; auto).
    rewrite IH by (intros e I; apply L; cbn [flat_map]; apply in_app_iff; auto). reflexivity. }
  induction j as [n a sc kids cl IH|kids IH|t| |x|u x yes no IHy IHn] using jsx_all; intros L; try reflexivity.
  - rewrite update_element. destruct (text_eqb n name) eqn:E.
    + apply text_eqb_spec in E. exfalso. apply (L (JElement n a sc kids cl)); [left; reflexivity|exact E].
    + rewrite K; [reflexivity|exact IH|]. intros e I. apply L. right. exact I.
  - rewrite update_fragment, K; [reflexivity|exact IH|exact L].
Qed.
Lemma lacks_go name f kids : Forall (lacks name) kids -> go name f kids = None.
Proof. induction 1 as [|k r H F IH]; cbn [go]; [reflexivity|]. rewrite (lacks_update name f k H), IH. reflexivity. Qed.
Lemma lacks_inserting name tag child id : tag <> name -> lacks name (inserting tag child id).
Proof. intros T e [<-|[]]. exact T. Qed.

Ltac texts := intros X; vm_compute in X; discriminate X.
Section step.
Variables (s : env) (o : options) (vs : list (text * jvalue)).
(** The three facts that are kept. *)
Definition facts (j : jsx) : Prop := quiet (lit "title") QN j /\ quiet (lit "svg") QT j.
Lemma desc_step j1 j2 l1 : quiet (lit "desc") QD j1 -> facts j1 -> render s j1 = Some l1 ->
  replace_element (lit "desc") (lit "descId") (lit "desc") (lit "svg") j1 = inr j2 ->
  exists l2, render s j2 = Some l2 /\ titled s (lit "svg") (lit "desc") (lit "descId") (lit "desc") l1 l2 /\ facts j2.
Proof.
  intros QJ [F1 F2] R E. unfold replace_element in E. destruct (update_first (lit "desc") _ j1) as [j|] eqn:U.
  - injection E as <-.
    destruct (update_some s (lit "desc") QD _ _ (conditional_good s QD (lit "desc") (lit "descId") (lit "desc") eq_refl (fun a kids H => proj1 H)) j1 j l1 QJ U R) as (l2 & R2 & AF & _).
    exists l2. split; [exact R2|]. split; [left; exact AF|].
    assert (C : forall other, other = lit "title" \/ other = lit "svg" -> forall a sc kids cl, QD a kids -> lacks other (conditional (lit "desc") (lit "descId") (lit "desc") (JElement (lit "desc") a sc kids cl))).
    { intros other O a sc kids cl (_ & D1 & D2). cbn [conditional]. destruct (or_id (lit "descId") a) as [x a']. intros e I. cbn [jelems] in I. apply in_app_iff in I.
      destruct I as [[<-|I]|I].
      - cbn [jname]. destruct O; subst other; texts.
      - destruct O; subst other; [eapply lacks_kids; [exact D1|exact I]|eapply lacks_kids; [exact D2|exact I]].
      - revert e I. apply lacks_inserting. destruct O; subst other; texts. }
    split.
    + eapply (update_quiet (lit "desc") QD); [| |exact U|exact QJ|exact F1].
      * intros a sc kids cl D _. pose proof (C (lit "title") (or_introl eq_refl) a sc kids cl D) as L. revert L. cbn [conditional]. destruct (or_id (lit "descId") a) as [x a']. apply q_when.
      * intros a kids kids' _ H. exact H.
    + eapply (update_quiet (lit "desc") QD); [| |exact U|exact QJ|exact F2].
      * intros a sc kids cl D _. pose proof (C (lit "svg") (or_intror eq_refl) a sc kids cl D) as L. revert L. cbn [conditional]. destruct (or_id (lit "descId") a) as [x a']. apply q_when.
      * intros a kids kids' _ H. exact H.
  - destruct (update_first (lit "svg") _ j1) as [j|] eqn:V; [|discriminate]. injection E as <-.
    destruct (update_some s (lit "svg") QT _ _ (insert_good s (lit "desc") (lit "descId") (lit "desc") eq_refl) j1 j l1 F2 V R) as (l2 & R2 & AF & _).
    exists l2. split; [exact R2|]. split; [right; split; [eapply update_none; [exact QJ|exact U|exact R]|exact AF]|].
    split.
    + eapply (update_quiet (lit "svg") QT); [| |exact V|exact F2|exact F1].
      * intros a sc kids cl _ Q. inversion Q as [? ? ? ? ? Q1 Q2| | | | |]; subst. cbn [insert_first]. constructor; [texts|]. constructor; [|exact Q2].
        apply q_when. cbn [jelems]. intros e I. cbn [jelems] in I. rewrite app_nil_r in I. revert e I. apply lacks_inserting. texts.
      * intros a kids kids' _ H. exact H.
    + eapply (update_quiet (lit "svg") QT); [| |exact V|exact F2|exact F2].
      * intros a sc kids cl _ Q. inversion Q as [? ? ? ? ? Q1 Q2| | | | |]; subst. cbn [insert_first]. constructor; [intros _; exact Logic.I|]. constructor; [|exact Q2].
        apply q_when. cbn [jelems]. intros e I. cbn [jelems] in I. rewrite app_nil_r in I. revert e I. apply lacks_inserting. texts.
      * intros a kids kids' _ H. exact H.
Qed.
Lemma title_step j1 j2 l1 : facts j1 -> render s j1 = Some l1 ->
  replace_element (lit "title") (lit "titleId") (lit "title") (lit "svg") j1 = inr j2 ->
  exists l2, render s j2 = Some l2 /\ titled s (lit "svg") (lit "title") (lit "titleId") (lit "title") l1 l2.
Proof.
  intros [F1 F2] R E. unfold replace_element in E. destruct (update_first (lit "title") _ j1) as [j|] eqn:U.
  - injection E as <-.
    destruct (update_some s (lit "title") QN _ _ (conditional_good s QN (lit "title") (lit "titleId") (lit "title") eq_refl (fun a kids H => H)) j1 j l1 F1 U R) as (l2 & R2 & AF & _).
    exists l2. split; [exact R2|]. left. exact AF.
  - destruct (update_first (lit "svg") _ j1) as [j|] eqn:V; [|discriminate]. injection E as <-.
    destruct (update_some s (lit "svg") QT _ _ (insert_good s (lit "title") (lit "titleId") (lit "title") eq_refl) j1 j l1 F2 V R) as (l2 & R2 & AF & _).
    exists l2. split; [exact R2|]. right. split; [eapply update_none; [exact F1|exact U|exact R]|exact AF].
Qed.
Lemma svg_step j j1 l : bare j -> render s j = Some l -> simple_desc l -> update_first (lit "svg") (change_svg o vs) j = Some j1 ->
  exists l1, render s j1 = Some l1 /\ at_first (lit "svg") (svg_changed s o (jval s vs)) l l1 /\ quiet (lit "desc") QD j1 /\ facts j1.
Proof.
  intros B R S U. pose proof (bare_quiet (lit "svg") QN j (fun a kids H => H) B) as QS.
  destruct (update_some s (lit "svg") QN _ _ (change_good s o vs) j j1 l QS U R) as (l1 & R1 & AF & _).
  exists l1. split; [exact R1|]. split; [exact AF|].
  assert (C : forall other Q, other <> lit "svg" -> forall a sc kids cl, QN a kids -> quiet other Q (JElement (lit "svg") a sc kids cl) -> quiet other Q (change_svg o vs (JElement (lit "svg") a sc kids cl))).
  { intros other Q O a sc kids cl _ X. inversion X as [? ? ? ? ? X1 X2| | | | |]; subst. cbn [change_svg]. constructor; [intros Y; exfalso; apply O; symmetry; exact Y|exact X2]. }
  split; [|split].
  - eapply (update_quiet (lit "svg") QN); [apply C; texts| |exact U|exact QS|eapply simple_quiet; eauto].
    intros a kids kids' G (_ & _ & L). rewrite (lacks_go _ _ _ L) in G. discriminate.
  - eapply (update_quiet (lit "svg") QN); [apply C; texts| |exact U|exact QS|apply bare_quiet; [intros a kids H; exact H|exact B]]. intros a kids kids' _ H. exact H.
  - eapply (update_quiet (lit "svg") QN); [| |exact U|exact QS|apply bare_quiet; [intros a kids H; exact Logic.I|exact B]].
    + intros a sc kids cl _ X. inversion X as [? ? ? ? ? X1 X2| | | | |]; subst. cbn [change_svg]. constructor; [intros _; exact Logic.I|exact X2].
    + intros a kids kids' _ H. exact H.
Qed.
End step.
Lemma component_ok parse o uni camel d s l vs j ids : o_native o = false -> o_replace o = [] -> parse_values parse (o_svg_props o) = inr vs ->
  render s (to_jsx uni camel d) = Some l -> simple_desc l -> preset parse o (to_jsx uni camel d) = inr (j, ids) ->
  exists l', render s j = Some l' /\ component s o (jval s vs) l l'.
Proof.
  intros NN RR PV R S P. unfold preset in P. rewrite NN, RR, PV in P. cbn [parse_values fold_left] in P.
  destruct (update_first (lit "svg") (fun k => k) _); [|discriminate].
  destruct (update_first (lit "svg") (change_svg o vs) (to_jsx uni camel d)) as [j1|] eqn:U; [|discriminate].
  destruct (svg_step s o vs _ j1 l (to_jsx_bare uni camel d) R S U) as (l1 & R1 & AF & QD1 & F1).
  destruct (if o_desc o then _ else inr j1) as [|j2] eqn:D; [discriminate|].
  assert (X : exists l2, render s j2 = Some l2 /\ (if o_desc o then titled s (lit "svg") (lit "desc") (lit "descId") (lit "desc") l1 l2 else l1 = l2) /\ facts j2).
  { destruct (o_desc o); [eapply desc_step; eauto|]. injection D as <-. exists l1. auto. }
  destruct X as (l2 & R2 & T2 & F2).
  destruct (if o_title o then _ else inr j2) as [|j3] eqn:T; [discriminate|]. injection P as <- _.
  assert (X : exists l3, render s j3 = Some l3 /\ (if o_title o then titled s (lit "svg") (lit "title") (lit "titleId") (lit "title") l2 l3 else l2 = l3)).
  { destruct (o_title o); [eapply title_step; eauto|]. injection T as <-. exists l2. auto. }
  destruct X as (l3 & R3 & T3). exists l3. split; [exact R3|]. exists l1, l2. auto.
Qed.
