From Coq Require Import String List NArith ZArith QArith Bool Lia.
From Verif Require Import Chars NameModel AttrTable ElemModel TextModel JsxNamesModel JsxModel JsxSpec JsxProofs PresetModel PresetSpec PresetProofs PresetProofs2 PresetProofs3 PresetProofs4 ModuleModel ModuleSpec.
Import ListNotations.

Lemma intrinsic_cases n : intrinsic n = true \/ intrinsic n = false.
Proof. destruct (intrinsic n); auto. Qed.
(** ** Names in JSX *)
Lemma to_jsx_uses uni camel d : (forall e, In e (jelems (to_jsx uni camel d)) -> intrinsic (jname e) = true) -> uses (to_jsx uni camel d) = [].
Proof.
  induction d as [kids IH|e a kids IH|[t|]|t|[t|]|t] using xnode_all; cbn [to_jsx]; intros N; try reflexivity.
  - set (f := fun k => if in_document k then [to_jsx uni camel k] else []) in *.
    assert (X : (forall e, In e (flat_map jelems (flat_map f kids)) -> intrinsic (jname e) = true) -> flat_map uses (flat_map f kids) = []).
    { clear N. induction IH as [|k l H F IH]; intros N; cbn [flat_map]; [reflexivity|]. rewrite flat_map_app in *. cbn [flat_map] in N. rewrite flat_map_app in N.
      rewrite IH by (intros e I; apply N, in_app_iff; auto). rewrite app_nil_r. unfold f. destruct (in_document k) eqn:D; [|reflexivity]. cbn [flat_map]. rewrite app_nil_r.
      apply H. intros e I. apply N, in_app_iff. left. unfold f. rewrite D. cbn [flat_map]. rewrite app_nil_r. exact I. }
    destruct (flat_map f kids) as [|j [|j' l]]; [reflexivity| |].
    + cbn [flat_map] in X. rewrite !app_nil_r in X. apply X. exact N.
    + apply X. exact N.
  - destruct (negb (prefix_is_empty (elem_prefix e))); [reflexivity|]. cbn [uses].
    pose proof (N _ (or_introl eq_refl)) as NI. cbn [jname] in NI. rewrite NI. clear NI. cbn [app].
    assert (A : flat_map attr_uses (attrs_to_jsx uni camel e a) = []).
    { unfold attrs_to_jsx. generalize (if elem_is e (lit "Svg") then filter (fun a => negb (is_xmlns a)) a else a). intros l.
      induction l as [|x l IHl]; cbn [flat_map]; [reflexivity|]. rewrite flat_map_app, IHl, app_nil_r. unfold attr_to_jsx. destruct (jsx_name uni (fst x)); [|reflexivity].
      cbn [flat_map attr_uses]. rewrite app_nil_r. destruct (snd x) as [b|[b|]|q|z|q|nn ii|t]; reflexivity. }
    rewrite A. cbn [app]. assert (N' : forall e', In e' (flat_map jelems (map (to_jsx uni camel) kids)) -> intrinsic (jname e') = true).
    { intros e' I. apply N. cbn [jelems]. right. exact I. }
    clear N A. induction IH as [|k l H F IH]; cbn [map flat_map] in *; [reflexivity|].
    rewrite H by (intros e' I; apply N', in_app_iff; auto). apply IH. intros e' I. apply N', in_app_iff. auto.
Qed.
Definition within (S : text -> Prop) (j : jsx) : Prop := forall x, In x (uses j) -> S x.
Lemma update_within S name f : (forall n a sc kids cl, within S (JElement n a sc kids cl) -> within S (f (JElement n a sc kids cl))) -> forall j j', update_first name f j = Some j' -> within S j -> within S j'.
Proof.
  intros F j. induction j as [n a sc kids cl IH|kids IH|t| |x|u x yes no IHy IHn] using jsx_all; intros j' U WJ; try discriminate.
  - rewrite update_element in U. destruct (text_eqb n name); [injection U as <-; apply F, WJ|]. destruct (go name f kids) as [kids'|] eqn:G; [|discriminate]. cbn [option_map] in U. injection U as <-.
    apply go_spec in G. destruct G as (x & k & k' & b & -> & -> & U & _). apply Forall_app in IH. destruct IH as [_ IH]. inversion IH as [|? ? H _]; subst.
    intros y I. cbn [uses] in I. rewrite !flat_map_app in I. cbn [flat_map] in I. rewrite !in_app_iff in I.
    destruct I as [I|[I|[I|[I|I]]]].
    + apply WJ. cbn [uses]. rewrite !in_app_iff. auto.
    + apply WJ. cbn [uses]. rewrite !in_app_iff. auto.
    + apply WJ. cbn [uses]. rewrite !flat_map_app. cbn [flat_map]. rewrite !in_app_iff. auto.
    + revert y I. apply (H k' U). intros y I. apply WJ. cbn [uses]. rewrite !flat_map_app. cbn [flat_map]. rewrite !in_app_iff. auto.
    + apply WJ. cbn [uses]. rewrite !flat_map_app. cbn [flat_map]. rewrite !in_app_iff. auto 6.
  - rewrite update_fragment in U. destruct (go name f kids) as [kids'|] eqn:G; [|discriminate]. cbn [option_map] in U. injection U as <-.
    apply go_spec in G. destruct G as (x & k & k' & b & -> & -> & U & _). apply Forall_app in IH. destruct IH as [_ IH]. inversion IH as [|? ? H _]; subst.
    intros y I. cbn [uses] in I. rewrite !flat_map_app in I. cbn [flat_map] in I. rewrite !in_app_iff in I.
    destruct I as [I|[I|I]].
    + apply WJ. cbn [uses]. rewrite !flat_map_app. cbn [flat_map]. rewrite !in_app_iff. auto.
    + revert y I. apply (H k' U). intros y I. apply WJ. cbn [uses]. rewrite !flat_map_app. cbn [flat_map]. rewrite !in_app_iff. auto.
    + apply WJ. cbn [uses]. rewrite !flat_map_app. cbn [flat_map]. rewrite !in_app_iff. auto 6.
Qed.
(** What the options use. *)
Definition known_names (o : options) (ids : list text) (x : text) : Prop :=
  In x ids \/ In x (taken o) \/ (expands o = true /\ x = lit "props") \/ (o_ref o = true /\ x = lit "ref") \/
  (o_native o = true /\ ((o_title o = true /\ x = lit "Title") \/ (o_desc o = true /\ x = lit "Desc"))).
Lemma set_uses (S : text -> Prop) n v l : (forall x, In x (flat_map attr_uses l) -> S x) -> (forall x, In x (value_uses v) -> S x) -> forall x, In x (flat_map attr_uses (set_attribute n v l)) -> S x.
Proof.
  intros L V. induction l as [|[m w|y] l IH]; cbn [set_attribute flat_map attr_uses]; intros x I.
  - rewrite app_nil_r in I. auto.
  - cbn [flat_map attr_uses] in L. destruct (text_eqb m n); cbn [flat_map attr_uses] in I; apply in_app_iff in I; destruct I as [I|I].
    + auto.
    + apply L, in_app_iff. auto.
    + apply L, in_app_iff. auto.
    + revert x I. apply IH. intros x I. apply L, in_app_iff. auto.
  - cbn [flat_map attr_uses] in L. destruct I as [<-|I]; [apply L; left; reflexivity|]. revert x I. apply IH. intros x I. apply L. right. exact I.
Qed.
Lemma parsed_uses parse ps vs : parse_values parse ps = inr vs -> Forall (fun p => value_uses (snd p) = []) vs.
Proof.
  revert vs. induction ps as [|(k & v) ps IH]; cbn [parse_values]; intros vs E; [injection E as <-; constructor|].
  destruct (parse_templatable parse v) as [|w] eqn:P; [discriminate|]. destruct (parse_values parse ps) as [|l]; [discriminate|]. injection E as <-. constructor; [|apply IH; reflexivity].
  cbn [snd]. unfold parse_templatable in P. repeat (first [discriminate P|injection P as <-; reflexivity|match type of P with context [match ?x with _ => _ end] => destruct x end]).
Qed.
Lemma change_within o vs ids n a sc kids cl : Forall (fun p => value_uses (snd p) = []) vs -> within (known_names o ids) (JElement n a sc kids cl) ->
  within (known_names o ids) (change_svg o vs (JElement n a sc kids cl)).
Proof.
  intros V WJ x I. cbn [change_svg uses] in I. rewrite !in_app_iff in I. destruct I as [I|[I|I]]; [apply WJ; cbn [uses]; rewrite !in_app_iff; auto| |apply WJ; cbn [uses]; rewrite !in_app_iff; auto].
  assert (A : forall x, In x (flat_map attr_uses a) -> known_names o ids x) by (intros y J; apply WJ; cbn [uses]; rewrite !in_app_iff; auto). clear WJ.
  revert x I. unfold svg_attrs.
  assert (A1 : forall x, In x (flat_map attr_uses (fold_left (fun l p => set_attribute (fst p) (snd p) l) vs a)) -> known_names o ids x).
  { clear -A V. revert a A. induction V as [|p vs H F IH]; intros a A; cbn [fold_left]; [exact A|]. apply IH. apply set_uses; [exact A|]. rewrite H. intros x []. }
  set (l1 := fold_left _ vs a) in *. clearbody l1. clear A a.
  assert (A2 : forall x, In x (flat_map attr_uses (if o_ref o then set_attribute (lit "ref") (JIdent (lit "ref")) l1 else l1)) -> known_names o ids x).
  { destruct (o_ref o) eqn:E; [|exact A1]. apply set_uses; [exact A1|]. intros x [<-|[]]. unfold known_names. auto 6. }
  set (l2 := if o_ref o then _ else l1) in *. clearbody l2. clear A1 l1.
  assert (A3 : forall x, In x (flat_map attr_uses (if o_title o then set_attribute (lit "aria-labelledby") (JIdent (lit "titleId")) l2 else l2)) -> known_names o ids x).
  { destruct (o_title o) eqn:E; [|exact A2]. apply set_uses; [exact A2|]. intros x [<-|[]]. unfold known_names, taken. rewrite E. right. left. right. left. reflexivity. }
  set (l3 := if o_title o then _ else l2) in *. clearbody l3. clear A2 l2.
  assert (A4 : forall x, In x (flat_map attr_uses (if o_desc o then set_attribute (lit "aria-describedby") (JIdent (lit "descId")) l3 else l3)) -> known_names o ids x).
  { destruct (o_desc o) eqn:E; [|exact A3]. apply set_uses; [exact A3|]. intros x [<-|[]]. unfold known_names, taken. rewrite E. right. left. apply in_app_iff. right. right. left. reflexivity. }
  set (l4 := if o_desc o then _ else l3) in *. clearbody l4. clear A3 l3.
  assert (A5 : forall x, In x (flat_map attr_uses (if o_dimensions o then l4 else drop_dimensions l4)) -> known_names o ids x).
  { destruct (o_dimensions o); [exact A4|]. intros x I. apply A4. apply in_flat_map in I. destruct I as (y & I & J). apply filter_In in I. apply in_flat_map. exists y. split; [apply I|exact J]. }
  set (l5 := if o_dimensions o then _ else _) in *. clearbody l5. clear A4 l4.
  assert (A6 : forall x, In x (flat_map attr_uses (set_icon (o_native o) (o_icon o) l5)) -> known_names o ids x).
  { unfold set_icon. destruct (o_icon o) as [[[]|t|q]|]; try exact A5; try (apply set_uses; [apply set_uses; [exact A5|]|]; intros x []).
    destruct (o_native o); apply set_uses; try (apply set_uses; [exact A5|]); intros x []. }
  set (l6 := set_icon _ _ l5) in *. clearbody l6. clear A5 l5.
  assert (P : o_expand o <> Nowhere -> known_names o ids (lit "props")).
  { intros E. unfold known_names, expands. right. right. left. split; [|reflexivity]. destruct (o_expand o); [reflexivity|reflexivity|contradiction]. }
  destruct (o_expand o); cbn [expand_props]; intros x I.
  - destruct I as [<-|I]; [apply P; discriminate|apply A6, I].
  - rewrite flat_map_app in I. apply in_app_iff in I. destruct I as [I|[<-|[]]]; [apply A6, I|apply P; discriminate].
  - apply A6, I.
Qed.
Lemma value_within S old new j : value_uses new = [] -> within S j -> within S (set_value_recursive old new j).
Proof.
  intros V. unfold within. induction j as [n a sc kids cl IH|kids IH|t| |x|u x yes no IHy IHn] using jsx_all; cbn [set_value_recursive]; intros WJ; try exact WJ.
  - intros x I. cbn [uses] in *. rewrite !in_app_iff in I. destruct I as [I|[I|I]].
    + apply WJ. rewrite !in_app_iff. auto.
    + apply WJ. rewrite !in_app_iff. right. left. apply in_flat_map in I. destruct I as (y & I & J). apply in_map_iff in I. destruct I as (z & <- & I). apply in_flat_map. exists z. split; [exact I|].
      destruct z as [m v|z]; [|exact J]. cbn [set_value] in J. destruct v; try exact J. destruct (text_eqb t old); [cbn [attr_uses] in J; rewrite V in J; destruct J|exact J].
    + apply in_flat_map in I. destruct I as (k' & I & J). apply in_map_iff in I. destruct I as (k & <- & I). rewrite Forall_forall in IH. apply (IH k I); [|exact J].
      intros y Y. apply WJ. rewrite !in_app_iff. right. right. apply in_flat_map. eauto.
  - intros x I. cbn [uses] in *. apply in_flat_map in I. destruct I as (k' & I & J). apply in_map_iff in I. destruct I as (k & <- & I). rewrite Forall_forall in IH. apply (IH k I); [|exact J].
    intros y Y. apply WJ. apply in_flat_map. eauto.
Qed.
Lemma or_uses (S : text -> Prop) id l x l' : S id -> (forall y, In y (flat_map attr_uses l) -> S y) -> or_id id l = (x, l') ->
  (forall y, In y (flat_map attr_uses l') -> S y) /\ forall y, In y (value_uses (match x with Some v => v | None => JIdent id end)) -> S y.
Proof.
  intros SI. revert x l'. induction l as [|[n v|z] l IH]; cbn [or_id flat_map attr_uses]; intros x l' L E.
  - injection E as <- <-. split; [intros y []|]. intros y [<-|[]]. exact SI.
  - destruct (text_eqb n (lit "id")).
    + injection E as <- <-. cbn [flat_map attr_uses value_uses]. split.
      * intros y I. apply in_app_iff in I. destruct I as [[<-|I]|I]; [exact SI|apply L, in_app_iff; auto|apply L, in_app_iff; auto].
      * intros y [<-|I]; [exact SI|apply L, in_app_iff; auto].
    + destruct (or_id id l) as [x0 r]. injection E as <- <-. destruct (IH x0 r) as [A B]; [intros y I; apply L, in_app_iff; auto|reflexivity|]. split; [|exact B].
      intros y I. cbn [flat_map attr_uses] in I. apply in_app_iff in I. destruct I as [I|I]; [apply L, in_app_iff; auto|apply A, I].
  - destruct (or_id id l) as [x0 r]. injection E as <- <-. destruct (IH x0 r) as [A B]; [intros y I; apply L; right; exact I|reflexivity|]. split; [|exact B].
    intros y [<-|I]; [apply L; left; reflexivity|apply A, I].
Qed.
Lemma replace_within (S : text -> Prop) tag id child root j j' : S id -> S child -> (intrinsic tag = true \/ S tag) -> replace_element tag id child root j = inr j' -> within S j -> within S j'.
Proof.
  intros SI SC ST E WJ. unfold replace_element in E.
  assert (INS : forall v, (forall y, In y (value_uses v) -> S y) -> forall y, In y (uses (inserting tag child v)) -> S y).
  { intros v V y I. unfold inserting in I. cbn [uses flat_map attr_uses] in I. rewrite !app_nil_r, !in_app_iff in I. destruct I as [I|[I|[<-|[]]]]; [|auto|exact SC].
    destruct (intrinsic tag) eqn:T; [destruct I|]. destruct I as [<-|[]]. destruct ST; [discriminate|assumption]. }
  destruct (update_first tag _ j) as [k|] eqn:U.
  - injection E as <-. eapply update_within; [|exact U|exact WJ]. intros n a sc kids cl WE. cbn [conditional]. destruct (or_id id a) as [x a'] eqn:O.
    apply (or_uses S) in O; [|exact SI|intros y I; apply WE; cbn [uses]; rewrite !in_app_iff; auto]. destruct O as [O1 O2].
    intros y I. cbn [uses] in I. destruct I as [<-|I]; [exact SC|]. rewrite !in_app_iff in I. destruct I as [[I|[I|I]]|I].
    + apply WE. cbn [uses]. rewrite !in_app_iff. auto.
    + apply O1, I.
    + apply WE. cbn [uses]. rewrite !in_app_iff. auto.
    + revert y I. apply INS. exact O2.
  - destruct (update_first root _ j) as [k|] eqn:V; [|discriminate]. injection E as <-. eapply update_within; [|exact V|exact WJ]. intros n a sc kids cl WE. cbn [insert_first].
    intros y I. cbn [uses flat_map] in I. rewrite !in_app_iff in I. destruct I as [I|[I|[I|I]]].
    + apply WE. cbn [uses]. rewrite !in_app_iff. auto.
    + apply WE. cbn [uses]. rewrite !in_app_iff. auto.
    + cbn [uses] in I. destruct I as [<-|I]; [exact SC|]. rewrite app_nil_r in I. revert y I. apply INS. intros y [<-|[]]. exact SI.
    + apply WE. cbn [uses]. rewrite !in_app_iff. auto.
Qed.
Lemma native_within j k : bare j -> uses j = [] -> fst (to_native j) = Some k -> within (fun x => In x (snd (to_native j))) k.
Proof.
  revert k. induction j as [n a sc kids cl IH|kids IH|t| |x|u x yes no IHy IHn] using jsx_all; intros k B Z E; inversion B as [? ? ? ? ? N KB|? KB| |]; subst.
  - cbn [uses] in Z. apply app_eq_nil in Z. destruct Z as [_ Z]. apply app_eq_nil in Z. destruct Z as [ZA ZK].
    destruct (native_name n) as [m|] eqn:NN; [|cbn [to_native] in E; rewrite NN in E; discriminate]. rewrite (native_element n a sc kids cl m NN) in *. cbn [fst snd] in *. injection E as <-.
    intros x I. cbn [uses] in I. rewrite ZA in I. cbn [app] in I. apply in_app_iff in I. destruct I as [I|I]; [destruct (intrinsic m); [destruct I|]; destruct I as [<-|[]]; left; reflexivity|].
    right. apply in_flat_map in I. destruct I as (k' & I & J). apply left_in in I. destruct I as (k & I & F). apply in_flat_map. exists (to_native k). split; [apply in_map, I|].
    rewrite Forall_forall in IH, KB. assert (ZZ : uses k = []). { apply in_split in I. destruct I as (l1 & l2 & ->). rewrite flat_map_app in ZK. cbn [flat_map] in ZK. apply app_eq_nil in ZK. destruct ZK as [_ ZK]. apply app_eq_nil in ZK. apply ZK. }
    apply (IH k I k' (KB k I) ZZ F x J).
  - cbn [uses] in Z. cbn [to_native fst snd] in *. injection E as <-.
    intros x I. cbn [uses] in I. fold (left kids) in I. apply in_flat_map in I. destruct I as (k' & I & J). apply left_in in I. destruct I as (k & I & F). apply in_flat_map. exists (to_native k). split; [apply in_map, I|].
    rewrite Forall_forall in IH, KB. assert (ZZ : uses k = []). { apply in_split in I. destruct I as (l1 & l2 & ->). rewrite flat_map_app in Z. cbn [flat_map] in Z. apply app_eq_nil in Z. destruct Z as [_ Z]. apply app_eq_nil in Z. apply Z. }
    apply (IH k I k' (KB k I) ZZ F x J).
  - injection E as <-. intros x [].
  - injection E as <-. intros x [].
Qed.
Lemma preset_within parse o uni camel d j ids : (forall e, In e (jelems (to_jsx uni camel d)) -> intrinsic (jname e) = true) ->
  preset parse o (to_jsx uni camel d) = inr (j, ids) -> within (known_names o ids) j.
Proof.
  intros N P. pose proof (to_jsx_uses uni camel d N) as Z. pose proof (to_jsx_bare uni camel d) as B. unfold preset in P.
  set (j0 := to_jsx uni camel d) in *. clearbody j0.
  assert (S : let (j1, ids1) := if o_native o then native_root j0 else (j0, []) in within (known_names o ids1) j1).
  { destruct (o_native o) eqn:E; [|intros x I; rewrite Z in I; destruct I]. unfold native_root. destruct (to_native j0) as [[k|] ids0] eqn:T.
    - intros x I. left. pose proof (native_within j0 k B Z) as H. rewrite T in H. apply (H eq_refl x I).
    - intros x I. rewrite Z in I. destruct I. }
  destruct (if o_native o then native_root j0 else (j0, [])) as [j1 ids1]. 
  destruct (update_first _ (fun k => k) j1) as [jx|]; [|discriminate]. clear jx.
  destruct (parse_values parse (o_svg_props o)) as [|vs] eqn:PV; [discriminate|]. apply parsed_uses in PV.
  destruct (update_first _ (change_svg o vs) j1) as [j2|] eqn:U; [|discriminate].
  assert (S2 : within (known_names o ids1) j2) by (eapply update_within; [|exact U|exact S]; intros; apply change_within; assumption).
  destruct (parse_values parse (o_replace o)) as [|rs] eqn:PR; [discriminate|]. apply parsed_uses in PR.
  set (j3 := fold_left _ rs j2) in *.
  assert (S3 : within (known_names o ids1) j3).
  { subst j3. revert S2. generalize j2. clear -PR. induction PR as [|p rs H F IH]; intros j S2; cbn [fold_left]; [exact S2|]. apply IH, value_within; assumption. }
  clearbody j3.
  destruct (if o_desc o then _ else inr j3) as [|j4] eqn:D; [discriminate|].
  assert (S4 : within (known_names o ids1) j4).
  { destruct (o_desc o) eqn:OD; [|injection D as <-; exact S3]. eapply replace_within; [| | |exact D|exact S3].
    - unfold known_names, taken. rewrite OD. right. left. apply in_app_iff. right. right. left. reflexivity.
    - unfold known_names, taken. rewrite OD. right. left. apply in_app_iff. right. left. reflexivity.
    - destruct (o_native o) eqn:ON; [right|left; reflexivity]. unfold known_names. do 4 right. split; [exact ON|]. right. split; [exact OD|reflexivity]. }
  destruct (if o_title o then _ else inr j4) as [|j5] eqn:T; [discriminate|]. injection P as <- <-.
  destruct (o_title o) eqn:OT; [|injection T as <-; exact S4]. eapply replace_within; [| | |exact T|exact S4].
  - unfold known_names, taken. rewrite OT. right. left. right. left. reflexivity.
  - unfold known_names, taken. rewrite OT. right. left. left. reflexivity.
  - destruct (o_native o) eqn:ON; [right|left; reflexivity]. unfold known_names. do 4 right. split; [exact ON|]. left. split; [exact OT|reflexivity].
Qed.
