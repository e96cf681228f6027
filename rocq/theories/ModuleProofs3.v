From Coq Require Import String List NArith ZArith QArith Bool Lia Permutation.
From Verif Require Import Chars NameModel AttrTable ElemModel TextModel JsxNamesModel JsxModel JsxSpec JsxProofs PresetModel PresetSpec PresetProofs PresetProofs2 PresetProofs3 PresetProofs4 ModuleModel ModuleSpec ModuleProofs ModuleProofs2.
Import ListNotations.

Local Notation imports_of p := (flat_map (fun i : text * list specifier => map local (snd i)) p).
Lemma native_range n m : native_name n = Some m -> In m natives.
Proof.
  unfold native_name. destruct (find _ _) as [p|] eqn:F; [|discriminate]. cbn [option_map]. intros E. injection E as <-. apply find_some in F. destruct F as [I _].
  assert (A : forallb (fun p => existsb (text_eqb (snd p)) natives)
    [(lit "svg", lit "Svg"); (lit "circle", lit "Circle"); (lit "clipPath", lit "ClipPath"); (lit "ellipse", lit "Ellipse"); (lit "g", lit "G");
     (lit "linearGradient", lit "LinearGradient"); (lit "radialGradient", lit "RadialGradient"); (lit "line", lit "Line"); (lit "path", lit "Path");
     (lit "pattern", lit "Pattern"); (lit "polygon", lit "Polygon"); (lit "polyline", lit "Polyline"); (lit "rect", lit "Rect");
     (lit "symbol", lit "Symbol"); (lit "text", lit "Text"); (lit "textPath", lit "TextPath"); (lit "tspan", lit "TSpan"); (lit "use", lit "Use");
     (lit "defs", lit "Defs"); (lit "stop", lit "Stop"); (lit "mask", lit "Mask"); (lit "image", lit "Image"); (lit "foreignObject", lit "ForeignObject")] = true) by (vm_compute; reflexivity).
  rewrite forallb_forall in A. apply A in I. apply existsb_exists in I. destruct I as (z & I & E). apply text_eqb_spec in E. subst z. exact I.
Qed.
Lemma native_ids j x : In x (snd (to_native j)) -> In x natives.
Proof.
  induction j as [n a sc kids cl IH|kids IH|t| |y|u y yes no IHy IHn] using jsx_all; intros I; cbn [to_native] in I; try destruct I.
  - destruct (native_name n) as [m|] eqn:NN; cbn [snd] in I; [|destruct I]. destruct I as [<-|I]; [eapply native_range, NN|].
    apply in_flat_map in I. destruct I as (p & I & J). apply in_map_iff in I. destruct I as (k & <- & I). rewrite Forall_forall in IH. eapply IH; eassumption.
  - cbn [snd] in I. apply in_flat_map in I. destruct I as (p & I & J). apply in_map_iff in I. destruct I as (k & <- & I). rewrite Forall_forall in IH. eapply IH; eassumption.
Qed.
Lemma apart_app {A} (l k : list A) : NoDup l -> NoDup k -> (forall x, In x l -> ~ In x k) -> NoDup (l ++ k).
Proof.
  induction 1 as [|x l NI ND IH]; intros K D; cbn [app]; [exact K|]. constructor; [|apply IH; [exact K|intros y I; apply D; right; exact I]].
  rewrite in_app_iff. intros [X|X]; [contradiction|apply (D x (or_introl eq_refl) X)].
Qed.
Definition distinct (l : list text) : bool := if list_eq_dec (list_eq_dec N.eq_dec) (nodup (list_eq_dec N.eq_dec) l) l then true else false.
Lemma distinct_ok l : distinct l = true -> NoDup l.
Proof. unfold distinct. destruct (list_eq_dec (list_eq_dec N.eq_dec) (nodup (list_eq_dec N.eq_dec) l) l) as [E|]; [|discriminate]. intros _. rewrite <- E. apply NoDup_nodup. Qed.
Lemma natives_apart x : In x natives -> ~ In x made_up.
Proof.
  intros I J. assert (A : forallb (fun x => negb (existsb (text_eqb x) made_up)) natives = true) by (vm_compute; reflexivity). rewrite forallb_forall in A. apply A in I.
  rewrite (proj2 (existsb_exists _ _)) in I; [discriminate|]. exists x. split; [exact J|apply teq_refl].
Qed.
(** The names from react-native. *)
Lemma native_once o m ids : NoDup ids -> (forall x, In x ids -> In x natives) ->
  NoDup (imports_of (native_imports o m ids)) /\
  forall x, In x (imports_of (native_imports o m ids)) -> In x natives \/ (x = lit "SVGProps" /\ o_native o = true /\ m_typescript m && expands o = true).
Proof.
  intros ND R. unfold native_imports. destruct (o_native o) eqn:ON; [|split; [constructor|intros x []]]. cbn [flat_map snd]. rewrite app_nil_r.
  assert (NS : ~ In (lit "SVGProps") natives) by (intros I; apply natives_apart in I; apply I; vm_compute; auto 10).
  assert (FI : forall x, In x (filter (fun x => negb (text_eqb x (lit "Svg"))) ids) -> In x ids /\ x <> lit "Svg").
  { intros x I. apply filter_In in I. destruct I as [I E]. split; [exact I|]. intros ->. rewrite teq_refl in E. discriminate. }
  assert (FN : NoDup (filter (fun x => negb (text_eqb x (lit "Svg"))) ids)) by (apply NoDup_filter, ND).
  set (fl := filter _ ids) in *. clearbody fl.
  assert (HT : existsb (text_eqb (lit "Title")) ids = false -> ~ In (lit "Title") fl) by (intros H I; apply FI in I; rewrite (proj2 (existsb_exists _ _) (ex_intro _ (lit "Title") (conj (proj1 I) (teq_refl _)))) in H; discriminate).
  assert (HD : existsb (text_eqb (lit "Desc")) ids = false -> ~ In (lit "Desc") fl) by (intros H I; apply FI in I; rewrite (proj2 (existsb_exists _ _) (ex_intro _ (lit "Desc") (conj (proj1 I) (teq_refl _)))) in H; discriminate).
  rewrite !map_app, map_map. cbn [local]. rewrite map_id.
  set (A := map local (if existsb (text_eqb (lit "Svg")) ids then _ else [])). set (B := map local (if m_typescript m && expands o then _ else [])).
  set (C := map local (if o_title o && negb _ then _ else [])). set (D := map local (if o_desc o && negb _ then _ else [])).
  assert (HA : NoDup A /\ forall x, In x A -> x = lit "Svg") by (subst A; destruct (existsb (text_eqb (lit "Svg")) ids); cbn; split; try (intros x [<-|[]]; reflexivity); try (intros x []); repeat constructor; intros []).
  assert (HB : NoDup B /\ forall x, In x B -> x = lit "SVGProps" /\ m_typescript m && expands o = true) by (subst B; destruct (m_typescript m && expands o); cbn; split; try (intros x [<-|[]]; auto); try (intros x []); repeat constructor; intros []).
  assert (HC : NoDup C /\ forall x, In x C -> x = lit "Title" /\ ~ In (lit "Title") fl).
  { subst C. destruct (o_title o); cbn [andb]; [|split; [constructor|intros x []]]. destruct (existsb (text_eqb (lit "Title")) ids) eqn:E; cbn [negb map local]; [split; [constructor|intros x []]|].
    split; [repeat constructor; intros []|]. intros x [<-|[]]. split; [reflexivity|apply HT, eq_refl]. }
  assert (HE : NoDup D /\ forall x, In x D -> x = lit "Desc" /\ ~ In (lit "Desc") fl).
  { subst D. destruct (o_desc o); cbn [andb]; [|split; [constructor|intros x []]]. destruct (existsb (text_eqb (lit "Desc")) ids) eqn:E; cbn [negb map local]; [split; [constructor|intros x []]|].
    split; [repeat constructor; intros []|]. intros x [<-|[]]. split; [reflexivity|apply HD, eq_refl]. }
  clearbody A B C D. destruct HA as [NA HA], HB as [NB HB], HC as [NC HC], HE as [NE HE].
  assert (SV : lit "Svg" <> lit "SVGProps" /\ lit "Svg" <> lit "Title" /\ lit "Svg" <> lit "Desc" /\ lit "SVGProps" <> lit "Title" /\ lit "SVGProps" <> lit "Desc" /\ lit "Title" <> lit "Desc").
  { repeat split; intros X; vm_compute in X; discriminate X. }
  destruct SV as (S1 & S2 & S3 & S4 & S5 & S6).
  split.
  - apply apart_app; [exact NA| |].
    + apply apart_app; [exact NB| |].
      * apply apart_app; [exact FN| |].
        -- apply apart_app; [exact NC|exact NE|]. intros x I J. apply HC in I. apply HE in J. destruct I as [-> _], J as [J _]. contradiction.
        -- intros x I J. apply in_app_iff in J. destruct J as [J|J]; [apply HC in J|apply HE in J]; destruct J as [-> J]; contradiction.
      * intros x I J. apply HB in I. destruct I as [-> _]. rewrite !in_app_iff in J. destruct J as [J|[J|J]]; [apply FI in J; apply NS, R, J|apply HC in J|apply HE in J]; destruct J as [J _]; contradiction.
    + intros x I J. apply HA in I. subst x. rewrite !in_app_iff in J. destruct J as [J|[J|[J|J]]]; [apply HB in J|apply FI in J|apply HC in J|apply HE in J]; destruct J as [J1 J2]; contradiction.
  - intros x I. rewrite !in_app_iff in I. destruct I as [I|[I|[I|[I|I]]]].
    + apply HA in I. subst x. left. left. reflexivity.
    + apply HB in I. destruct I as [-> E]. right. auto.
    + left. apply R, FI, I.
    + apply HC in I. destruct I as [-> _]. left. vm_compute. auto 30.
    + apply HE in I. destruct I as [-> _]. left. vm_compute. auto 30.
Qed.
Lemma ends_props n : In (n ++ lit "Props") (natives ++ made_up) -> n = lit "SVG".
Proof.
  intros I. assert (A : forallb (fun y => implb (text_eqb (firstn 5 (rev y)) (rev (lit "Props"))) (text_eqb y (lit "SVGProps"))) (natives ++ made_up) = true) by (vm_compute; reflexivity).
  rewrite forallb_forall in A. apply A in I. rewrite rev_app_distr in I.
  assert (X : firstn 5 (rev (lit "Props") ++ rev n) = rev (lit "Props")) by reflexivity. rewrite X, teq_refl in I. cbn [implb] in I. apply text_eqb_spec in I.
  change (lit "SVGProps") with (lit "SVG" ++ lit "Props") in I. apply app_inv_tail in I. exact I.
Qed.
Lemma once_ok uni camel parse ident o m d x : m_import m = None -> free_name (m_name m) -> transform uni camel parse ident o m d = Module x -> once x.
Proof.
  intros MI (F1 & F2 & F3) T. apply transform_parts in T. destruct T as (j & ids & a & b & c & P & R & EI & EF & EC & EP & EB & EW & EE & _).
  apply preset_ids in P. apply runtime_names in R. cbv zeta in R.
  assert (RI : forall y, In y (nodup (list_eq_dec N.eq_dec) ids) -> In y natives).
  { intros y I. apply nodup_In in I. subst ids. destruct (o_native o); [|destruct I]. unfold native_root in I. pose proof (native_ids (to_jsx uni camel d) y) as H.
    destruct (to_native (to_jsx uni camel d)) as [[k|] l]; exact (H I). }
  destruct (native_once o m (nodup (list_eq_dec N.eq_dec) ids) (NoDup_nodup _ _) RI) as [NN NR].
  set (nat := imports_of (native_imports o m (nodup (list_eq_dec N.eq_dec) ids))) in *.
  assert (IM : imported x = imports_of a ++ nat ++ imports_of b ++ imports_of c) by (unfold imported; rewrite EI, !flat_map_app; reflexivity).
  set (rest := imports_of a ++ imports_of b ++ imports_of c).
  assert (XR : forall y, In y (imported x) <-> In y nat \/ In y rest) by (intros y; rewrite IM; subst rest; rewrite !in_app_iff; tauto).
  assert (RR : (forall y, In y rest -> In y [lit "forwardRef"; lit "memo"; lit "React"; lit "h"] \/ (y = lit "SVGProps" /\ expands o && m_typescript m && negb (o_native o) = true)) /\ NoDup rest).
  { subst rest. unfold runtime_of in R. rewrite MI in R. unfold extra in R. destruct (m_runtime m); cbn [r_source_namespace r_namespace r_specifiers r_default named_of app] in R; destruct R as [[-> ->] ->];
      (split; [intros y I; destruct (o_ref o), (m_memo m), (expands o && m_typescript m && negb (o_native o)); vm_compute in I; repeat (destruct I as [<-|I]; [vm_compute; auto 10|]); destruct I|
       apply distinct_ok; destruct (o_ref o), (m_memo m), (expands o && m_typescript m && negb (o_native o)); vm_compute; reflexivity]). }
  destruct RR as [RR RN].
  assert (AP : forall y, In y nat -> ~ In y rest).
  { intros y I J. apply RR in J. apply NR in I. destruct I as [I|(-> & I1 & I2)].
    - apply natives_apart in I. apply I. destruct J as [J|[-> _]]; [|vm_compute; auto 10]. cbn in J |- *. tauto.
    - destruct J as [J|[_ J]]; [vm_compute in J; repeat destruct J as [J|J]; try discriminate; exact J|]. rewrite I1, andb_false_r in J. discriminate. }
  assert (IN : NoDup (imported x)).
  { rewrite IM. apply (Permutation_NoDup (l := nat ++ rest)); [|apply apart_app; assumption]. apply Permutation_app_swap_app. }
  assert (KN : forall y, In y (imported x) -> In y (natives ++ made_up)).
  { intros y I. apply XR in I. apply in_app_iff. destruct I as [I|I]; [apply NR in I; destruct I as [I|[-> _]]; [auto|right; vm_compute; auto 10]|]. apply RR in I. right. destruct I as [I|[-> _]]; [|vm_compute; auto 10]. cbn in I |- *. tauto. }
  assert (WR : forall y, In y [lit "ForwardRef"; lit "Memo"] -> ~ In y (imported x)).
  { intros y I J. assert (M : In y made_up) by (cbn in I |- *; tauto). apply XR in J. destruct J as [J|J].
    - apply NR in J. destruct J as [J|[-> _]]; [apply natives_apart in J; contradiction|]. destruct I as [I|[I|[]]]; vm_compute in I; discriminate I.
    - apply RR in J. destruct J as [J|[-> _]]; [|destruct I as [I|[I|[]]]; vm_compute in I; discriminate I].
      destruct I as [<-|[<-|[]]]; destruct J as [J|[J|[J|[J|[]]]]]; vm_compute in J; discriminate J. }
  split.
  - unfold declared. rewrite EC, EW. unfold make_wrappers. cbn [fst].
    assert (M1 : m_name m <> lit "ForwardRef") by (intros X; apply F1; rewrite X; cbn; tauto). assert (M2 : m_name m <> lit "Memo") by (intros X; apply F1; rewrite X; cbn; tauto).
    assert (M3 : lit "ForwardRef" <> lit "Memo") by (intros X; vm_compute in X; discriminate X).
    apply apart_app; [exact IN| |].
    + destruct (o_ref o), (m_memo m); cbn [app map fst]; repeat (constructor; [cbn [In]; intuition congruence|]); constructor.
    + intros y I J. destruct J as [J|J].
      * rewrite J in F1, F2. apply KN in I. apply in_app_iff in I. tauto.
      * apply (WR y); [|exact I]. destruct (o_ref o), (m_memo m); cbn [app map fst In] in J |- *; tauto.
  - rewrite EF. unfold make_interfaces. intros y I J. destruct ((o_title o || o_desc o) && m_typescript m); [|destruct I]. destruct I as [<-|[]]. cbn [fst] in J. apply KN in J. apply ends_props in J. contradiction.
Qed.
(** A module. *)
Lemma root_replaced root tag id child a sc kids cl : tag <> root -> exists a' sc' ks cl', replace_element tag id child root (JElement root a sc kids cl) = inr (JElement root a' sc' ks cl').
Proof.
  intros T. unfold replace_element. destruct (update_first tag _ _) as [j|] eqn:U.
  - apply update_other_root in U; [|intros X; apply T; symmetry; exact X]. destruct U as (ks & ->). eauto.
  - rewrite update_element, teq_refl. cbn [insert_first]. eauto.
Qed.
Lemma preset_root parse o a sc kids cl : (forall t, In t (map snd (o_svg_props o ++ o_replace o)) -> ~ invalid parse t) ->
  exists n a' sc' ks cl' ids, preset parse o (JElement (lit "svg") a sc kids cl) = inr (JElement n a' sc' ks cl', ids).
Proof.
  intros V. unfold preset.
  assert (R : exists kids' cl' ids, (if o_native o then native_root (JElement (lit "svg") a sc kids cl) else (JElement (lit "svg") a sc kids cl, [])) = (JElement (if o_native o then lit "Svg" else lit "svg") a sc kids' cl', ids)).
  { destruct (o_native o); [|eauto]. unfold native_root. rewrite (native_element (lit "svg") a sc kids cl (lit "Svg") eq_refl). cbn [fst]. eauto. }
  destruct R as (k0 & c0 & ids & ->). set (root := if o_native o then lit "Svg" else lit "svg").
  rewrite update_element, teq_refl, map_app in *.
  destruct (parse_values_spec parse (o_svg_props o)) as [(vs & -> & _)|(t & _ & I & X)]; [|exfalso; apply (V t); [apply in_app_iff; auto|exact X]].
  rewrite update_element, teq_refl. cbn [change_svg].
  destruct (parse_values_spec parse (o_replace o)) as [(rs & -> & _)|(t & _ & I & X)]; [|exfalso; apply (V t); [apply in_app_iff; auto|exact X]].
  assert (F : exists a' sc' ks' cl', fold_left (fun j p => set_value_recursive (fst p) (snd p) j) rs (JElement root (svg_attrs o vs a) sc k0 c0) = JElement root a' sc' ks' cl').
  { generalize (svg_attrs o vs a). clear. revert sc k0 c0. generalize root. induction rs as [|p rs IH]; intros r sc kids cl l; cbn [fold_left]; [eauto|]. cbn [set_value_recursive]. apply IH. }
  destruct F as (a1 & sc1 & k1 & c1 & ->).
  assert (D : exists a' sc' ks cl', (if o_desc o then replace_element (if o_native o then lit "Desc" else lit "desc") (lit "descId") (lit "desc") root (JElement root a1 sc1 k1 c1) else inr (JElement root a1 sc1 k1 c1)) = inr (JElement root a' sc' ks cl')).
  { destruct (o_desc o); [apply root_replaced; subst root; destruct (o_native o); discriminate|eauto]. }
  destruct D as (a2 & sc2 & k2 & c2 & ->).
  destruct (o_title o); [|eauto 10]. destruct (root_replaced root (if o_native o then lit "Title" else lit "title") (lit "titleId") (lit "title") a2 sc2 k2 c2) as (a3 & sc3 & k3 & c3 & ->);
    [subst root; destruct (o_native o); discriminate|]. eauto 10.
Qed.
Lemma find_none_all ident l : (forall y, In y l -> ident y = true) -> find (fun x : text => negb (ident x)) l = None.
Proof. induction l as [|y l IH]; intros H; cbn [find]; [reflexivity|]. rewrite (H y (or_introl eq_refl)). cbn [negb]. apply IH. intros z I. apply H. right. exact I. Qed.
Lemma total_ok uni camel parse ident o m d a sc kids cl : to_jsx uni camel d = JElement (lit "svg") a sc kids cl -> (forall t, In t (map snd (o_svg_props o ++ o_replace o)) -> ~ invalid parse t) ->
  (forall y, In y (given_names m) -> ident y = true) -> exists x, transform uni camel parse ident o m d = Module x.
Proof.
  intros E V G. unfold transform. rewrite E. destruct (preset_root parse o a sc kids cl V) as (n & a' & sc' & ks & cl' & ids & ->). unfold make_module, runtime_imports.
  unfold given_names in G. rewrite find_none_all by (intros y I; apply G; rewrite !in_app_iff; auto).
  rewrite find_none_all by (intros y I; apply G; rewrite !in_app_iff; rewrite in_app_iff in I; unfold named_of; tauto).
  unfold make_wrappers.
  assert (X : (if m_named m then find (fun n => negb (ident n)) match m_export m with Some n => [n] | None => [] end else None) = None).
  { destruct (m_named m); [|reflexivity]. apply find_none_all. intros y I. apply G. rewrite !in_app_iff. unfold named_of. auto. }
  rewrite X. eauto.
Qed.

Lemma params_ok uni camel parse ident o m d x : transform uni camel parse ident o m d = Module x -> called_right x.
Proof.
  intros T. apply transform_parts in T. destruct T as (j & ids & a & b & c & P & R & EI & _ & EC & EP & EB & EW & EE & _).
  unfold called_right. rewrite EP, EW. clear.
  assert (NR : forall r, ~ In (lit "ref") (taken o ++ match (if expands o then Some (lit "props") else None) with Some x => [x] | None => [] end) /\ ~ In (lit "ref") (param_names (PName (lit "props") r)) /\ ~ In (lit "ref") (param_names (PName (lit "_") r))).
  { intros r. unfold taken. destruct (o_title o), (o_desc o), (expands o); (split; [|split]; intros X; vm_compute in X; repeat destruct X as [X|X]; discriminate X || exact X). }
  unfold make_params, make_wrappers. cbn [fst]. destruct (o_ref o).
  - change (existsb _ _) with true. cbn iota. destruct (o_title o || o_desc o); [|destruct (expands o)]; eexists; eexists; (split; [reflexivity|split; [reflexivity|]]); apply (NR []) || apply (NR (if m_typescript m then [props_ident m] else [])).
  - replace (existsb _ _) with false by (destruct (m_memo m); reflexivity). eexists. split; [reflexivity|].
    destruct (o_title o || o_desc o); [|destruct (expands o)]; cbn [List.length flat_map param_names]; rewrite ?app_nil_r; (split; [auto|]); try apply (NR []). intros [].
Qed.
