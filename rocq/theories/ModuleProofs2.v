From Coq Require Import String List NArith ZArith QArith Bool Lia.
From Verif Require Import Chars NameModel AttrTable ElemModel TextModel JsxNamesModel JsxModel JsxSpec JsxProofs PresetModel PresetSpec PresetProofs PresetProofs2 PresetProofs3 PresetProofs4 ModuleModel ModuleSpec ModuleProofs.
Import ListNotations.

Local Notation imports_of p := (flat_map (fun i : text * list specifier => map local (snd i)) p).
(** The parts of a module. *)
Lemma transform_parts uni camel parse ident o m d x : transform uni camel parse ident o m d = Module x ->
  exists j ids a b c, preset parse o (to_jsx uni camel d) = inr (j, ids) /\ runtime_imports ident o m = inr (a, b, c) /\
    imports x = a ++ native_imports o m (nodup (list_eq_dec N.eq_dec) ids) ++ b ++ c /\ interfaces x = make_interfaces o m /\ component_name x = m_name m /\ params x = make_params o m /\ body x = j /\
    wrappers x = fst (make_wrappers o m) /\ exported x = snd (make_wrappers o m) /\
    exported_as x = (if m_named m then Some (match m_export m with Some n => n | None => snd (make_wrappers o m) end) else None).
Proof.
  unfold transform. intros E. destruct (preset parse o (to_jsx uni camel d)) as [|(j & ids)]; [discriminate|]. unfold make_module in E.
  destruct (runtime_imports ident o m) as [|((a & b) & c)]; [discriminate|]. unfold make_wrappers in E.
  destruct (if m_named m then _ else None); [discriminate|]. exists j, ids, a, b, c.
  destruct j; try discriminate; injection E as <-; cbn [imports interfaces component_name params body wrappers exported exported_as];
    (split; [reflexivity|]); (split; [reflexivity|]); repeat (split; [reflexivity|]); reflexivity.
Qed.
Definition extra (o : options) (m : moptions) : list text :=
  (if o_ref o then [lit "forwardRef"] else []) ++ (if m_memo m then [lit "memo"] else []) ++ (if expands o && m_typescript m && negb (o_native o) then [lit "SVGProps"] else []).
(** The names that are imported for the runtime. *)
Lemma runtime_names ident o m a b c : runtime_imports ident o m = inr (a, b, c) ->
  let r := runtime_of m in
  (match r_source_namespace r with
   | Some _ => imports_of a = named_of (r_namespace r) ++ extra o m /\ imports_of b = r_specifiers r
   | None => imports_of a = named_of (r_namespace r) /\ imports_of b = r_specifiers r ++ extra o m
   end) /\ imports_of c = named_of (r_default r).
Proof.
  unfold runtime_imports. destruct (find _ (r_specifiers _)); [discriminate|]. destruct (find _ (_ ++ _)); [discriminate|]. intros E. cbv zeta.
  assert (X : forall (f : list specifier -> text * list specifier) l, (forall l, snd (f l) = l) -> imports_of match l with [] => [] | l => [f l] end = map local l).
  { intros f l F. destruct l; [reflexivity|]. cbn [flat_map]. rewrite F, app_nil_r. reflexivity. }
  set (ex := (if o_ref o then [SNamed (lit "forwardRef")] else []) ++ (if m_memo m then [SNamed (lit "memo")] else []) ++
      (if expands o && m_typescript m && negb (o_native o) then [SNamed (lit "SVGProps")] else [])) in *.
  assert (EX : map local ex = extra o m).
  { subst ex. unfold extra. rewrite !map_app. destruct (o_ref o), (m_memo m), (expands o && m_typescript m && negb (o_native o)); reflexivity. }
  clearbody ex. injection E as <- <- <-.
  assert (S : map local (map SNamed (r_specifiers (runtime_of m))) = r_specifiers (runtime_of m)) by (rewrite map_map; cbn [local]; apply map_id).
  split; [|destruct (r_default (runtime_of m)); reflexivity].
  destruct (r_source_namespace (runtime_of m)) as [s|].
  - rewrite (X (pair s)), (X (pair (r_source (runtime_of m)))) by reflexivity. rewrite !map_app, app_nil_r, S, EX.
    split; [|reflexivity]. destruct (r_namespace (runtime_of m)); reflexivity.
  - rewrite !(X (pair (r_source (runtime_of m)))) by reflexivity. rewrite !map_app, app_nil_r, S, EX.
    split; [|reflexivity]. destruct (r_namespace (runtime_of m)); reflexivity.
Qed.
Lemma preset_ids parse o j k ids : preset parse o j = inr (k, ids) -> ids = snd (if o_native o then native_root j else (j, [])).
Proof.
  unfold preset. destruct (if o_native o then native_root j else (j, [])) as [j1 ids1]. intros P. cbn [snd].
  destruct (update_first _ (fun k => k) j1) as [jx|]; [|discriminate]. destruct (parse_values parse (o_svg_props o)) as [|vs]; [discriminate|].
  destruct (update_first _ (change_svg o vs) j1) as [j2|]; [|discriminate]. destruct (parse_values parse (o_replace o)) as [|rs]; [discriminate|].
  destruct (if o_desc o then _ else _) as [|j4]; [discriminate|]. destruct (if o_title o then _ else _) as [|j5]; [discriminate|]. injection P as _ <-. reflexivity.
Qed.
Lemma native_has o m ids x : o_native o = true -> In x ids \/ (o_title o = true /\ x = lit "Title") \/ (o_desc o = true /\ x = lit "Desc") \/ (m_typescript m = true /\ expands o = true /\ x = lit "SVGProps") ->
  In x (imports_of (native_imports o m ids)).
Proof.
  intros N H. unfold native_imports. rewrite N. cbn [flat_map snd]. rewrite app_nil_r, !map_app, map_map, !in_app_iff. cbn [local].
  assert (HAS : forall y, existsb (text_eqb y) ids = true <-> In y ids).
  { intros y. rewrite existsb_exists. split; [intros (z & I & E); apply text_eqb_spec in E; subst; exact I|intros I; exists y; split; [exact I|apply teq_refl]]. }
  assert (MEM : In x ids -> In x (map local (if existsb (text_eqb (lit "Svg")) ids then [SDefault (lit "Svg")] else [])) \/ In x (map (fun x => x) (filter (fun x => negb (text_eqb x (lit "Svg"))) ids))).
  { intros I. destruct (text_eqb x (lit "Svg")) eqn:E.
    - apply text_eqb_spec in E. subst x. left. rewrite (proj2 (HAS _) I). left. reflexivity.
    - right. rewrite map_id. apply filter_In. rewrite E. auto. }
  destruct H as [I|[(T & ->)|[(D & ->)|(T & E & ->)]]].
  - destruct (MEM I) as [X|X]; auto.
  - rewrite T. cbn [andb]. destruct (existsb (text_eqb (lit "Title")) ids) eqn:E; [|cbn [negb map In]; auto 10]. apply HAS in E.
    destruct (in_dec (list_eq_dec N.eq_dec) (lit "Title") ids) as [I|]; [|contradiction]. right. right. left. rewrite map_id. apply filter_In. split; [exact I|reflexivity].
  - rewrite D. cbn [andb]. destruct (existsb (text_eqb (lit "Desc")) ids) eqn:E; [|cbn [negb map In]; auto 10]. apply HAS in E.
    right. right. left. rewrite map_id. apply filter_In. split; [exact E|reflexivity].
  - rewrite T, E. cbn [andb]. right. left. left. reflexivity.
Qed.
Lemma extra_imported ident o m a b c n x : runtime_imports ident o m = inr (a, b, c) -> In x (extra o m) -> In x (imports_of (a ++ n ++ b ++ c)).
Proof.
  intros R I. apply runtime_names in R. cbv zeta in R. rewrite !flat_map_app, !in_app_iff. destruct R as [R _]. destruct (r_source_namespace (runtime_of m)); destruct R as [-> ->]; rewrite !in_app_iff; auto.
Qed.
Lemma params_have o m x : In x (taken o) \/ (expands o = true /\ x = lit "props") \/ (o_ref o = true /\ x = lit "ref") -> In x (flat_map param_names (make_params o m)).
Proof.
  intros H. unfold make_params.
  assert (F : (In x (taken o) \/ (expands o = true /\ x = lit "props")) ->
    In x (flat_map param_names (if o_title o || o_desc o then [PObject (taken o) (if expands o then Some (lit "props") else None) (if m_typescript m then if expands o then [lit "SVGProps"; lit "SVGSVGElement"; props_ident m] else [props_ident m] else [])]
      else if expands o then [PName (lit "props") (if m_typescript m then [props_ident m] else [])] else []))).
  { clear H. intros [I|(E & ->)].
    - destruct (o_title o || o_desc o) eqn:TD; [cbn [flat_map param_names]; rewrite app_nil_r; apply in_app_iff; auto|]. unfold taken in I. apply orb_false_iff in TD. destruct TD as [T D]. rewrite T, D in I. destruct I.
    - rewrite E. destruct (o_title o || o_desc o); cbn [flat_map param_names]; [rewrite app_nil_r; apply in_app_iff; right; left; reflexivity|left; reflexivity]. }
  set (first := if o_title o || o_desc o then _ else _) in *. clearbody first.
  destruct (o_ref o); [|destruct H as [I|[I|(X & _)]]; [auto|auto|discriminate]].
  rewrite flat_map_app, in_app_iff. destruct H as [I|[I|(_ & ->)]]; [left|left|right; left; reflexivity].
  - destruct first; [destruct F; auto|auto].
  - destruct first; [destruct F; auto|auto].
Qed.
Lemma scope_ok uni camel parse ident o m d x : (forall e, In e (jelems (to_jsx uni camel d)) -> intrinsic (jname e) = true) -> transform uni camel parse ident o m d = Module x -> in_scope x.
Proof.
  intros N T. apply transform_parts in T. destruct T as (j & ids & a & b & c & P & R & EI & _ & EC & EP & EB & EW & EE & _). pose proof (preset_ids _ _ _ _ _ P) as PI. apply preset_within in P; [|exact N].
  unfold in_scope, declared, imported. rewrite EI, EC, EP, EB, EW, EE. clear EI EC EP EB EW EE N. refine (conj _ (conj _ _)).
  - intros y I. apply P in I. destruct I as [I|[I|[I|[I|(NA & I)]]]].
    + right. rewrite !flat_map_app, !in_app_iff. right. left. destruct (o_native o) eqn:NA.
      * apply native_has; [exact NA|]. left. apply nodup_In, I.
      * cbn [snd] in PI. subst ids. destruct I.
    + left. apply params_have. auto.
    + left. apply params_have. auto.
    + left. apply params_have. auto.
    + right. rewrite !flat_map_app, !in_app_iff. right. left. apply native_has; [exact NA|]. tauto.
  - intros before w f y after E. unfold make_wrappers in E. cbn [fst] in E.
    assert (EX : (o_ref o = true -> In (lit "forwardRef") (extra o m)) /\ (m_memo m = true -> In (lit "memo") (extra o m))).
    { unfold extra. rewrite !in_app_iff. split; intros ->; [left|right; left]; left; reflexivity. }
    destruct EX as [E1 E2]. destruct (o_ref o) eqn:OR, (m_memo m) eqn:OM; cbn [app] in E.
    + destruct before as [|w0 before]; [injection E as <- <- <- _; split; [eapply extra_imported; [exact R|auto]|auto]|]. cbn [app] in E. injection E as <- E.
      destruct before as [|w1 before]; [injection E as <- <- <- _; split; [eapply extra_imported; [exact R|auto]|right; left; reflexivity]|]. cbn [app] in E. injection E as _ E. destruct before; discriminate.
    + destruct before as [|w0 before]; [injection E as <- <- <- _; split; [eapply extra_imported; [exact R|auto]|auto]|]. cbn [app] in E. injection E as <- E. destruct before; discriminate.
    + destruct before as [|w0 before]; [injection E as <- <- <- _; split; [eapply extra_imported; [exact R|auto]|auto]|]. cbn [app] in E. injection E as <- E. destruct before; discriminate.
    + destruct before; discriminate.
  - apply in_app_iff. right. unfold make_wrappers. cbn [fst snd]. destruct (m_memo m), (o_ref o); cbn [app map fst In]; auto.
Qed.

(** Types. *)
Lemma types_ok uni camel parse ident o m d x : m_typescript m = false \/ (o_ref o = false /\ (o_title o = true \/ o_desc o = true \/ expands o = false)) ->
  transform uni camel parse ident o m d = Module x -> types_in_scope x.
Proof.
  intros H T. apply transform_parts in T. destruct T as (j & ids & a & b & c & P & R & EI & EF & EC & EP & EB & EW & EE & _).
  unfold types_in_scope, imported. rewrite EI, EF, EP. intros y I. unfold make_params in I.
  destruct (m_typescript m) eqn:TS.
  - destruct H as [H|(OR & H)]; [discriminate|]. rewrite OR in I. unfold make_interfaces. rewrite TS.
    destruct (o_title o || o_desc o) eqn:TD.
    + cbn [andb map fst]. cbn [flat_map param_types] in I. rewrite app_nil_r in I. destruct (expands o) eqn:EX.
      * destruct I as [<-|[<-|[<-|[]]]]; [|right; right; reflexivity|left; left; reflexivity]. right. left. destruct (o_native o) eqn:NA.
        -- rewrite !flat_map_app, !in_app_iff. right. left. apply native_has; [exact NA|]. right. right. right. split; [exact TS|split; [exact EX|reflexivity]].
        -- eapply extra_imported; [exact R|]. unfold extra. rewrite EX, TS, NA. rewrite !in_app_iff. right. right. left. reflexivity.
      * destruct I as [<-|[]]. left. left. reflexivity.
    + apply orb_false_iff in TD. destruct TD as [TD1 TD2]. destruct H as [H|[H|H]]; [congruence|congruence|]. rewrite H in I. destruct I.
  - exfalso. destruct (o_title o || o_desc o), (expands o), (o_ref o); cbn in I; exact I.
Qed.
(** What is exported. *)
Lemma export_ok uni camel parse ident o m d x : transform uni camel parse ident o m d = Module x -> NoDup (component_name x :: map (fun w => fst (fst w)) (wrappers x)) ->
  (forall l, wrapped x (exported x) l <-> l = (if m_memo m then [lit "memo"] else []) ++ (if o_ref o then [lit "forwardRef"] else [])) /\
  exported_as x = (if m_named m then Some (match m_export m with Some n => n | None => exported x end) else None).
Proof.
  intros T ND. apply transform_parts in T. destruct T as (j & ids & a & b & c & P & R & EI & EF & EC & EP & EB & EW & EE & EA).
  split; [|rewrite EA, EE; reflexivity]. rewrite EE. rewrite EC, EW in ND. clear EI EF EP EB EE EA P R a b c j ids.
  assert (BASE : forall l, wrapped x (m_name m) l -> l = []).
  { intros l H. inversion H as [|w f a l' I _ E]; subst; [reflexivity|]. exfalso. rewrite EW in I. inversion ND as [|? ? NI _]; subst. apply NI.
    apply (in_map (fun w => fst (fst w))) in I. exact I. }
  assert (B0 : wrapped x (m_name m) []) by (rewrite <- EC; constructor).
  assert (FR : o_ref o = true -> forall l, wrapped x (lit "ForwardRef") l -> l = [lit "forwardRef"]).
  { intros OR l H. unfold make_wrappers in EW, ND. rewrite OR in EW, ND. cbn [fst] in EW, ND. inversion H as [E|w f a l' I H' E]; subst.
    - exfalso. inversion ND as [|? ? NI _]; subst. apply NI. left. cbn [fst]. rewrite <- EC. symmetry. exact E.
    - rewrite EW in I. destruct I as [I|I].
      + injection I as <- <-. rewrite (BASE l'); [reflexivity|exact H'].
      + destruct (m_memo m); [|destruct I]. destruct I as [I|[]]. apply (f_equal (fun w => fst (fst w))) in I. vm_compute in I. discriminate I. }
  assert (FR' : o_ref o = true -> wrapped x (lit "ForwardRef") [lit "forwardRef"]).
  { intros OR. apply w_wrapper with (a := m_name m); [|exact B0]. rewrite EW. unfold make_wrappers. rewrite OR. left. reflexivity. }
  unfold make_wrappers. cbn [snd]. destruct (m_memo m) eqn:OM.
  - assert (U : forall l, wrapped x (lit "Memo") l -> exists l', l = lit "memo" :: l' /\ wrapped x (if o_ref o then lit "ForwardRef" else m_name m) l').
    { intros l H. unfold make_wrappers in EW, ND. rewrite OM in EW, ND. cbn [fst] in EW, ND. inversion H as [E|w f a l' I H' E]; subst.
      - exfalso. inversion ND as [|? ? NI _]; subst. apply NI. rewrite map_app. apply in_app_iff. right. left. cbn [fst]. rewrite <- EC. symmetry. exact E.
      - rewrite EW in I. apply in_app_iff in I. destruct I as [I|[I|[]]].
        + destruct (o_ref o); [|destruct I]. destruct I as [I|[]]. apply (f_equal (fun w => fst (fst w))) in I. vm_compute in I. discriminate I.
        + injection I as <- <-. exists l'. auto. }
    assert (U' : forall l, wrapped x (if o_ref o then lit "ForwardRef" else m_name m) l -> wrapped x (lit "Memo") (lit "memo" :: l)).
    { intros l H. eapply w_wrapper; [|exact H]. rewrite EW. unfold make_wrappers. rewrite OM. apply in_app_iff. right. left. reflexivity. }
    intros l. split.
    + intros H. apply U in H. destruct H as (l' & -> & H). cbn [app]. f_equal. destruct (o_ref o); [apply FR; auto|apply BASE, H].
    + intros ->. apply U'. destruct (o_ref o); [apply FR'; reflexivity|exact B0].
  - cbn [app]. intros l. destruct (o_ref o); split; [apply FR; reflexivity|intros ->; apply FR'; reflexivity|apply BASE|intros ->; exact B0].
Qed.
(** Imports. *)
Lemma formed_ok uni camel parse ident o m d x : r_source_namespace (runtime_of m) = None \/ r_namespace (runtime_of m) = None \/ (o_ref o = false /\ m_memo m = false /\ expands o && m_typescript m = false) ->
  transform uni camel parse ident o m d = Module x -> Forall well_formed (imports x).
Proof.
  intros H T. apply transform_parts in T. destruct T as (j & ids & a & b & c & P & R & EI & _). rewrite EI. clear EI P.
  assert (ST : forall i, (forall y, ~ In (SStar y) (snd i)) -> well_formed i) by (intros i X y z I; exfalso; exact (X y I)).
  assert (NM : forall i, (forall y, ~ In (SNamed y) (snd i)) -> well_formed i) by (intros i X y z I; apply X).
  unfold runtime_imports in R. destruct (find _ (r_specifiers _)); [discriminate|]. destruct (find _ (_ ++ _)); [discriminate|].
  set (ex := (if o_ref o then [SNamed (lit "forwardRef")] else []) ++ (if m_memo m then [SNamed (lit "memo")] else []) ++
      (if expands o && m_typescript m && negb (o_native o) then [SNamed (lit "SVGProps")] else [])) in *.
  assert (XS : forall y, ~ In (SStar y) ex) by (intros y; subst ex; destruct (o_ref o), (m_memo m), (expands o && m_typescript m && negb (o_native o)); cbn; intros Q; repeat destruct Q as [Q|Q]; try discriminate; exact Q).
  assert (XN : o_ref o = false /\ m_memo m = false /\ expands o && m_typescript m = false -> ex = []).
  { intros (X1 & X2 & X3). subst ex. rewrite X1, X2, X3. reflexivity. }
  clearbody ex. injection R as <- <- <-.
  assert (W : forall s l, well_formed (s, l) -> Forall well_formed match l with [] => [] | l => [(s, l)] end) by (intros s [|] X; repeat constructor; exact X).
  rewrite !Forall_app. refine (conj _ (conj _ (conj _ _))).
  - change (match ?l with [] => [] | s :: l0 => [(?s0, s :: l0)] end) with (match l with [] => [] | l => [(s0, l)] end). apply W.
    destruct (r_namespace (runtime_of m)) as [ns|] eqn:NS.
    + apply NM. intros y I. cbn [snd app] in I. destruct I as [I|I]; [discriminate|]. destruct (r_source_namespace (runtime_of m)); [|destruct I].
      destruct H as [H|[H|H]]; [discriminate|discriminate|]. rewrite (XN H) in I. destruct I.
    + apply ST. intros y I. cbn [snd app] in I. destruct (r_source_namespace (runtime_of m)); [exact (XS y I)|destruct I].
  - unfold native_imports. destruct (o_native o); [|constructor]. constructor; [|constructor]. apply ST. intros y I. cbn [snd] in I. rewrite !in_app_iff in I.
    destruct I as [I|[I|[I|[I|I]]]]; try (match type of I with In _ (if ?b then _ else _) => destruct b end; [destruct I as [I|[]]; discriminate|destruct I]).
    apply in_map_iff in I. destruct I as (z & I & _). discriminate.
  - apply W. apply ST. intros y I. cbn [snd] in I. apply in_app_iff in I. destruct I as [I|I]; [apply in_map_iff in I; destruct I as (z & I & _); discriminate|].
    destruct (r_source_namespace (runtime_of m)); [destruct I|exact (XS y I)].
  - destruct (r_default (runtime_of m)); [|constructor]. constructor; [|constructor]. apply ST. intros y [I|[]]; discriminate.
Qed.
