(** C98: the module around a component. *)
From Coq Require Import String List NArith ZArith QArith Bool.
From Verif Require Import Chars NameModel AttrTable ElemModel TextModel JsxNamesModel JsxModel JsxSpec PresetModel PresetSpec ModuleModel ModuleSpec ModuleProofs ModuleProofs2 ModuleProofs3.
Import ListNotations.

(** Every name that is used is a parameter, imported or declared before, if no element of the document is written like a component. *)
Theorem C98_scope_partial : forall uni camel parse ident o m d x, (forall e, In e (jelems (to_jsx uni camel d)) -> intrinsic (jname e) = true) ->
  transform uni camel parse ident o m d = Module x -> in_scope x.
Proof. exact scope_ok. Qed.
Print Assumptions C98_scope_partial.
(** Types are declared or imported if there is a title or a description or nothing is expanded, and no reference. *)
Theorem C98_types_partial : forall uni camel parse ident o m d x, m_typescript m = false \/ (o_ref o = false /\ (o_title o = true \/ o_desc o = true \/ expands o = false)) ->
  transform uni camel parse ident o m d = Module x -> types_in_scope x.
Proof. exact types_ok. Qed.
Print Assumptions C98_types_partial.
(** Names are declared once, if the component is not called like something else. *)
Theorem C98_once_partial : forall uni camel parse ident o m d x, m_import m = None -> free_name (m_name m) -> transform uni camel parse ident o m d = Module x -> once x.
Proof. exact once_ok. Qed.
Print Assumptions C98_once_partial.
(** The component is exported as asked for, in the wrappers that are asked for. *)
Theorem C98_export_partial : forall uni camel parse ident o m d x, transform uni camel parse ident o m d = Module x -> NoDup (component_name x :: map (fun w => fst (fst w)) (wrappers x)) ->
  (forall l, wrapped x (exported x) l <-> l = (if m_memo m then [lit "memo"] else []) ++ (if o_ref o then [lit "forwardRef"] else [])) /\
  exported_as x = (if m_named m then Some (match m_export m with Some n => n | None => exported x end) else None).
Proof. exact export_ok. Qed.
Print Assumptions C98_export_partial.
(** No import is of a namespace and of names at once, unless the runtime has a namespace from another source and a function or type is imported. *)
Theorem C98_imports_partial : forall uni camel parse ident o m d x, r_source_namespace (runtime_of m) = None \/ r_namespace (runtime_of m) = None \/ (o_ref o = false /\ m_memo m = false /\ expands o && m_typescript m = false) ->
  transform uni camel parse ident o m d = Module x -> Forall well_formed (imports x).
Proof. exact formed_ok. Qed.
Print Assumptions C98_imports_partial.
(** An svg element at the top, values and names without errors are enough for a module. *)
Theorem C98_total_partial : forall uni camel parse ident o m d a sc kids cl, to_jsx uni camel d = JElement (lit "svg") a sc kids cl ->
  (forall t, In t (map snd (o_svg_props o ++ o_replace o)) -> ~ invalid parse t) -> (forall y, In y (given_names m) -> ident y = true) ->
  exists x, transform uni camel parse ident o m d = Module x.
Proof. exact total_ok. Qed.
Print Assumptions C98_total_partial.

Definition me (n : string) : elem_id := elem_new (prefix_new (known_uri SVG) None) (lit n).
Definition mel (n : string) (kids : list xnode) : xnode := XElement (me n) [] kids.
Definition built (o : options) (m : moptions) (d : xnode) : outcome := transform (fun _ => false) (fun t => t) (fun t => Some t) (fun _ => true) o m d.
Definition icon_doc : xnode := XDocument [mel "svg" [mel "path" []]].
Definition opts (native ref title : bool) (e : expand) : options := mkOptions native [] ref title false true None e [].
Definition mods (name : string) (ts memo named : bool) : moptions := mkModule (lit name) ts memo named None Classic None.
(** A module with everything. *)
Example C98_sample : exists x, built (opts true true true End) (mods "Icon" false true true) icon_doc = Module x /\
  (forall e, In e (jelems (to_jsx (fun _ => false) (fun t => t) icon_doc)) -> intrinsic (jname e) = true) /\ free_name (m_name (mods "Icon" false true true)) /\
  NoDup (component_name x :: map (fun w => fst (fst w)) (wrappers x)) /\
  imports x = [(lit "react", [SStar (lit "React")]); (lit "react-native-svg", [SDefault (lit "Svg"); SNamed (lit "Path"); SNamed (lit "Title")]); (lit "react", [SNamed (lit "forwardRef"); SNamed (lit "memo")])] /\
  params x = [PObject [lit "title"; lit "titleId"] (Some (lit "props")) []; PName (lit "ref") []] /\
  wrappers x = [(lit "ForwardRef", lit "forwardRef", lit "Icon"); (lit "Memo", lit "memo", lit "ForwardRef")] /\ exported_as x = Some (lit "Memo").
Proof.
  eexists. split; [vm_compute; reflexivity|]. split; [|split; [|split; [|split; [vm_compute; reflexivity|split; [vm_compute; reflexivity|split; vm_compute; reflexivity]]]]].
  - intros e I. vm_compute in I. destruct I as [<-|[<-|[]]]; vm_compute; reflexivity.
  - split; [|split]; intros X; vm_compute in X; repeat destruct X as [X|X]; discriminate X || exact X.
  - cbn [component_name wrappers map fst]. repeat (constructor; [intros X; vm_compute in X; repeat destruct X as [X|X]; discriminate X || exact X|]). constructor.
Qed.
(** The component takes its parameters where React puts them. *)
Theorem C98_params uni camel parse ident o m d x : transform uni camel parse ident o m d = Module x -> called_right x.
Proof. exact (params_ok uni camel parse ident o m d x). Qed.
Print Assumptions C98_params.

(** With types, an expanded component without title refers to an interface that is not there. *)
Theorem C98_types_refuted : exists x, built (opts false false false End) (mods "Icon" true false false) icon_doc = Module x /\ ~ types_in_scope x.
Proof.
  eexists. split; [vm_compute; reflexivity|]. intros T. destruct (T (lit "IconProps")) as [I|[I|I]]; [left; reflexivity|destruct I| |vm_compute in I; discriminate I].
  vm_compute in I. repeat destruct I as [I|I]; discriminate I || exact I.
Qed.
Print Assumptions C98_types_refuted.
(** With types and a reference, the type of the reference is not imported. *)
Theorem C98_ref_type_refuted : exists x, built (opts false true true End) (mods "Icon" true false false) icon_doc = Module x /\ ~ types_in_scope x.
Proof.
  eexists. split; [vm_compute; reflexivity|]. intros T. destruct (T (lit "Ref")) as [I|[I|I]]; [vm_compute; auto 10| | |vm_compute in I; discriminate I];
    vm_compute in I; repeat destruct I as [I|I]; discriminate I || exact I.
Qed.
Print Assumptions C98_ref_type_refuted.
(** A component that is called like a wrapper is declared twice. *)
Theorem C98_once_refuted : exists x, built (opts false false false End) (mods "Memo" false true false) icon_doc = Module x /\ ~ once x.
Proof. eexists. split; [vm_compute; reflexivity|]. intros [N _]. vm_compute in N. inversion N as [|? ? _ N1]; subst. inversion N1 as [|? ? _ N2]; subst. inversion N2 as [|? ? NI _]; subst. apply NI. left. reflexivity. Qed.
Print Assumptions C98_once_refuted.
(** The properties of a component called SVG are called like the type that is imported. *)
Theorem C98_svg_refuted : exists x, built (opts false false true End) (mods "SVG" true false false) icon_doc = Module x /\ ~ once x.
Proof. eexists. split; [vm_compute; reflexivity|]. intros [_ N]. apply (N (lit "SVGProps")); vm_compute; auto. Qed.
Print Assumptions C98_svg_refuted.
(** A runtime with a namespace from another source than its names gives an import that is no import. *)
Theorem C98_imports_refuted : exists r x, built (opts false true false End) (mkModule (lit "Icon") false false false None Classic (Some r)) icon_doc = Module x /\
  ~ Forall well_formed (imports x) /\ r_specifiers r = [] /\ r_default r = None.
Proof.
  exists (mkRuntime (Some (lit "preact")) (lit "preact/compat") [] (Some (lit "P")) None). eexists. split; [vm_compute; reflexivity|]. split; [|split; reflexivity].
  intros F. inversion F as [|? ? W _]; subst. apply (W (lit "P") (lit "forwardRef")); vm_compute; auto.
Qed.
Print Assumptions C98_imports_refuted.
(** For Preact, [memo] is imported from [preact], which has none, and not from the source that is meant for it. *)
Theorem C98_preact_refuted : exists x, built (opts false false false End) (mkModule (lit "Icon") false true false None ClassicPreact None) icon_doc = Module x /\
  r_source (runtime_of (mkModule (lit "Icon") false true false None ClassicPreact None)) = lit "preact/compat" /\
  (exists l, In (lit "preact", l) (imports x) /\ In (SNamed (lit "memo")) l) /\ forall l, In (lit "preact/compat", l) (imports x) -> ~ In (SNamed (lit "memo")) l.
Proof.
  eexists. split; [vm_compute; reflexivity|]. split; [reflexivity|]. split.
  - eexists. split; [left; reflexivity|]. vm_compute. auto.
  - intros l [I|[I|[]]]; [apply (f_equal fst) in I; vm_compute in I; discriminate I|]. apply (f_equal snd) in I. cbn [snd] in I. rewrite <- I. intros X. vm_compute in X. destruct X as [X|[]]. discriminate X.
Qed.
Print Assumptions C98_preact_refuted.
(** A document whose root is a description with an svg element in it makes the program panic. *)
Theorem C98_panic_refuted : exists d, built (mkOptions false [] false false true true None End []) (mods "Icon" false false false) d = Panic.
Proof. exists (XDocument [mel "desc" [mel "svg" []]]). vm_compute. reflexivity. Qed.
Print Assumptions C98_panic_refuted.
(** An element with a capital, which browsers leave out, becomes a component that is not there. *)
Theorem C98_scope_refuted : exists d x, built (opts false false false End) (mods "Icon" false false false) d = Module x /\ ~ in_scope x.
Proof.
  exists (XDocument [mel "svg" [mel "Layer" []]]). eexists. split; [vm_compute; reflexivity|]. intros (S & _). destruct (S (lit "Layer")) as [I|I]; [vm_compute; auto| |];
    vm_compute in I; repeat destruct I as [I|I]; discriminate I || exact I.
Qed.
Print Assumptions C98_scope_refuted.
