(** Property theorems C32, C33 (jobs on namespaces). *)
From Coq Require Import String List NArith Bool Arith.
From Verif Require Import Chars NameModel NsModel NsSpec LintSpec NsJobsModel NsJobsSpec NsJobsProofs NsJobsProofs2.
Import ListNotations.

(* ------------------------------------------------------------------ C32 *)

(** Every child of the document stays as it is, except that [svg] roots lose exactly the prefixed
    declarations whose namespace no prefixed element or attribute of the document has. *)
Theorem C32_exact doc :
  Forall2 (fun n n' => (svg_root n -> n' = with_used (flat_map prefixed_uris doc) n) /\ (~ svg_root n -> n' = n))
    doc (remove_unused_ns doc).
Proof. exact (unused_shape doc). Qed.
Print Assumptions C32_exact.

(** When names agree with the declarations around them, every name keeps its meaning. *)
Theorem C32_meaning doc : Forall (consistent []) doc ->
  map (mean_parsed []) (remove_unused_ns doc) = map (mean_parsed []) doc.
Proof. exact (unused_mean doc). Qed.
Print Assumptions C32_meaning.

(** A document that declares everything once means the same after parsing and the job. *)
Theorem C32_source s : declared_once s -> all_bound [] s -> named_from_outside s ->
  map (mean_parsed []) (remove_unused_ns [parse_root s]) = [mean_src [] s].
Proof. exact (unused_source s). Qed.
Print Assumptions C32_source.

Definition svg (own : list decl) (kids : list src) : src :=
  SElem ((None, lit "http://www.w3.org/2000/svg") :: own) None (lit "svg") [] kids.
Definition pre (n u : string) : decl := (Some (lit n), lit u).
Definition C32_doc : src :=
  svg [pre "a" "u"; pre "b" "v"; pre "c" "w"]
    [SElem [] (Some (lit "a")) (lit "x") [] []; SElem [] None (lit "g") [(Some (lit "c"), lit "k", lit "1")] []].
Example C32_example :
  declared_once C32_doc /\ all_bound [] C32_doc /\ named_from_outside C32_doc /\
  map (fun n => match n with PElem _ attrs _ => declared attrs | POther _ => [] end) (remove_unused_ns [parse_root C32_doc]) =
    [[(None, lit "http://www.w3.org/2000/svg"); pre "a" "u"; pre "c" "w"]].
Proof.
  split; [|split; [|split; [|vm_compute; reflexivity]]].
  - split; [|split].
    + repeat constructor; cbn; intros H; repeat (destruct H as [H|H]; try discriminate H); exact H.
    + repeat constructor; cbn; intros H; repeat (destruct H as [H|H]; try discriminate H); exact H.
    + cbn. intros H; repeat (destruct H as [H|H]; try discriminate H); exact H.
  - split; [discriminate|]. split; [constructor|]. split; [|split; [|exact Logic.I]].
    + split; [discriminate|]. split; [constructor|exact Logic.I].
    + split; [discriminate|]. split; [|exact Logic.I]. constructor; [discriminate|constructor].
  - split; [left; reflexivity|]. split; [|split; [|exact Logic.I]].
    + split; [|exact Logic.I]. right. intros [].
    + split; [left; reflexivity|exact Logic.I].
Qed.
(** Where parsing has moved a name to an outer namespace of the same prefix (C34), the outer
    declaration is removed: the prefix is then undeclared. *)
Example C32_moved :
  let s := svg [pre "a" "v"] [SElem [pre "a" "u"] None (lit "g") [] []; SElem [pre "a" "u"] None (lit "g") [] [SElem [] (Some (lit "a")) (lit "x") [] []]] in
  map (fun n => match n with PElem _ attrs _ => declared attrs | POther _ => [] end) (remove_unused_ns [parse_root s]) =
    [[(None, lit "http://www.w3.org/2000/svg")]].
Proof. vm_compute. reflexivity. Qed.

(* ------------------------------------------------------------------ C33 *)

(** For both settings, all nodes stay apart from a title put in for [xlink:title], and the known
    attributes outside of the xlink namespace stay, in order, apart from [target] and [href] added
    for [xlink:show] and [xlink:href]. *)
Theorem C33_known_partial include_legacy t : changed known_outside include_legacy t (remove_xlink include_legacy t).
Proof. exact (known_changed include_legacy t). Qed.
Print Assumptions C33_known_partial.

(** The same for all attributes when legacy elements are included, or when every attribute outside of
    the xlink namespace is known. *)
Theorem C33_outside_partial include_legacy t : include_legacy = true \/ all_known_names t ->
  changed outside include_legacy t (remove_xlink include_legacy t).
Proof. exact (outside_changed include_legacy t). Qed.
Print Assumptions C33_outside_partial.

(** No declaration of the xlink namespace is left. *)
Theorem C33_declarations include_legacy t : no_declaration (remove_xlink include_legacy t).
Proof. exact (no_decl_left include_legacy t (Stacks [] [] [])). Qed.
Print Assumptions C33_declarations.

(** When each xlink attribute has a replacement, nothing is left in the xlink namespace. *)
Theorem C33_declared_partial include_legacy t : convertible include_legacy t ->
  no_xlink (remove_xlink include_legacy t) /\ xlink_declared false (remove_xlink include_legacy t) = true.
Proof. exact (xlink_clean include_legacy t). Qed.
Print Assumptions C33_declared_partial.

Definition xl : text := lit "http://www.w3.org/1999/xlink".
Definition data_x : xattr := XUnknown (mkName (PKnown SVG) (lit "data-x")) (lit "1").
(** [<rect data-x="1"/>] loses its attribute. *)
Theorem C33_unknown_refuted : exists t, t = XE (lit "rect") false [data_x] [] /\ outside data_x = true /\
  remove_xlink false t = XE (lit "rect") false [] [].
Proof. eexists. split; [reflexivity|]. split; vm_compute; reflexivity. Qed.
Print Assumptions C33_unknown_refuted.

(** With both [href] and [xlink:href], the latter stays but its declaration goes, for both settings. *)
Theorem C33_undeclared_refuted : exists t,
  t = XE (lit "svg") false [XDecl (lit "xlink") xl] [XE (lit "use") false [XKnown Href (lit "#a"); XKnown XHref (lit "#a")] []] /\
  xlink_declared false t = true /\
  forall include_legacy, remove_xlink include_legacy t = XE (lit "svg") false [] [XE (lit "use") false [XKnown Href (lit "#a"); XKnown XHref (lit "#a")] []].
Proof. eexists. split; [reflexivity|]. split; [vm_compute; reflexivity|]. intros []; vm_compute; reflexivity. Qed.
Print Assumptions C33_undeclared_refuted.

(** A legacy element keeps its [xlink:href], and again the declaration goes. *)
Theorem C33_legacy_refuted : exists t,
  t = XE (lit "svg") false [XDecl (lit "xlink") xl] [XE (lit "cursor") true [XKnown XHref (lit "#a")] []] /\
  xlink_declared false t = true /\
  remove_xlink false t = XE (lit "svg") false [] [XE (lit "cursor") true [XKnown XHref (lit "#a")] []].
Proof. eexists. split; [reflexivity|]. split; vm_compute; reflexivity. Qed.
Print Assumptions C33_legacy_refuted.

Definition C33_doc : xtree :=
  XE (lit "svg") false [XDecl (lit "xlink") xl; XKnown (Known 0) (lit "10")]
    [XE (lit "a") false [XKnown XHref (lit "#b"); XKnown (Known 1) (lit "red"); XKnown XShow (lit "new"); XKnown XTitle (lit "T"); XKnown XType (lit "simple")] [XT (lit "t")]].
Example C33_example : convertible false C33_doc /\ all_known_names C33_doc /\
  remove_xlink false C33_doc =
  XE (lit "svg") false [XKnown (Known 0) (lit "10")]
    [XE (lit "a") false [XKnown (Known 1) (lit "red"); XKnown Target (lit "_blank"); XKnown Href (lit "#b")] [XE (lit "title") false [] [XT (lit "T")]; XT (lit "t")]].
Proof.
  split; [|split; [|vm_compute; reflexivity]].
  - split.
    + split; [cbn; auto|]. split; [cbn; auto|]. split; [cbn; auto|]. split; [left; reflexivity|]. split; [reflexivity|]. split; [reflexivity|].
      intros q v [E|[E|[]]]; discriminate E.
    + split; [|exact Logic.I]. split; [|split; exact Logic.I].
      split; [cbn; auto|]. split; [cbn; auto|]. split; [cbn; auto|]. split; [right; reflexivity|]. split; [discriminate|].
      split; [intros [H|[H _]]; [destruct (H eq_refl)|discriminate H]|].
      intros q v H. repeat (destruct H as [H|H]; [discriminate H|]). destruct H.
  - split.
    + intros a [<-|[<-|[]]]; [discriminate|eauto].
    + split; [|exact Logic.I]. split; [|split; exact Logic.I].
      intros a H _. repeat (destruct H as [<-|H]; [eauto|]). destruct H.
Qed.
