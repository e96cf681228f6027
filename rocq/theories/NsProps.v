(** Property theorems C34 (namespaces while parsing). *)
From Coq Require Import String List NArith Bool Arith.
From Verif Require Import Chars NameModel NsModel NsSpec NsProofs.
Import ListNotations.

(* ------------------------------------------------------------------ C34 *)

(** When every prefix and every namespace is declared once in the document, every used prefix is
    declared, and no element declares the prefix it is named with, the parsed document means what
    the source means. *)
Theorem C34_parse_partial s : declared_once s -> all_bound [] s -> named_from_outside s ->
  mean_parsed [] (parse_root s) = mean_src [] s.
Proof. exact (parse_mean s). Qed.
Print Assumptions C34_parse_partial.

(** In every document, the parsed element names carry, in document order, the namespaces that are
    declared for them in the source. *)
Theorem C34_memory_partial s :
  Forall2 (fun (a : text * text) (b : option (option text) * text) =>
             snd a = snd b /\ match fst b with Some (Some u) => u <> [] -> fst a = u | _ => True end)
          (memory (parse_root s)) (element_names [] s).
Proof. exact (parse_memory s). Qed.
Print Assumptions C34_memory_partial.

Definition el (own : list decl) (pre : option string) (name : string) (attrs : list (option text * text * text)) (kids : list src) : src :=
  SElem own (match pre with Some p => Some (lit p) | None => None end) (lit name) attrs kids.
Definition pre (n u : string) : decl := (Some (lit n), lit u).
Definition dflt (u : string) : decl := (None, lit u).

(** [<a:x xmlns:a="u"/>]: the name is looked up before the declaration is added, so the prefix is
    lost and the element ends up in no namespace. *)
Theorem C34_own_declaration_refuted : exists s, declared_once s /\ all_bound [] s /\
  s = el [pre "a" "u"] (Some "a"%string) "x" [] [] /\
  mean_parsed [] (parse_root s) = XElem (Some None) (lit "x") [] [] /\
  mean_src [] s = XElem (Some (Some (lit "u"))) (lit "x") [] [].
Proof.
  eexists. split; [|split; [|split; [reflexivity|split; vm_compute; reflexivity]]].
  - split; [|split].
    + repeat constructor; cbn; intros H; repeat (destruct H as [H|H]; try discriminate H); exact H.
    + repeat constructor; cbn; intros H; repeat (destruct H as [H|H]; try discriminate H); exact H.
    + cbn. intros H; repeat (destruct H as [H|H]; try discriminate H); exact H.
  - split; [vm_compute; discriminate|]. split; [constructor|exact Logic.I].
Qed.
Print Assumptions C34_own_declaration_refuted.

(** [<r><g xmlns:a="u"/><g xmlns:a="u"><a:x/></g></r>]: the second declaration is taken for one in
    scope and dropped, leaving the prefix undeclared. *)
Theorem C34_sibling_refuted : exists s, all_bound [] s /\
  s = el [] None "r" [] [el [pre "a" "u"] None "g" [] []; el [pre "a" "u"] None "g" [] [el [] (Some "a"%string) "x" [] []]] /\
  mean_parsed [] (parse_root s) =
    XElem (Some None) (lit "r") [] [XElem (Some None) (lit "g") [] []; XElem (Some None) (lit "g") [] [XElem None (lit "x") [] []]] /\
  mean_src [] s =
    XElem (Some None) (lit "r") [] [XElem (Some None) (lit "g") [] []; XElem (Some None) (lit "g") [] [XElem (Some (Some (lit "u"))) (lit "x") [] []]].
Proof.
  eexists. split; [|split; [reflexivity|split; vm_compute; reflexivity]].
  cbn. repeat split; try discriminate; constructor.
Qed.
Print Assumptions C34_sibling_refuted.

(** With the prefix also declared further out, the name silently moves to the outer namespace. *)
Theorem C34_shadowing_refuted : exists s, all_bound [] s /\
  s = el [pre "a" "v"] None "r" [] [el [pre "a" "u"] None "g" [] []; el [pre "a" "u"] None "g" [] [el [] (Some "a"%string) "x" [] []]] /\
  mean_parsed [] (parse_root s) =
    XElem (Some None) (lit "r") [] [XElem (Some None) (lit "g") [] []; XElem (Some None) (lit "g") [] [XElem (Some (Some (lit "v"))) (lit "x") [] []]] /\
  mean_src [] s =
    XElem (Some None) (lit "r") [] [XElem (Some None) (lit "g") [] []; XElem (Some None) (lit "g") [] [XElem (Some (Some (lit "u"))) (lit "x") [] []]].
Proof.
  eexists. split; [|split; [reflexivity|split; vm_compute; reflexivity]].
  cbn. repeat split; try discriminate; constructor.
Qed.
Print Assumptions C34_shadowing_refuted.

(** [<r xmlns:a="u" xmlns:b="v"><g xmlns:a="v"/><a:x/></r>]: what is put back after the [g] pairs the
    prefix that the inner namespace had with the namespace that the inner prefix had, so that [a:x] becomes [b:x]. *)
Theorem C34_put_back_refuted : exists s, all_bound [] s /\ named_from_outside s /\
  s = el [pre "a" "u"; pre "b" "v"] None "r" [] [el [pre "a" "v"] None "g" [] []; el [] (Some "a"%string) "x" [] []] /\
  mean_parsed [] (parse_root s) = XElem (Some None) (lit "r") [] [XElem (Some None) (lit "g") [] []; XElem (Some (Some (lit "v"))) (lit "x") [] []] /\
  mean_src [] s = XElem (Some None) (lit "r") [] [XElem (Some None) (lit "g") [] []; XElem (Some (Some (lit "u"))) (lit "x") [] []].
Proof.
  eexists. split; [|split; [|split; [reflexivity|split; vm_compute; reflexivity]]].
  - cbn. repeat split; try discriminate; constructor.
  - cbn. repeat split; try (left; reflexivity). right. intros [].
Qed.
Print Assumptions C34_put_back_refuted.

(** A namespace that is the default one and has a prefix: attributes with that prefix lose their
    namespace. *)
Theorem C34_two_names_refuted : exists s, all_bound [] s /\
  s = el [dflt "u"; pre "a" "u"] None "r" [(Some (lit "a"), lit "x", lit "1")] [] /\
  mean_parsed [] (parse_root s) = XElem (Some (Some (lit "u"))) (lit "r") [(Some None, lit "x", lit "1")] [] /\
  mean_src [] s = XElem (Some (Some (lit "u"))) (lit "r") [(Some (Some (lit "u")), lit "x", lit "1")] [].
Proof.
  eexists. split; [|split; [reflexivity|split; vm_compute; reflexivity]].
  cbn. split; [discriminate|]. split; [|exact Logic.I]. constructor; [cbn; discriminate|constructor].
Qed.
Print Assumptions C34_two_names_refuted.

(** A default namespace stays behind for the elements after its own: the [rect] of
    [<r><g xmlns="http://www.w3.org/2000/svg"/><rect/></r>] is in no namespace but is taken for an
    SVG [rect] in memory. *)
Theorem C34_leak_refuted : exists s,
  s = el [] None "r" [] [el [dflt "http://www.w3.org/2000/svg"] None "g" [] []; el [] None "rect" [] []] /\
  map snd (memory (parse_root s)) = [lit "r"; lit "g"; lit "rect"] /\
  nth_error (map fst (memory (parse_root s))) 2 = Some (lit "http://www.w3.org/2000/svg") /\
  nth_error (map fst (element_names [] s)) 2 = Some (Some None).
Proof. eexists. split; [reflexivity|]. repeat split; vm_compute; reflexivity. Qed.
Print Assumptions C34_leak_refuted.

(** [<svg xmlns="http://www.w3.org/2000/svg" xmlns:xlink="http://www.w3.org/1999/xlink">] with a
    [use xlink:href] and metadata in a namespace of its own. *)
Definition c34_doc : src :=
  el [dflt "http://www.w3.org/2000/svg"; pre "xlink" "http://www.w3.org/1999/xlink"; pre "rdf" "urn:rdf"] None "svg" [(Some (lit "xml"), lit "space", lit "preserve")]
    [el [] None "use" [(Some (lit "xlink"), lit "href", lit "#a"); (None, lit "x", lit "1")] [];
     el [] (Some "rdf"%string) "RDF" [(Some (lit "rdf"), lit "about", lit "")] [];
     el [pre "cc" "urn:cc"] None "metadata" [] [el [] (Some "cc"%string) "Work" [] [SOther (lit "text")]]].
Ltac distinct := repeat constructor; cbn; intros H; repeat (destruct H as [H|H]; try discriminate H); exact H.
Example C34_example : declared_once c34_doc /\ all_bound [] c34_doc /\ named_from_outside c34_doc /\
  parse_root c34_doc =
  PElem (name_of (Some (lit "http://www.w3.org/2000/svg")) (lit "svg") ns_start)
    (match parse_root c34_doc with PElem _ a _ => a | _ => [] end)
    (match parse_root c34_doc with PElem _ _ k => k | _ => [] end) /\
  match mean_parsed [] (parse_root c34_doc) with
  | XElem u l a k => u = Some (Some (lit "http://www.w3.org/2000/svg")) /\ a = [(Some (Some (snd xml_decl)), lit "space", lit "preserve")] /\ List.length k = 3
  | _ => False
  end.
Proof.
  split; [|split; [|split; [|split; [vm_compute; reflexivity|vm_compute; repeat split]]]].
  - split; [distinct|]. split; [distinct|]. cbn. intros H; repeat (destruct H as [H|H]; try discriminate H); exact H.
  - cbn. repeat match goal with |- _ /\ _ => split | |- Forall _ _ => constructor end; try exact Logic.I; try discriminate; unfold bound_attr; cbn; discriminate.
  - cbn. repeat match goal with |- _ /\ _ => split end; try exact Logic.I; try (left; reflexivity);
      right; intros H; repeat (destruct H as [H|H]; try discriminate H); exact H.
Qed.
