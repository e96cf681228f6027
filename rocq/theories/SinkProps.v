From Coq Require Import String List NArith Bool.
From Verif Require Import Chars NameModel SinkModel SinkSpec SinkProofs3 SinkProofs4.
Import ListNotations.

(** C105: in a document where each prefix stands for one namespace, whose root has no prefix and carries [xml:] if anything does, the tree differs only by declarations on the root, every name resolves to the namespace the parser found, and no attribute occurs twice. *)
Theorem C105_names_partial : forall t, from_parser t -> uniform t -> root_plain t -> xml_at_root t -> exists t', build t = Some t' /\ same_but_root t t' /\ resolved [] t' /\ all_well_formed t'.
Proof. exact names_ok. Qed.
Print Assumptions C105_names_partial.

Example C105_sample : from_parser sample /\ uniform sample /\ root_plain sample /\ xml_at_root sample /\
  option_map (fun t => match t with Node _ _ attrs _ => map written attrs end) (build sample) =
  Some [(None, lit "xmlns"); (Some (lit "xmlns"), lit "xlink"); (None, lit "width"); (Some (lit "xmlns"), lit "a"); (Some (lit "xml"), lit "space"); (Some (lit "a"), lit "b"); (Some (lit "xmlns"), lit "b")].
Proof. exact sample_ok. Qed.

(** C105: [<svg xmlns:a="http://a"><g xml:space="preserve" a:b="1"/></svg>] panics: the place counted past [xml:space] is beyond the attributes of the root. *)
Theorem C105_panic_refuted : exists t, from_parser t /\ uniform t /\ root_plain t /\ build t = None.
Proof. exact panics. Qed.
Print Assumptions C105_panic_refuted.

(** C105: with HTML inside [foreignObject] the root gets [xmlns] twice. *)
Theorem C105_duplicate_refuted : exists t t', from_parser t /\ root_plain t /\ xml_at_root t /\ build t = Some t' /\ ~ all_well_formed t'.
Proof. exact duplicates. Qed.
Print Assumptions C105_duplicate_refuted.

(** C105: [<svg:svg xmlns:svg="…">] gets a declaration of the prefix [xmlns], which XML forbids. *)
Theorem C105_prefixed_root_refuted : exists t t', from_parser t /\ uniform t /\ xml_at_root t /\ build t = Some t' /\ ~ all_well_formed t'.
Proof. exact declares_xmlns. Qed.
Print Assumptions C105_prefixed_root_refuted.

(** C105: a prefix bound to two namespaces is declared twice on the root when attributes use it. *)
Theorem C105_rebound_attributes_refuted : exists t t', from_parser t /\ root_plain t /\ xml_at_root t /\ build t = Some t' /\ ~ all_well_formed t'.
Proof. exact rebound_attr_bad. Qed.
Print Assumptions C105_rebound_attributes_refuted.

(** C105: a prefix bound to two namespaces by elements resolves to the last one everywhere. *)
Theorem C105_rebound_elements_refuted : exists t t', from_parser t /\ root_plain t /\ xml_at_root t /\ build t = Some t' /\ ~ resolved [] t'.
Proof. exact rebound_bad. Qed.
Print Assumptions C105_rebound_elements_refuted.

(** C105: an element in no namespace comes out in the namespace of SVG. *)
Theorem C105_no_namespace_refuted : exists t t' p l attrs kids, from_parser t /\ t = elem [] None "svg" [] [] /\ build t = Some t' /\ t' = Node p l attrs kids /\ resolves [attrs] (prefix_value p) svg_uri.
Proof. exact becomes_svg. Qed.
Print Assumptions C105_no_namespace_refuted.
