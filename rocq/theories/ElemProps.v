From Coq Require Import String List NArith Bool.
From Verif Require Import Chars NameModel AttrTable ElemModel ElemSpec ElemProofs.
Import ListNotations.

(** C63: recognising an attribute on an element never changes how its name is written or its namespace. *)
Theorem C63_attribute_name_kept : forall e uri name local,
  let p := prefix_new uri name in let a := parse_attr_id e p local in
  written (id_prefix a) (id_local a) = written p local /\ prefix_ns (id_prefix a) = prefix_ns p.
Proof. exact attribute_name_kept. Qed.
Print Assumptions C63_attribute_name_kept.
Theorem C63_element_name_kept : forall uri name local, let p := prefix_new uri name in let e := elem_new p local in
  written (elem_prefix e) (elem_local e) = written p local /\ prefix_ns (elem_prefix e) = prefix_ns p.
Proof. exact element_name_kept. Qed.
Print Assumptions C63_element_name_kept.
(** C63: an attribute is recognised exactly where the element expects one of that name. *)
Theorem C63_recognised_where_expected : forall e uri name local, uri <> [] -> let p := prefix_new uri name in
  ((exists k, id_unaliased (parse_attr_id e p local) = BKnown k) <-> exists k, In k attr_table /\ named uri local k /\ expected e k).
Proof. exact recognised_named. Qed.
Print Assumptions C63_recognised_where_expected.

(** An aliased xlink attribute and the same event attribute on two elements. *)
Definition svg_uri : text := lit "http://www.w3.org/2000/svg".
Definition svg_elem (n : string) : elem_id := elem_new (prefix_new svg_uri None) (lit n).
Example C63_witness :
  let p := prefix_new (lit "http://www.w3.org/1999/xlink") (Some (lit "x")) in
  let a := parse_attr_id (svg_elem "use") p (lit "href") in
  (exists k, a = AAliased p (BKnown k) /\ kind_id k = lit "XLinkHref") /\ prefix_value (id_prefix a) = Some (lit "x") /\ id_local a = lit "href".
Proof. split; [|split; vm_compute; reflexivity]. eexists. split; vm_compute; reflexivity. Qed.
Example C63_event_only_where_expected :
  let onclick e := id_groups (parse_attr_id (svg_elem e) (prefix_new svg_uri None) (lit "onclick")) in
  intersects (onclick "rect"%string) g_event = true /\ intersects (onclick "clipPath"%string) g_event = false.
Proof. split; vm_compute; reflexivity. Qed.
