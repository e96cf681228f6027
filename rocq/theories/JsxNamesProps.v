(** C95: the names of attributes in JSX. *)
From Coq Require Import String List NArith Bool.
From Verif Require Import Chars NameModel AttrTable ElemModel JsxNamesModel JsxNamesSpec JsxNamesProofs JsxNamesProofs2.
Import ListNotations.

(** An attribute that is known on its element and has the usual prefix is spelt as JSX spells it. *)
Theorem C95_spelling_partial : forall uni e uri name local k, id_unaliased (parse_attr_id e (prefix_new uri name) local) = BKnown k ->
  name = known_name (kind_prefix k) -> prop_name uni e uri name local = Named (spelling (written name local)).
Proof. exact (fun uni e uri name local k H => proj1 (known_spelling uni e uri name local k H)). Qed.
Print Assumptions C95_spelling_partial.
(** Which attributes are kept: known ones with the usual prefix, the declaration of xlink, and unknown ones without prefix whose name has only
    letters and digits or is one of two of HTML. *)
Theorem C95_kept : forall uni e uri name local, (exists n, prop_name uni e uri name local = Named n) <->
  match id_unaliased (parse_attr_id e (prefix_new uri name) local) with
  | BKnown k => name = known_name (kind_prefix k)
  | BUnknown _ => (uri = known_uri XMLNS /\ name = Some (lit "xmlns") /\ local = lit "xlink") \/
      (name = None /\ (Forall (fun c => is_alphanumeric uni c = true) local \/ local = lit "accept-charset" \/ local = lit "http-equiv"))
  end.
Proof. exact kept_iff. Qed.
Print Assumptions C95_kept.
(** Two attributes only get the same name if they are written alike, or if one is already written as in JSX. *)
Theorem C95_apart_partial : forall uni e uri name local e' uri' name' local' n,
  prop_name uni e uri name local = Named n -> prop_name uni e' uri' name' local' = Named n ->
  written name local = written name' local' \/ written name local = n \/ written name' local' = n.
Proof. exact apart. Qed.
Print Assumptions C95_apart_partial.
(** Names consist of letters, digits and hyphens. *)
Theorem C95_chars : forall uni e uri name local n, prop_name uni e uri name local = Named n -> Forall (name_char (is_alphanumeric uni)) n.
Proof. exact name_chars. Qed.
Print Assumptions C95_chars.

Definition on_svg (e : string) : elem_id := elem_new (prefix_new (known_uri SVG) None) (lit e).
Definition plain_prop (e local : string) : named := prop_name (fun _ => false) (on_svg e) (known_uri SVG) None (lit local).
Example C95_names : plain_prop "rect" "stroke-width" = Named (lit "strokeWidth") /\ plain_prop "rect" "class" = Named (lit "className") /\
  plain_prop "rect" "aria-label" = Named (lit "aria-label") /\ plain_prop "svg" "viewBox" = Named (lit "viewBox") /\
  prop_name (fun _ => false) (on_svg "use") (known_uri XLink) (Some (lit "xlink")) (lit "href") = Named (lit "xlinkHref") /\
  prop_name (fun _ => false) (on_svg "svg") (known_uri XMLNS) (Some (lit "xmlns")) (lit "xlink") = Named (lit "xmlnsXlink") /\
  plain_prop "rect" "foo" = Named (lit "foo") /\ plain_prop "rect" "autoplay" = Named (lit "autoPlay").
Proof. vm_compute. repeat (split; [reflexivity|]). reflexivity. Qed.

(** An attribute of HTML gets the spelling of React. *)
Theorem C95_html uni e uri local n q : id_unaliased (parse_attr_id e (prefix_new uri None) local) = BUnknown q -> react_html local n ->
  prop_name uni e uri None local = Named n.
Proof. exact (html_spelling_ok uni e uri local n q). Qed.
Print Assumptions C95_html.
Example C95_html_example : react_html (lit "readonly") (lit "readOnly") /\ plain_prop "rect" "readonly" = Named (lit "readOnly").
Proof. split; [left; exists "readOnly"%string; split; [cbn; tauto|split; reflexivity]|vm_compute; reflexivity]. Qed.

(** An attribute for data, which JSX takes as it is, is left out. *)
Theorem C95_data_refuted : exists e local, starts_with (lit "data-") local = true /\
  prop_name (fun _ => false) e (known_uri SVG) None local = Dropped (InvalidName local).
Proof. exists (on_svg "rect"), (lit "data-id"). split; vm_compute; reflexivity. Qed.
Print Assumptions C95_data_refuted.
(** A link whose prefix is not the usual one is left out, though it has the same meaning. *)
Theorem C95_prefix_refuted : exists e name name', name <> name' /\
  prop_name (fun _ => false) e (known_uri XLink) name (lit "href") = Named (lit "xlinkHref") /\
  prop_name (fun _ => false) e (known_uri XLink) name' (lit "href") = Dropped UnknownPrefix.
Proof. exists (on_svg "use"), (Some (lit "xlink")), (Some (lit "l")). split; [discriminate|]. split; vm_compute; reflexivity. Qed.
Print Assumptions C95_prefix_refuted.
(** Two attributes of an element get the same name. *)
Theorem C95_clash_refuted : exists e a b n, a <> b /\ prop_name (fun _ => false) e (known_uri SVG) None a = Named n /\
  prop_name (fun _ => false) e (known_uri SVG) None b = Named n.
Proof. exists (on_svg "rect"), (lit "class"), (lit "className"), (lit "className"). split; [discriminate|]. split; vm_compute; reflexivity. Qed.
Print Assumptions C95_clash_refuted.
(** An attribute of the table is left out on an element that does not list it. *)
Theorem C95_unlisted_refuted : exists e k, In k attr_table /\ kind_prefix k = SVG /\
  prop_name (fun _ => false) e (known_uri SVG) None (kind_local k) = Dropped (InvalidName (kind_local k)).
Proof.
  destruct (kind_of (lit "SolidColor")) as [k|] eqn:E; [|vm_compute in E; discriminate].
  exists (on_svg "rect"), k. split; [unfold kind_of in E; apply find_some in E; apply E|].
  vm_compute in E. injection E as <-. split; vm_compute; reflexivity.
Qed.
Print Assumptions C95_unlisted_refuted.
