From Coq Require Import String List NArith ZArith QArith Bool.
From Verif Require Import Chars NameModel AttrTable ElemModel TextModel TextSpec TextProofs JsxNamesModel JsxModel JsxSpec JsxProofs.
Import ListNotations.

(** A document that JSX can show renders to what it shows: the same elements with the same properties in the same order, and the same words. *)
Theorem C96_tree_partial : forall uni camel s d, tame d -> exists l, render s (to_jsx uni camel d) = Some l /\ same uni camel d l.
Proof. exact tree. Qed.
Print Assumptions C96_tree_partial.
(** Every tag is closed by itself or by a tag of the same name. *)
Theorem C96_closed : forall uni camel d, closed (to_jsx uni camel d).
Proof. exact to_jsx_closed. Qed.
Print Assumptions C96_closed.
(** The rule of JSX for lines keeps the words of a text. *)
Theorem C96_words : forall t u, jsx_text t = Some u -> same_words t u.
Proof. exact (fun t u H => same_W t u (eq_sym (jsx_text_W t u H))). Qed.
Print Assumptions C96_words.

Definition no_case (t : text) : text := t.
Definition no_env : env := mkEnv (fun _ => None) (fun _ => []) (fun _ => None) [].
Definition svg_el (n : string) : elem_id := elem_new (prefix_new (known_uri SVG) None) (lit n).
Definition svg_at (e n : string) : attr_id := parse_attr_id (svg_el e) (prefix_new (known_uri SVG) None) (lit n).
Definition small : xnode :=
  XDocument [XText (Some (lit " ")); XComment (lit "c");
    XElement (svg_el "svg") [(svg_at "svg" "xmlns", VOther (lit "http://www.w3.org/2000/svg")); (svg_at "svg" "width", VPx 24)]
      [XText (Some (10%N :: lit "  ")); XElement (svg_el "text") [(svg_at "text" "fill-opacity", VNum (1 # 2)); (svg_at "text" "style", VStyle [(false, lit "x", lit "y")] [])]
        [XText (Some (lit " two " ++ 10%N :: lit " words "))]; XPI None; XElement (svg_el "g") [] []]].
(** What the document above looks like. *)
Example C96_small : tame small /\ render no_env (to_jsx (fun _ => false) no_case small) =
  Some [DElem (lit "svg") [(lit "width", Some (PNum 24))]
    [DElem (lit "text") [(lit "fillOpacity", Some (PNum (1 # 2))); (lit "style", Some (PObj [(lit "x", lit "y")]))] [DText (lit "two words")]; DElem (lit "g") [] []]].
Proof.
  split; [|vm_compute; reflexivity].
  assert (W : forall t, forallb is_whitespace t = true -> Forall white t) by (intros t H; apply Forall_forall; apply forallb_forall, H).
  assert (P : forall t, existsb special t = false -> plain t).
  { intros t H. apply Forall_forall. intros c I. destruct (special c) eqn:S; [|reflexivity]. rewrite (proj2 (existsb_exists _ _) (ex_intro _ c (conj I S))) in H. discriminate. }
  apply t_document.
  - repeat (apply Forall_cons; [intros (e & a & ks & E); try discriminate|]); [|apply Forall_nil]. clear.
    assert (P : forall t, existsb special t = false -> plain t).
    { intros t H. apply Forall_forall. intros c I. destruct (special c) eqn:S; [|reflexivity]. rewrite (proj2 (existsb_exists _ _) (ex_intro _ c (conj I S))) in H. discriminate. }
    apply t_element; [vm_compute; reflexivity|vm_compute; reflexivity|repeat (apply Forall_cons; [exact Logic.I|]); apply Forall_nil| | |].
    + apply Forall_cons; [apply t_text, P; vm_compute; reflexivity|]. apply Forall_cons.
      { apply t_element; [vm_compute; reflexivity|vm_compute; reflexivity|repeat (apply Forall_cons; [exact Logic.I|]); apply Forall_nil| | |].
        - apply Forall_cons; [apply t_text, P; vm_compute; reflexivity|apply Forall_nil].
        - apply Forall_cons; [exact Logic.I|apply Forall_nil].
        - vm_compute. exact Logic.I. }
      apply Forall_cons; [apply t_pi_none|]. apply Forall_cons; [|apply Forall_nil].
      apply t_element; [vm_compute; reflexivity|vm_compute; reflexivity|apply Forall_nil|apply Forall_nil|apply Forall_nil|exact Logic.I].
    + repeat (apply Forall_cons; [exact Logic.I|]); apply Forall_nil.
    + unfold spaced. cbn. auto.
  - apply Forall_cons; [apply W; vm_compute; reflexivity|]. repeat (apply Forall_cons; [exact Logic.I|]); apply Forall_nil.
Qed.

Definition in_text (kids : list xnode) : xnode := XElement (svg_el "text") [] kids.
Definition program (n : xnode) : option (list dom) := render no_env (to_jsx (fun _ => false) no_case n).
(** A text with a brace, or with an escaped angle bracket, is printed as it is, which is no text in JSX. *)
Theorem C96_braces_refuted : exists t u, t <> [] /\ In (123%N) t /\ program (in_text [XText (Some t)]) = None /\
  In 60%N u /\ program (in_text [XText (Some u)]) = None.
Proof. exists (lit "{x}"), (lit "a < b"). split; [discriminate|]. split; [left; reflexivity|]. split; [vm_compute; reflexivity|]. split; [vm_compute; auto|vm_compute; reflexivity]. Qed.
Print Assumptions C96_braces_refuted.
(** No rule of a style sheet is text in JSX either. *)
Theorem C96_style_refuted : exists css, program (XElement (svg_el "style") [] [XStyle css]) = None /\ css <> [].
Proof. exists (lit ".a{fill:red}"). split; [vm_compute; reflexivity|discriminate]. Qed.
Print Assumptions C96_style_refuted.
(** The space between a text and a span is lost: the words run together. *)
Theorem C96_space_refuted : exists d l, tame d /\ program d = Some l /\ ~ same_words (text_content d) (flat_map shown_text l).
Proof.
  exists (in_text [XText (Some (lit "Hello ")); XElement (svg_el "tspan") [] [XText (Some (lit "world"))]]).
  eexists. split; [|split; [vm_compute; reflexivity|]].
  - assert (P : forall t, existsb special t = false -> plain t).
    { intros t H. apply Forall_forall. intros c I. destruct (special c) eqn:S; [|reflexivity]. rewrite (proj2 (existsb_exists _ _) (ex_intro _ c (conj I S))) in H. discriminate. }
    apply t_element; [vm_compute; reflexivity|vm_compute; reflexivity|apply Forall_nil| | |cbn; auto].
    + apply Forall_cons; [apply t_text, P; vm_compute; reflexivity|]. apply Forall_cons; [|apply Forall_nil].
      apply t_element; [vm_compute; reflexivity|vm_compute; reflexivity|apply Forall_nil| | |exact Logic.I].
      * apply Forall_cons; [apply t_text, P; vm_compute; reflexivity|apply Forall_nil].
      * apply Forall_cons; [exact Logic.I|apply Forall_nil].
    + repeat (apply Forall_cons; [exact Logic.I|]); apply Forall_nil.
  - intros H. pose proof (split_words (lit "Hello world")) as X. apply (proj1 (H _)) in X. apply words_of_split in X. vm_compute in X. discriminate.
Qed.
Print Assumptions C96_space_refuted.
(** A processing instruction inside an element becomes text. *)
Theorem C96_pi_refuted : exists v l, program (in_text [XPI (Some v)]) = Some l /\ flat_map shown_text l <> text_content (in_text [XPI (Some v)]).
Proof. exists (lit "echo 1"). eexists. split; [vm_compute; reflexivity|]. vm_compute. discriminate. Qed.
Print Assumptions C96_pi_refuted.
(** An SVG element with a prefix, which is drawn like one without, is left out; if it is the root nothing is rendered at all. *)
Theorem C96_prefix_refuted : exists e e', elem_local e = elem_local e' /\ prefix_ns (elem_prefix e) = NSKnown SVG /\ prefix_ns (elem_prefix e') = NSKnown SVG /\
  program (XDocument [XElement e [] []]) = Some [] /\ program (XDocument [XElement e' [] []]) = Some [DElem (elem_local e') [] []].
Proof.
  exists (elem_new (prefix_new (known_uri SVG) (Some (lit "svg"))) (lit "rect")), (svg_el "rect").
  split; [vm_compute; reflexivity|]. split; [vm_compute; reflexivity|]. split; [vm_compute; reflexivity|]. split; vm_compute; reflexivity.
Qed.
Print Assumptions C96_prefix_refuted.
(** An important declaration is lost. *)
Theorem C96_important_refuted : exists d, program (XElement (svg_el "rect") [(svg_at "rect" "style", VStyle [] [d])] []) =
  program (XElement (svg_el "rect") [(svg_at "rect" "style", VStyle [] [])] []).
Proof. exists (false, lit "fill", lit "red"). vm_compute. reflexivity. Qed.
Print Assumptions C96_important_refuted.
(** Texts on both sides of nothing, such as a text and a CDATA section, lose the space between them. *)
Theorem C96_adjacent_refuted : exists s t, Forall white [last s 0%N] /\ exists a b, to_jsx (fun _ => false) no_case (in_text [XText (Some s); XText (Some t)]) =
  JElement (lit "text") [] false [JText a; JText b] (Some (lit "text")) /\ split_whitespace (a ++ b) <> split_whitespace (s ++ t).
Proof.
  exists (lit "Hello "), (lit "world"). split; [repeat constructor|]. eexists. eexists. split; [vm_compute; reflexivity|]. vm_compute. discriminate.
Qed.
Print Assumptions C96_adjacent_refuted.
