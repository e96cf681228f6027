(** C80: removing empty attributes changes nothing. *)
From Coq Require Import String List NArith Bool.
From Verif Require Import Chars NameModel AttrTable ElemTable ElemModel BlankModel BlankSpec BlankProofs.
Import ListNotations.

(** The value of every attribute for which an empty value is in error, such as presentation attributes, stays the same. *)
Theorem C80_value : forall on p n l, distinct l -> value p n (element on l) = value p n l.
Proof. exact value_kept. Qed.
(** What the element is for stays the same; what is missing: an empty namespace, language, reference, or animation value. *)
Theorem C80_meaning_partial : forall on l, distinct l -> (forall a, In a l -> is_empty (snd a) = true -> ~ In (prefix_value (id_prefix (fst a)), id_local (fst a))
    (map (fun x => (option_map lit (fst x), lit (snd x))) [(None, "xmlns"); (Some "xml", "lang"); (None, "href"); (Some "xlink", "href"); (None, "values"); (None, "from"); (None, "to"); (None, "by")]%string)) ->
  (forall o, default_namespace o (element on l) = default_namespace o l) /\ (forall o, language o (element on l) = language o l) /\
  reference (element on l) = reference l /\ animation (element on l) = animation l.
Proof. exact meaning_kept. Qed.
(** Conditions stay the same, empty or not. *)
Theorem C80_condition : forall on supported n l, distinct l -> (forall a, In a l -> named None n a = true -> ElemModel.contains (id_groups (fst a)) g_conditional = true) ->
  fulfilled supported n (element on l) = fulfilled supported n l.
Proof. exact fulfilled_kept. Qed.
(** What stays is not empty, unless it is a condition; and nothing else goes. *)
Theorem C80_tidy : forall l a, In a (element true l) -> says_nothing (snd a) -> ElemModel.contains (id_groups (fst a)) g_conditional = true.
Proof. exact tidy_spec. Qed.
Theorem C80_stays : forall on l a, In a l -> ~ says_nothing (snd a) -> In a (element on l).
Proof. exact stays_spec. Qed.
(** Elements without such attributes stay as they are. *)
Theorem C80_all_stay : forall on l, (forall a, In a l -> ~ says_nothing (snd a)) -> element on l = l.
Proof. exact all_stay. Qed.
Print Assumptions C80_all_stay.
Print Assumptions C80_value.
Print Assumptions C80_meaning_partial.
Print Assumptions C80_condition.
Print Assumptions C80_tidy.
Print Assumptions C80_stays.

(** An attribute as the program knows it by its identifier, or an unknown one. *)
Definition by_id (s : string) : attr_id := match kind_of (lit s) with Some k => ABase (BKnown k) | None => ABase (BUnknown (mkName (PKnown SVG) (lit s))) end.

(** [<rect xmlns="" width="9" height="9"/>] is not drawn, [<rect width="9" height="9"/>] is. *)
Theorem C80_namespace_refuted : exists l, default_namespace (Textual (lit "http://www.w3.org/2000/svg")) l = Textual [] /\
  default_namespace (Textual (lit "http://www.w3.org/2000/svg")) (element true l) = Textual (lit "http://www.w3.org/2000/svg").
Proof. exists [(by_id "XMLNS", Textual [])]. vm_compute. split; reflexivity. Qed.
Theorem C80_language_refuted : exists l, language (Textual (lit "de")) l = Textual [] /\ language (Textual (lit "de")) (element true l) = Textual (lit "de").
Proof. exists [(by_id "XmlLang", Textual [])]. vm_compute. split; reflexivity. Qed.
(** [<a href="">] is a link to the document, [<a>] is none. *)
Theorem C80_link_refuted : exists l, reference l = Some (Textual []) /\ reference (element true l) = None.
Proof. exists [(by_id "Href", Textual [])]. vm_compute. split; reflexivity. Qed.
(** [<use href="" xlink:href="#a"/>] shows nothing, [<use xlink:href="#a"/>] does. *)
Theorem C80_fallback_refuted : exists l, reference l = Some (Textual []) /\ reference (element true l) = Some (Textual (lit "#a")).
Proof. exists [(by_id "Href", Textual []); (by_id "XLinkHref", Textual (lit "#a"))]. vm_compute. split; reflexivity. Qed.
(** [<set attributeName="class" to=""/>] has a value, [<set attributeName="class"/>] has none. *)
Theorem C80_animation_refuted : exists l, animation l = [None; None; Some (Textual []); None] /\ animation (element true l) = [None; None; None; None].
Proof. exists [(by_id "To", Textual [])]. vm_compute. split; reflexivity. Qed.
(** [<input disabled="">] in a foreign object can be used after [<input>]. *)
Theorem C80_boolean_refuted : exists l, switched (lit "disabled") l = true /\ switched (lit "disabled") (element true l) = false.
Proof. exists [(by_id "disabled", Textual [])]. vm_compute. split; reflexivity. Qed.

Definition attrs : attributes :=
  [(by_id "Fill", Textual []); (by_id "Transform", Defined (Parts 0)); (by_id "SystemLanguage", Textual []); (by_id "Style", Declarations 0 1); (by_id "D", Parts 3)].
Example C80_example : map (fun a => id_local (fst a)) (element true attrs) = map lit ["systemLanguage"; "style"; "d"]%string.
Proof. vm_compute. reflexivity. Qed.
Example C80_distinct : distinct attrs.
Proof. unfold distinct. vm_compute. repeat (constructor; [cbn; intros H; repeat (destruct H as [H|H]; [discriminate|]); exact H|]). constructor. Qed.
Example C80_system : fulfilled (fun _ => true) (lit "systemLanguage") attrs = false /\ fulfilled (fun _ => true) (lit "systemLanguage") (element true attrs) = false.
Proof. vm_compute. split; reflexivity. Qed.
Example C80_off : element false attrs = attrs.
Proof. reflexivity. Qed.
