(** removeDeprecatedAttrs: selectors match as before, and the language of the text is as before (C76). *)
From Coq Require Import String List Bool NArith.
From Verif Require Import Chars NameModel AttrTable ElemTable ElemModel KnownModel DeprecatedModel DeprecatedSpec DeprecatedProofs.
Import ListNotations.

(** Partial: false where [xml:lang] and [lang] differ or [lang] is in the namespace of SVG (below). *)
Theorem C76_language_partial : forall s path, Forall (fun l => (forall x, In x l -> well_formed (fst x)) /\ agreeing l) path ->
  language (map (element false s) path) = language path.
Proof. exact language_kept. Qed.
Print Assumptions C76_language_partial.
Theorem C76_removed : forall s l a, (forall x, In x l -> well_formed (fst x)) -> In a l -> ~ In a (element false s l) ->
  (id_local (fst a) = lit "version" /\ unprefixed (fst a) = true) \/
  (id_local (fst a) = lang /\ is_xml (fst a) = true /\ exists b, In b l /\ id_local (fst b) = lang /\ is_xml (fst b) = false).
Proof. exact default_removed. Qed.
Print Assumptions C76_removed.
(** Partial: false of names with upper case letters, in [:not], and with other prefixes than those of the document (below). *)
Theorem C76_selected_partial : forall others o s sel l, In sel s -> Forall (plain l) sel -> selects others sel (element o s l) = selects others sel l.
Proof. exact selected. Qed.
Print Assumptions C76_selected_partial.

Definition attr (i : string) (p : known) (n : string) : attr_id := ABase (BKnown (mkKind (lit i) p (lit n))).
Definition version : attr_id := attr "Version" SVG "version".
Definition base_profile : attr_id := attr "BaseProfile" SVG "baseProfile".
(** [svg:lang], with a prefix for the namespace of SVG. *)
Definition svg_lang : attr_id := AAliased (PAliased (PKnown SVG) (Some (lit "svg"))) (BKnown (mkKind (lit "Lang") SVG (lit "lang"))).
Lemma listed : forall k, existsb (fun k' => text_eqb (kind_id k) (kind_id k') && known_eqb (kind_prefix k) (kind_prefix k') && text_eqb (kind_local k) (kind_local k')) attr_table = true -> In k attr_table.
Proof.
  intros k H. apply existsb_exists in H. destruct H as [k' [H E]]. apply andb_true_iff in E. destruct E as [E E3]. apply andb_true_iff in E. destruct E as [E1 E2].
  apply teq in E1, E3. destruct k as [a b c], k' as [a' b' c']. cbn in *. subst. destruct b, b'; try discriminate; exact H.
Qed.
Definition both (x y : text) : attributes := [(version, lit "1.1"); (xml_lang_id, x); (lang_id, y)].
Lemma both_formed : forall x y a, In a (both x y) -> well_formed (fst a).
Proof.
  intros x y a H. assert (L : In (mkKind (lit "Version") SVG (lit "version")) attr_table /\ In (mkKind (lit "XmlLang") XML (lit "lang")) attr_table /\ In (mkKind (lit "Lang") SVG (lit "lang")) attr_table)
    by (split; [|split]; apply listed; vm_compute; reflexivity).
  destruct L as [L1 [L2 L3]]. destruct H as [<-|[<-|[<-|[]]]]; (split; [assumption|split; [reflexivity|]]); intros N; (reflexivity || (exfalso; apply N; reflexivity)).
Qed.
Definition equals (v w : text) : bool := text_eqb w v.
(** [version] and [xml:lang] are removed, with [[foo=bar]] in the stylesheet; both are kept with [[version="1.1"]] and [[xml|lang=ja]]. *)
Example C76_example :
  (forall x, In x (both (lit "ja") (lit "ja")) -> well_formed (fst x)) /\ agreeing (both (lit "ja") (lit "ja")) /\
  element false [[Else 0; Exists (lit "foo")]] (both (lit "ja") (lit "ja")) = [(lang_id, lit "ja")] /\
  let s := [[Valued (lit "version") (equals (lit "1.1")); Other (Specific (lit "xml") (lit "http://www.w3.org/XML/1998/namespace")) (lit "lang") (equals (lit "ja"))]] in
  Forall (Forall (plain (both (lit "ja") (lit "ja")))) s /\ element false s (both (lit "ja") (lit "ja")) = both (lit "ja") (lit "ja").
Proof.
  split; [apply both_formed|]. split.
  - split.
    + intros x y [<-|[<-|[<-|[]]]] [<-|[<-|[<-|[]]]] E1 E2; vm_compute in E1, E2; try discriminate; reflexivity.
    + intros x [<-|[<-|[<-|[]]]] E; vm_compute in E; try discriminate; [right|left]; reflexivity.
  - split; [vm_compute; reflexivity|]. intros s. split; [|vm_compute; reflexivity]. constructor; [|constructor]. constructor; [exact Logic.I|constructor; [|constructor]].
    intros a [<-|[<-|[<-|[]]]] E U V; vm_compute in E, U; try discriminate; reflexivity.
Qed.

(** [<text xml:lang="ja" lang="en">]: browsers use [xml:lang]. *)
Theorem C76_language_refuted : exists l, (forall x, In x l -> well_formed (fst x)) /\
  language [l] = Some (lit "ja") /\ language (map (element false []) [l]) = Some (lit "en").
Proof. exists (both (lit "ja") (lit "en")). split; [apply both_formed|]. split; vm_compute; reflexivity. Qed.
(** [<text xml:lang="ja" svg:lang="ja">]: the latter is not [lang]. *)
Theorem C76_alias_refuted : exists l, (forall x y, In x l -> In y l -> snd x = snd y) /\
  language [l] = Some (lit "ja") /\ language (map (element false []) [l]) = None.
Proof.
  exists [(xml_lang_id, lit "ja"); (svg_lang, lit "ja")]. split; [intros x y [<-|[<-|[]]] [<-|[<-|[]]]; reflexivity|]. split; vm_compute; reflexivity.
Qed.
(** [@namespace x url(http://www.w3.org/XML/1998/namespace); [x|lang]{…}]. *)
Theorem C76_prefix_refuted : exists s sel l, In sel s /\ agreeing l /\ selects (fun _ => true) sel l = true /\ selects (fun _ => true) sel (element false s l) = false.
Proof.
  exists [[Other (Specific (lit "x") (lit "http://www.w3.org/XML/1998/namespace")) (lit "lang") (fun _ => true)]], [Other (Specific (lit "x") (lit "http://www.w3.org/XML/1998/namespace")) (lit "lang") (fun _ => true)], (both (lit "ja") (lit "ja")).
  split; [left; reflexivity|]. split; [apply C76_example|]. split; vm_compute; reflexivity.
Qed.
(** [:not([version]){…}]. *)
Theorem C76_not_refuted : exists s sel l, In sel s /\ selects (fun _ => true) sel l = false /\ selects (fun _ => true) sel (element false s l) = true.
Proof. exists [[Not (Exists (lit "version"))]], [Not (Exists (lit "version"))], [(version, lit "1.1")]. split; [left; reflexivity|]. split; vm_compute; reflexivity. Qed.
(** [[baseProfile]{…}], with [removeAny]. *)
Theorem C76_case_refuted : exists s sel l, In sel s /\ selects (fun _ => true) sel l = true /\ selects (fun _ => true) sel (element true s l) = false.
Proof. exists [[Exists (lit "baseProfile")]], [Exists (lit "baseProfile")], [(base_profile, lit "tiny")]. split; [left; reflexivity|]. split; vm_compute; reflexivity. Qed.
