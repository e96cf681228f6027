From Coq Require Import String List NArith Bool.
From Verif Require Import Chars NameModel AttrTable ElemModel ElemSpec ElemProofs JsxNamesModel JsxNamesSpec JsxNamesProofs.
Import ListNotations.

Lemma prefix_new_value uri name : prefix_value (prefix_new uri name) = name.
Proof.
  unfold prefix_new. destruct (find _ all_known) as [k|] eqn:F.
  - apply find_some in F. destruct F as [_ F]. apply andb_prop in F. destruct F as [_ F]. apply otext_eq in F. exact F.
  - destruct (find (fun k => text_eqb (known_uri k) uri) all_known); [reflexivity|]. destruct uri; [destruct name; reflexivity|reflexivity].
Qed.
Lemma prefix_new_aliased uri name q n : prefix_new uri name = PAliased (PKnown q) n -> n = name /\ name <> known_name q.
Proof.
  unfold prefix_new. destruct (find _ all_known) as [k|] eqn:F; [discriminate|]. destruct (find (fun k => text_eqb (known_uri k) uri) all_known) as [k|] eqn:G.
  - intros [= <- <-]. split; [reflexivity|]. apply find_some in G. destruct G as [Hin G]. intros ->.
    pose proof (find_none _ _ F k Hin) as X. cbn in X. rewrite G, otext_refl in X. discriminate.
  - destruct uri; [destruct name|]; discriminate.
Qed.

(** The three ways an attribute is read. *)
Inductive reading (e : elem_id) (uri : text) (name : option text) (local : text) : attr_id -> Prop :=
| r_usual k : In k attr_table -> name = known_name (kind_prefix k) -> local = kind_local k -> reading e uri name local (ABase (BKnown k))
| r_alias k : In k attr_table -> name <> known_name (kind_prefix k) -> local = kind_local k ->
    reading e uri name local (AAliased (PAliased (PKnown (kind_prefix k)) name) (BKnown k))
| r_unknown : reading e uri name local (ABase (BUnknown (mkName (prefix_new uri name) local))).
Lemma reading_of e uri name local : reading e uri name local (parse_attr_id e (prefix_new uri name) local).
Proof.
  destruct (parse_cases e (prefix_new uri name) local) as [(k & -> & M & Hin & _)| ->]; [|constructor].
  apply matches_ns in M. destruct M as [M L]. unfold recognised.
  destruct (prefix_new_shape uri name _ M) as [E|E]; rewrite E; cbn [is_aliased].
  - constructor; [exact Hin| |symmetry; exact L]. rewrite <- (prefix_new_value uri name), E. reflexivity.
  - destruct (prefix_new_aliased _ _ _ _ E) as [_ N]. constructor; [exact Hin|exact N|symmetry; exact L].
Qed.

(** An attribute of the table with the usual prefix gets its spelling; with another prefix it is left out. *)
Lemma known_spelling uni e uri name local k : id_unaliased (parse_attr_id e (prefix_new uri name) local) = BKnown k ->
  (name = known_name (kind_prefix k) -> prop_name uni e uri name local = Named (spelling (written name local))) /\
  (name <> known_name (kind_prefix k) -> prop_name uni e uri name local = Dropped UnknownPrefix).
Proof.
  unfold prop_name. destruct (reading_of e uri name local) as [k' Hin N L|k' Hin N L|]; cbn [id_unaliased]; [| |discriminate]; intros [= <-]; (split; [intros E|intros E; try contradiction]).
  - rewrite (known_named uni k' Hin). unfold kind_written. rewrite <- N, <- L. reflexivity.
  - contradiction.
  - unfold jsx_name. cbn [id_prefix id_unaliased base_prefix prefix_value].
    destruct (otext_eqb name (known_name (kind_prefix k'))) eqn:X; [apply otext_eq in X; contradiction|reflexivity].
Qed.

(** An attribute that is not in the table. *)
Definition in_html (local : text) : bool := match look jsx_html local with Some _ => true | None => false end.
Lemma unknown_prop_name uni uri name local : let a := ABase (BUnknown (mkName (prefix_new uri name) local)) in
  (exists n, jsx_name uni a = Named n) <->
  (prefix_new uri name = PKnown XMLNS /\ local = lit "xlink") \/ (name = None /\ (in_html local = true \/ forallb (is_alphanumeric uni) local = true)).
Proof.
  intros a.
  assert (O : (exists n, jsx_other uni a = Named n) <-> name = None /\ (in_html local = true \/ forallb (is_alphanumeric uni) local = true)).
  { unfold jsx_other, prefix_is_empty, a, in_html. cbn [id_prefix base_prefix q_prefix id_local base_local id_unaliased q_local]. rewrite prefix_new_value.
    destruct name as [p|]; cbn [negb]; [split; [intros [n H]; discriminate|intros [H _]; discriminate]|].
    destruct (look jsx_html local) as [m|]; [split; [intros _; auto|eauto]|]. destruct (forallb _ local); (split; [intros [n H]|intros [_ [H|H]]]); try discriminate; eauto. }
  unfold jsx_name, a. cbn [id_prefix base_prefix q_prefix id_unaliased]. rewrite otext_refl. cbn [negb]. fold a.
  destruct (prefix_new uri name) as [[]| |] eqn:E; try (rewrite O; split; [intros H; right; exact H|intros [[H _]|H]; [discriminate|exact H]]).
  pose proof (prefix_new_value uri name) as V. rewrite E in V. cbn in V. subst name.
  destruct (text_eqb local (lit "xlink")) eqn:X.
  - apply text_eqb_spec in X. split; [intros _; left; auto|eauto].
  - split; [intros [n H]; discriminate|]. intros [[_ ->]|[H _]]; [|discriminate]. rewrite text_eqb_refl in X. discriminate.
Qed.

Lemma html_plain local : in_html local = true -> forallb ascii_alnum local = true \/ local = lit "accept-charset" \/ local = lit "http-equiv".
Proof.
  unfold in_html. destruct (look jsx_html local) as [m|] eqn:L; [|discriminate]. intros _. apply look_in in L.
  assert (X : forallb (fun r => forallb ascii_alnum (fst r) || text_eqb (fst r) (lit "accept-charset") || text_eqb (fst r) (lit "http-equiv")) jsx_html = true) by (vm_compute; reflexivity).
  pose proof (proj1 (forallb_forall _ _) X _ L) as Y. cbn [fst] in Y. apply orb_prop in Y. destruct Y as [Y|Y]; [|apply text_eqb_spec in Y; auto].
  apply orb_prop in Y. destruct Y as [Y|Y]; [auto|apply text_eqb_spec in Y; auto].
Qed.
Lemma html_two : in_html (lit "accept-charset") = true /\ in_html (lit "http-equiv") = true.
Proof. split; vm_compute; reflexivity. Qed.
Lemma prefix_xmlns uri name : prefix_new uri name = PKnown XMLNS <-> uri = known_uri XMLNS /\ name = Some (lit "xmlns").
Proof.
  split.
  - intros E. pose proof (prefix_new_value uri name) as V. rewrite E in V. cbn in V. subst name. split; [|reflexivity].
    assert (H : prefix_ns (prefix_new uri (Some (lit "xmlns"))) = NSKnown XMLNS). { change (lit "xmlns") with [120; 109; 108; 110; 115]%N. rewrite E. reflexivity. }
    apply prefix_new_ns in H. destruct H as [H|(_ & H & _)]; [symmetry; exact H|discriminate].
  - intros [-> ->]. vm_compute. reflexivity.
Qed.
Lemma kept_iff uni e uri name local : (exists n, prop_name uni e uri name local = Named n) <->
  match id_unaliased (parse_attr_id e (prefix_new uri name) local) with
  | BKnown k => name = known_name (kind_prefix k)
  | BUnknown _ => (uri = known_uri XMLNS /\ name = Some (lit "xmlns") /\ local = lit "xlink") \/
      (name = None /\ (Forall (fun c => is_alphanumeric uni c = true) local \/ local = lit "accept-charset" \/ local = lit "http-equiv"))
  end.
Proof.
  destruct (id_unaliased (parse_attr_id e (prefix_new uri name) local)) as [k|q] eqn:U.
  - destruct (known_spelling uni e uri name local k U) as [A B]. split.
    + intros [n H]. destruct (otext_eqb name (known_name (kind_prefix k))) eqn:X; [apply otext_eq, X|].
      rewrite B in H; [discriminate|]. intros ->. rewrite otext_refl in X. discriminate.
    + intros E. eexists. apply A, E.
  - unfold prop_name. revert U. destruct (reading_of e uri name local) as [k' Hin N L|k' Hin N L|]; cbn [id_unaliased]; try discriminate. intros _.
    rewrite unknown_prop_name, prefix_xmlns.
    assert (F : forallb (is_alphanumeric uni) local = true <-> Forall (fun c => is_alphanumeric uni c = true) local) by (rewrite forallb_forall, Forall_forall; reflexivity).
    split.
    + intros [[[H1 H2] H3]|[H1 [H2|H2]]]; [left; auto| |right; split; [exact H1|left; apply F, H2]].
      right. split; [exact H1|]. apply html_plain in H2. destruct H2 as [H2|H2]; [|right; exact H2].
      left. apply Forall_forall. intros c Hc. apply alnum_ascii. apply (proj1 (forallb_forall _ _) H2 c Hc).
    + intros [(H1 & H2 & H3)|[H1 [H2|[H2|H2]]]]; [left; auto| | |]; right; (split; [exact H1|]); [right; apply F, H2|left; subst; apply html_two|left; subst; apply html_two].
Qed.

(** Two attributes with the same name in JSX are written the same, or one of them is written like that in the document. *)
Lemma apart uni e uri name local e' uri' name' local' n : prop_name uni e uri name local = Named n -> prop_name uni e' uri' name' local' = Named n ->
  written name local = written name' local' \/ written name local = n \/ written name' local' = n.
Proof.
  assert (W : forall e uri name local, prop_name uni e uri name local = Named n ->
    (exists k, In k attr_table /\ written name local = kind_written k /\ n = spelling (kind_written k)) \/
    (written name local = lit "xmlns:xlink" /\ n = lit "xmlnsXlink") \/ In (written name local, n) jsx_html \/ written name local = n).
  { clear. intros e uri name local. unfold prop_name. destruct (reading_of e uri name local) as [k Hin N L|k Hin N L|].
    - rewrite (known_named uni k Hin). intros [= <-]. left. exists k. unfold kind_written. rewrite <- N, <- L. auto.
    - unfold jsx_name. cbn [id_prefix id_unaliased base_prefix prefix_value].
      destruct (otext_eqb name (known_name (kind_prefix k))) eqn:X; [apply otext_eq in X; contradiction|discriminate].
    - intros H. apply name_origin in H. unfold id_written in H. cbn in H. destruct H as [k E _|E1 E2|E|E1 E2]; [discriminate| | |];
      unfold id_written in *; cbn [id_prefix base_prefix q_prefix id_local id_unaliased base_local q_local] in *; rewrite prefix_new_value in *.
      + auto.
      + auto.
      + auto. }
  intros A B. apply W in A. apply W in B.
  assert (R : rows = map (fun k => (kind_written k, spelling (kind_written k))) attr_table) by (vm_compute; reflexivity).
  assert (HR : forall m k, In (m, spelling (kind_written k)) jsx_html -> In k attr_table -> False).
  { intros m k H1 H2. pose proof (proj1 (forallb_forall _ _) html_apart _ H1) as X. apply andb_prop in X. destruct X as [X _]. apply andb_prop in X. destruct X as [_ X].
    assert (Hr : In (kind_written k, spelling (kind_written k)) rows) by (rewrite R; apply (in_map (fun k => (kind_written k, spelling (kind_written k)))), H2).
    pose proof (proj1 (forallb_forall _ _) X _ Hr) as Y. cbn [snd] in Y. rewrite text_eqb_refl in Y. discriminate. }
  assert (HX : forall m, In (m, lit "xmlnsXlink") jsx_html -> False).
  { intros m H1. pose proof (proj1 (forallb_forall _ _) html_apart _ H1) as X. apply andb_prop in X. destruct X as [_ X]. cbn [snd] in X. rewrite text_eqb_refl in X. discriminate. }
  assert (XR : forall k, In k attr_table -> spelling (kind_written k) = lit "xmlnsXlink" -> False).
  { intros k Hk E. assert (Hr : In (kind_written k, spelling (kind_written k)) rows) by (rewrite R; apply (in_map (fun k => (kind_written k, spelling (kind_written k)))), Hk).
    pose proof (proj1 (forallb_forall _ _) xlink_apart _ Hr) as Y. cbn [snd] in Y. rewrite E, text_eqb_refl in Y. discriminate. }
  assert (HH : forall m m', In (m, n) jsx_html -> In (m', n) jsx_html -> m = m').
  { intros m m' H1 H2. pose proof (proj1 (forallb_forall _ _) html_apart _ H1) as X. apply andb_prop in X. destruct X as [X _]. apply andb_prop in X. destruct X as [X _].
    pose proof (proj1 (forallb_forall _ _) X _ H2) as Y. cbn [fst snd] in Y. rewrite text_eqb_refl in Y. apply text_eqb_spec. exact Y. }
  destruct A as [(k & Hk & Wk & E)|[[W1 E]|[H|H]]]; [| | |auto]; (destruct B as [(l & Hl & Wl & E')|[[W2 E']|[H'|H']]]; [| | |auto]).
  - left. rewrite Wk, Wl. apply known_apart; congruence.
  - exfalso. apply (XR k Hk). congruence.
  - exfalso. subst n. apply (HR _ k H' Hk).
  - exfalso. apply (XR l Hl). congruence.
  - left. congruence.
  - exfalso. subst n. apply (HX _ H').
  - exfalso. subst n. apply (HR _ l H Hl).
  - exfalso. subst n. apply (HX _ H).
  - left. apply (HH _ _ H H').
Qed.

(** The characters of the names. *)
Lemma rows_chars : forallb (fun r => negb (match snd r with [] => true | _ => false end) && forallb (fun c => ascii_alnum c || N.eqb c 45) (snd r)) rows = true.
Proof. vm_compute. reflexivity. Qed.
Lemma html_chars : forallb (fun r => forallb (fun c => ascii_alnum c || N.eqb c 45) (snd r)) jsx_html = true.
Proof. vm_compute. reflexivity. Qed.
Lemma name_chars uni e uri name local n : prop_name uni e uri name local = Named n -> Forall (name_char (is_alphanumeric uni)) n.
Proof.
  assert (C : forall m, forallb (fun c => ascii_alnum c || N.eqb c 45) m = true -> Forall (name_char (is_alphanumeric uni)) m).
  { intros m H. apply Forall_forall. intros c Hc. pose proof (proj1 (forallb_forall _ _) H c Hc) as X. cbv beta in X. apply orb_prop in X. destruct X as [X|X].
    - left. apply alnum_ascii, X.
    - right. apply N.eqb_eq, X. }
  assert (R : rows = map (fun k => (kind_written k, spelling (kind_written k))) attr_table) by (vm_compute; reflexivity).
  unfold prop_name. destruct (reading_of e uri name local) as [k Hin N L|k Hin N L|].
  - rewrite (known_named uni k Hin). intros [= <-]. apply C.
    assert (Hr : In (kind_written k, spelling (kind_written k)) rows) by (rewrite R; apply (in_map (fun k => (kind_written k, spelling (kind_written k)))), Hin).
    pose proof (proj1 (forallb_forall _ _) rows_chars _ Hr) as X. apply andb_prop in X. apply X.
  - unfold jsx_name. cbn [id_prefix id_unaliased base_prefix prefix_value].
    destruct (otext_eqb name (known_name (kind_prefix k))) eqn:X; [apply otext_eq in X; contradiction|discriminate].
  - set (a := ABase _). assert (O : jsx_other uni a = Named n -> Forall (name_char (is_alphanumeric uni)) n).
    { intros H. apply other_named in H. destruct H as [_ [H|(_ & _ & H)]].
      - apply C. apply (proj1 (forallb_forall _ _) html_chars _ H).
      - apply Forall_forall. intros c Hc. left. apply (proj1 (forallb_forall _ _) H c Hc). }
    unfold jsx_name, a. cbn [id_prefix base_prefix q_prefix id_unaliased]. rewrite otext_refl. cbn [negb]. fold a.
    destruct (prefix_new uri name) as [[]| |]; try exact O. destruct (text_eqb local (lit "xlink")); [|discriminate]. intros [= <-]. apply C. vm_compute. reflexivity.
Qed.

Lemma react_props_ok : forallb (fun r => match look jsx_html (map small (lit r)) with Some n => text_eqb n (lit r) | None => false end) react_props = true.
Proof. vm_compute. reflexivity. Qed.
Lemma react_others_ok : forallb (fun r => match look jsx_html (lit (fst r)) with Some n => text_eqb n (lit (snd r)) | None => false end) react_others = true.
Proof. vm_compute. reflexivity. Qed.
Lemma react_look local n : react_html local n -> look jsx_html local = Some n.
Proof.
  intros [(r & I & -> & ->)|(h & r & I & -> & ->)].
  - pose proof (proj1 (forallb_forall _ _) react_props_ok r I) as X. cbv beta in X. destruct (look jsx_html _); [|discriminate]. apply text_eqb_spec in X. subst. reflexivity.
  - pose proof (proj1 (forallb_forall _ _) react_others_ok _ I) as X. cbn [fst snd] in X. destruct (look jsx_html _); [|discriminate]. apply text_eqb_spec in X. subst. reflexivity.
Qed.
Lemma html_spelling_ok uni e uri local n q : id_unaliased (parse_attr_id e (prefix_new uri None) local) = BUnknown q -> react_html local n ->
  prop_name uni e uri None local = Named n.
Proof.
  intros U R. apply react_look in R. unfold prop_name. revert U. destruct (reading_of e uri None local) as [k' Hin N L|k' Hin N L|]; cbn [id_unaliased]; try discriminate. intros _.
  assert (O : jsx_other uni (ABase (BUnknown (mkName (prefix_new uri None) local))) = Named n).
  { unfold jsx_other, prefix_is_empty. cbn [id_prefix base_prefix q_prefix id_local base_local id_unaliased q_local]. rewrite prefix_new_value. cbn [negb]. rewrite R. reflexivity. }
  unfold jsx_name. cbn [id_prefix base_prefix q_prefix id_unaliased]. rewrite otext_refl. cbn [negb].
  destruct (prefix_new uri None) as [[]| |] eqn:E; try exact O.
  pose proof (prefix_new_value uri None) as V. rewrite E in V. discriminate V.
Qed.
