(** Lemmas: whole documents, whitespace modes, comments, instructions and CDATA. *)
From Coq Require Import String List NArith Bool Arith Lia.
From Verif Require Import Chars XmlModel XmlSpec XmlProofs XmlProofs2.
Import ListNotations.

Local Arguments attr_text : simpl never.

Lemma ok_no_pi : forall n, node_ok n -> no_pi n.
Proof.
  apply (xnode_ind' (fun n => node_ok n -> no_pi n)); simpl; auto.
  intros n a ks IH (_ & _ & _ & H). apply all_forall. apply all_forall in H.
  rewrite Forall_forall in *. auto.
Qed.

Lemma serialize_document_xml o kids : plain o -> Forall top_ok kids ->
  serialize_document o kids =
  WOk (flat_map (xml o) (fst (spaced_kids (spaced o) kids true false))).
Proof.
  intros P OK. unfold serialize_document.
  rewrite (serialize_kids_after o kids); simpl; auto.
  - unfold end_document. destruct (spaced_kids _ _ _ _) as [ks p]. simpl.
    assert (S : stack (after new_writer (flat_map (xml o) ks) p) = [])
      by (apply after_stack; reflexivity).
    rewrite S. simpl. rewrite no_newline by apply P. f_equal.
    unfold after. destruct (flat_map (xml o) ks); reflexivity.
  - apply Forall_forall. intros n _. apply serialize_node_after. exact P.
  - eapply Forall_impl; [|exact OK]. intros n [H _]. apply ok_no_pi. exact H.
  - eapply Forall_impl; [|exact OK]. intros n [_ H]. unfold placed.
    destruct n as [| [|] | [|] | | |]; auto; contradiction.
  - left. reflexivity.
Qed.

(* ------------------------------------------------------------------ whitespace modes *)

Definition quiet (o : options) (attrs : list (text * text)) : Prop :=
  trim_whitespace o = SpAuto -> Forall (fun a => xml_space (fst a) (snd a) = None) attrs.

Lemma quiet_app o a b : quiet o (a ++ b) -> quiet o a /\ quiet o b.
Proof. unfold quiet. intros H. split; intros E; apply H, Forall_app in E; tauto. Qed.

Lemma quiet_flag o attrs p : quiet o attrs -> attrs_flag o attrs p = p.
Proof.
  unfold attrs_flag, quiet. revert p. induction attrs as [|a l IH]; intros p Q; simpl; auto.
  assert (E : attr_flag o p a = p).
  { unfold attr_flag. destruct (trim_whitespace o); auto. specialize (Q eq_refl).
    inversion Q as [|? ? Q1 Q2]; subst. rewrite Q1. reflexivity. }
  rewrite E. apply IH. intros T. specialize (Q T). inversion Q; auto.
Qed.

Lemma spaced_quiet o p : forall n f l, quiet o (all_attrs n) ->
  spaced o n f l p = (map_texts (spaced_text o p) n f l, p).
Proof.
  apply (xnode_ind' (fun n => forall f l, quiet o (all_attrs n) ->
    spaced o n f l p = (map_texts (spaced_text o p) n f l, p))); simpl; auto.
  intros n a ks IH f l Q. apply quiet_app in Q as [Q1 Q2]. rewrite quiet_flag by auto.
  assert (K : forall f, spaced_kids (spaced o) ks f p =
    ((fix all (l : list xnode) (first : bool) : list xnode :=
            match l with
            | [] => []
            | k :: l => map_texts (spaced_text o p) k first (match l with [] => true | XText _ :: _ => true | _ => false end)
                        :: all l (match k with XText _ => true | _ => false end)
            end) ks f, p)).
  { induction IH as [|k ks Hk _ IHk]; intros f'; simpl; auto.
    simpl in Q2. apply quiet_app in Q2 as [Q2 Q3].
    assert (E1 : next_is_text ks = match ks with [] => true | XText _ :: _ => true | _ => false end)
      by (destruct ks as [|[]]; reflexivity).
    rewrite E1, Hk by auto. rewrite IHk by auto. destruct k; reflexivity. }
  rewrite K. reflexivity.
Qed.

Lemma spaced_kids_quiet o p ks : forall f, quiet o (flat_map all_attrs ks) ->
  spaced_kids (spaced o) ks f p = (map_top (spaced_text o p) ks f, p).
Proof.
  induction ks as [|k ks IH]; intros f Q; simpl; auto.
  simpl in Q. apply quiet_app in Q as [Q1 Q2].
  assert (E1 : next_is_text ks = match ks with [] => true | XText _ :: _ => true | _ => false end)
    by (destruct ks as [|[]]; reflexivity).
  rewrite E1, spaced_quiet by auto. rewrite IH by auto. destruct k; reflexivity.
Qed.

Lemma map_texts_id : forall n f l, map_texts (fun _ _ s => s) n f l = n.
Proof.
  apply (xnode_ind' (fun n => forall f l, map_texts (fun _ _ s => s) n f l = n)); auto.
  intros n a ks IH f l. simpl. f_equal.
  assert (K : forall b, map_top (fun _ _ s => s) ks b = ks); [|apply K].
  induction IH as [|k ks Hk _ IHk]; intros b; simpl; auto. rewrite Hk, IHk. reflexivity.
Qed.

Lemma map_top_id ks : forall f, map_top (fun _ _ s => s) ks f = ks.
Proof. induction ks as [|k ks IH]; intros f; simpl; auto. rewrite map_texts_id, IH. reflexivity. Qed.

Lemma map_texts_ext g h : (forall a b s, g a b s = h a b s) -> forall n f l,
  map_texts g n f l = map_texts h n f l.
Proof.
  intros E. apply (xnode_ind' (fun n => forall f l, map_texts g n f l = map_texts h n f l)); simpl; auto.
  - intros n a ks IH f l. f_equal.
    assert (K : forall b, map_top g ks b = map_top h ks b); [|apply K].
    induction IH as [|k ks Hk _ IHk]; intros b; simpl; auto. rewrite Hk, IHk. reflexivity.
  - intros s f l. rewrite E. reflexivity.
Qed.
Lemma map_top_ext g h ks : (forall a b s, g a b s = h a b s) -> forall f,
  map_top g ks f = map_top h ks f.
Proof.
  intros E. induction ks as [|k ks IH]; intros f; simpl; auto.
  rewrite (map_texts_ext g h E), IH. reflexivity.
Qed.

Lemma words_in cur s w c : In w (words_from cur s) -> In c w -> In c cur \/ In c s.
Proof.
  revert cur; induction s as [|d s IH]; intros cur; simpl.
  - destruct cur as [|x cur]; [intros []|]. intros [<-|[]] H. left. apply in_rev. exact H.
  - destruct (is_whitespace d).
    + destruct cur as [|x cur]; [intros Hw Hc; destruct (IH _ Hw Hc) as [[]|]; auto|].
      intros [<-|Hw] Hc; [left; apply in_rev; exact Hc|]. destruct (IH _ Hw Hc) as [[]|]; auto.
    + intros Hw Hc. destruct (IH _ Hw Hc) as [[<-|]|]; auto.
Qed.

Lemma spaced_text_in o p f l s c : In c (spaced_text o p f l s) -> c = 32%N \/ In c s.
Proof.
  assert (D : forall i, In c (default_text i f l s) -> c = 32%N \/ In c s).
  { intros i. unfold default_text. destruct (split_whitespace s) as [|w ws] eqn:E; [intros []|].
    rewrite !in_app_iff. intros [H|[H|[H|H]]].
    - left. destruct (_ && _); simpl in H; intuition.
    - right. destruct (words_in [] s w c) as [[]|]; auto.
      unfold split_whitespace in E. rewrite E. left; reflexivity.
    - apply in_flat_map in H as (x & Hx & H). simpl in H. destruct H as [<-|H]; [left; reflexivity|].
      right. destruct (words_in [] s x c) as [[]|]; auto.
      unfold split_whitespace in E. rewrite E. right; auto.
    - left. destruct (_ && _); simpl in H; intuition. }
  assert (V : In c (preserve_text s) -> c = 32%N \/ In c s).
  { unfold preserve_text. rewrite in_map_iff. intros (x & E & Hx).
    destruct (_ || _); subst; auto. }
  unfold spaced_text. destruct (trim_whitespace o); auto; [destruct p; auto|]; eauto.
Qed.

Lemma spaced_text_ok o p f l s : text_ok s -> text_ok (spaced_text o p f l s).
Proof.
  unfold text_ok. rewrite !forallb_forall. intros H c Hc.
  apply spaced_text_in in Hc as [->|Hc]; [reflexivity|auto].
Qed.

Lemma spaced_ok o : forall n f l p, node_ok n -> node_ok (fst (spaced o n f l p)).
Proof.
  apply (xnode_ind' (fun n => forall f l p, node_ok n -> node_ok (fst (spaced o n f l p)))); simpl; auto.
  - intros n a ks IH f l p (H1 & H2 & H3 & H4).
    assert (K : forall f p, Forall node_ok (fst (spaced_kids (spaced o) ks f p))).
    { apply all_forall in H4. clear -IH H4. induction IH as [|k ks Hk _ IHk]; intros f p; simpl; auto.
      inversion H4; subst. specialize (Hk f (next_is_text ks) p).
      destruct (spaced o k f (next_is_text ks) p) as [k' p1]. simpl in *.
      specialize (IHk ltac:(auto) (is_text_node k) p1).
      destruct (spaced_kids _ _ _ _). simpl in *. auto. }
    specialize (K true (attrs_flag o a p)). destruct (spaced_kids _ _ _ _) as [ks' p']. simpl in *.
    repeat split; auto. apply all_forall. auto.
  - intros s f l p H. apply spaced_text_ok. exact H.
Qed.

Lemma spaced_kids_ok o ks : forall f p, Forall node_ok ks ->
  Forall node_ok (fst (spaced_kids (spaced o) ks f p)).
Proof.
  induction ks as [|k ks IH]; intros f p H; simpl; auto. inversion H; subst.
  pose proof (spaced_ok o k f (next_is_text ks) p) as K.
  destruct (spaced o k f (next_is_text ks) p) as [k' p1]. simpl in *.
  specialize (IH (is_text_node k) p1). destruct (spaced_kids _ _ _ _). simpl in *. auto.
Qed.

(** The general round trip: every whitespace mode, every [xml:space]. *)
Lemma round_trip o kids : plain o -> Forall top_ok kids -> exists s,
  serialize_document o kids = WOk s /\
  read s = Some (document_of (fst (spaced_kids (spaced o) kids true false))).
Proof.
  intros P OK. eexists. split; [apply serialize_document_xml; auto|].
  apply read_document. apply spaced_kids_ok.
  eapply Forall_impl; [|exact OK]. intros n [H _]; exact H.
Qed.

Lemma round_trip_quiet o kids : plain o -> Forall top_ok kids ->
  quiet o (flat_map all_attrs kids) -> exists s,
  serialize_document o kids = WOk s /\
  read s = Some (document_of (map_top (spaced_text o false) kids true)).
Proof.
  intros P OK Q. destruct (round_trip o kids P OK) as (s & H1 & H2).
  rewrite spaced_kids_quiet in H2 by auto. eauto.
Qed.

Lemma round_trip_never o kids : plain o -> trim_whitespace o = SpNever -> Forall top_ok kids -> exists s,
  serialize_document o kids = WOk s /\ read s = Some (document_of kids).
Proof.
  intros P T OK. destruct (round_trip_quiet o kids P OK) as (s & H1 & H2); [intros E; congruence|].
  exists s. split; auto. rewrite H2. rewrite (map_top_ext _ (fun _ _ s => s)), map_top_id; auto.
  intros. unfold spaced_text. rewrite T. reflexivity.
Qed.

(** One root whose descendants carry no [xml:space]. *)
Lemma root_space o name attrs kids : plain o -> trim_whitespace o = SpAuto ->
  top_ok (XElem name attrs kids) ->
  Forall (fun a => xml_space (fst a) (snd a) = None) (flat_map all_attrs kids) -> exists s,
  serialize_document o [XElem name attrs kids] = WOk s /\
  read s = Some (document_of [XElem name attrs
    (map_top (fun f l s => if attrs_flag o attrs false then preserve_text s else default_text INone f l s) kids true)]).
Proof.
  intros P T OK Q. destruct (round_trip o [XElem name attrs kids] P) as (s & H1 & H2); [auto|].
  exists s. split; auto. rewrite H2. simpl spaced_kids.
  rewrite spaced_kids_quiet by (intros _; exact Q). simpl.
  rewrite (map_top_ext _ (fun f l s => if attrs_flag o attrs false then preserve_text s else default_text INone f l s)); auto.
  intros. unfold spaced_text. rewrite T. reflexivity.
Qed.

(** The flag after a tree is the last [xml:space] in document order. *)
Lemma flag_last o : forall n f l p, snd (spaced o n f l p) = attrs_flag o (all_attrs n) p.
Proof.
  apply (xnode_ind' (fun n => forall f l p, snd (spaced o n f l p) = attrs_flag o (all_attrs n) p)); simpl; auto.
  intros n a ks IH f l p. unfold attrs_flag. rewrite fold_left_app.
  change (fold_left (attr_flag o) a p) with (attrs_flag o a p).
  assert (K : forall f p, snd (spaced_kids (spaced o) ks f p) = fold_left (attr_flag o) (flat_map all_attrs ks) p).
  { induction IH as [|k ks Hk _ IHk]; intros f' p'; simpl; auto.
    rewrite fold_left_app. specialize (Hk f' (next_is_text ks) p').
    destruct (spaced o k f' (next_is_text ks) p') as [k' p1]. simpl in Hk. subst p1.
    change (fold_left (attr_flag o) (all_attrs k) p') with (attrs_flag o (all_attrs k) p').
    specialize (IHk (is_text_node k) (attrs_flag o (all_attrs k) p')).
    destruct (spaced_kids _ _ _ _). exact IHk. }
  specialize (K true (attrs_flag o a p)). destruct (spaced_kids _ _ _ _). exact K.
Qed.

(* ------------------------------------------------------------------ words *)

Lemma words_from_app cur w s : forallb (fun c => negb (is_whitespace c)) w = true ->
  words_from cur (w ++ s) = words_from (rev w ++ cur) s.
Proof.
  revert cur; induction w as [|c w IH]; intros cur H; simpl in *; auto.
  apply andb_true_iff in H as [H1 H2]. apply negb_true_iff in H1. rewrite H1.
  rewrite IH by auto. rewrite <- app_assoc. reflexivity.
Qed.

Lemma words_solid cur s w : forallb (fun c => negb (is_whitespace c)) cur = true ->
  In w (words_from cur s) -> forallb (fun c => negb (is_whitespace c)) w = true /\ w <> [].
Proof.
  assert (R : forall l, forallb (fun c => negb (is_whitespace c)) l = true ->
              forallb (fun c => negb (is_whitespace c)) (rev l) = true).
  { intros l. rewrite !forallb_forall. intros H x Hx. apply H. apply in_rev. auto. }
  assert (NE : forall (x : N) l, rev (x :: l) <> []) by (intros x l E; simpl in E; destruct (rev l); discriminate).
  revert cur; induction s as [|c s IH]; intros cur H; simpl.
  - destruct cur; [intros []|]. intros [<-|[]]. split; auto.
  - destruct (is_whitespace c) eqn:E.
    + destruct cur; [apply IH; reflexivity|]. intros [<-|Hw]; [split; auto|]. eapply (IH []); auto.
    + apply IH. simpl. rewrite E. auto.
Qed.

Lemma words_join ws : Forall (fun w => forallb (fun c => negb (is_whitespace c)) w = true /\ w <> []) ws ->
  forall t, words_from [] t = [] ->
  words_from [] (flat_map (fun p => lit " " ++ p) ws ++ t) = ws /\
  (forall cur, cur <> [] -> words_from cur (flat_map (fun p => lit " " ++ p) ws ++ t) =
     match ws, t with
     | [], _ => words_from cur t
     | _, _ => rev cur :: ws
     end).
Proof.
  induction 1 as [|w ws [Hw Nw] _ IH]; intros t Ht; simpl; [split; auto|].
  destruct (IH t Ht) as [I1 I2].
  assert (E : words_from [] ((w ++ flat_map (fun p => lit " " ++ p) ws) ++ t) = w :: ws).
  { rewrite <- app_assoc, words_from_app by auto. rewrite app_nil_r.
    assert (Nr : rev w <> []) by (intros E; apply Nw; rewrite <- (rev_involutive w), E; reflexivity).
    rewrite I2 by auto. destruct ws as [|v ws].
    - destruct t as [|c t].
      + simpl. destruct (rev w) eqn:R; [congruence|]. rewrite <- R, rev_involutive. reflexivity.
      + simpl in Ht |- *. destruct (is_whitespace c) eqn:Ec.
        * destruct (rev w) eqn:R; [congruence|]. rewrite <- R, rev_involutive, Ht. reflexivity.
        * exfalso. clear -Ht Ec. assert (A : forall s cur, cur <> [] -> words_from cur s <> []).
          { induction s as [|d s IHs]; intros cur Hc; simpl; [destruct cur; [congruence|discriminate]|].
            destruct (is_whitespace d); [destruct cur; [congruence|discriminate]|].
            apply IHs. discriminate. }
          apply (A t [c]); [discriminate|exact Ht].
    - rewrite rev_involutive. reflexivity. }
  split; [exact E|]. intros cur Hc. destruct cur; [congruence|]. exact (f_equal _ E).
Qed.

Lemma default_text_words i f l s : split_whitespace (default_text i f l s) = split_whitespace s.
Proof.
  unfold default_text. destruct (split_whitespace s) as [|w ws] eqn:E; auto.
  assert (F : Forall (fun w => forallb (fun c => negb (is_whitespace c)) w = true /\ w <> []) (w :: ws)).
  { apply Forall_forall. intros x Hx. eapply (words_solid [] s); auto.
    unfold split_whitespace in E. rewrite E. exact Hx. }
  assert (W : forall b : bool, words_from [] (if b then lit " " else []) = []) by (destruct b; reflexivity).
  set (tl := if negb l && match i with INone => true | _ => false end && first_char_ws (rev s) then lit " " else []).
  assert (Htl : words_from [] tl = []) by apply W.
  destruct (words_join (w :: ws) F tl Htl) as [J _]. simpl in J.
  unfold split_whitespace. rewrite <- app_assoc in J.
  destruct (negb f && _ && _); simpl; exact J.
Qed.

Lemma default_text_chars i f l s :
  forallb (fun c => negb (is_whitespace c) || is_xml_space c) s = true ->
  filter (fun c => negb (is_xml_space c)) (default_text i f l s) =
  filter (fun c => negb (is_xml_space c)) s.
Proof.
  intros H.
  assert (SW : forall c, is_xml_space c = true -> is_whitespace c = true).
  { intros c. unfold is_xml_space. intros E. repeat rewrite orb_true_iff in E. rewrite !N.eqb_eq in E.
    destruct E as [[[->| ->]| ->]| ->]; reflexivity. }
  (* both sides are the concatenation of the words *)
  assert (A : forall s, forallb (fun c => negb (is_whitespace c) || is_xml_space c) s = true ->
    filter (fun c => negb (is_xml_space c)) s = concat (split_whitespace s)).
  { assert (G : forall s cur, forallb (fun c => negb (is_whitespace c) || is_xml_space c) s = true ->
      rev cur ++ filter (fun c => negb (is_xml_space c)) s = concat (words_from cur s)).
    { induction s0 as [|c s0 IH]; intros cur Hs; simpl.
      - rewrite app_nil_r. destruct cur; simpl; [reflexivity|]. rewrite app_nil_r. reflexivity.
      - simpl in Hs. apply andb_true_iff in Hs as [Hc Hs]. destruct (is_whitespace c) eqn:E.
        + simpl in Hc. rewrite Hc. simpl. destruct cur as [|d cur].
          * rewrite <- (IH [] Hs). reflexivity.
          * cbn [concat]. rewrite <- (IH [] Hs). reflexivity.
        + destruct (is_xml_space c) eqn:E2; [apply SW in E2; congruence|]. simpl.
          rewrite <- (IH (c :: cur) Hs). simpl. rewrite <- app_assoc. reflexivity. }
    intros s0 Hs. exact (G s0 [] Hs). }
  rewrite (A s H), A.
  - rewrite default_text_words. reflexivity.
  - rewrite forallb_forall in *. intros c Hc.
    destruct (spaced_text_in (mkOptions false INone SpDefault INone true) false f l s c) as [->|Hin]; auto.
    unfold spaced_text. simpl. 
    clear -Hc. unfold default_text in *. destruct (split_whitespace s); [exact Hc|].
    rewrite !in_app_iff in *. destruct i; auto;
    repeat match goal with H : In c (if _ && false && _ then _ else _) \/ _ |- _ => idtac end;
    rewrite ?andb_false_r, ?andb_true_r in *; simpl in *; tauto.
Qed.

Lemma flag_preserve o attrs : trim_whitespace o = SpAuto -> NoDup (map fst attrs) ->
  attrs_flag o attrs false = asks_preserve attrs.
Proof.
  intros T. unfold attrs_flag, asks_preserve.
  assert (A : forall l p, ~ In (lit "xml:space") (map fst l) ->
    fold_left (attr_flag o) l p = p /\
    existsb (fun a => text_eqb (fst a) (lit "xml:space") && text_eqb (snd a) (lit "preserve")) l = false).
  { induction l as [|[n v] l IH]; intros p H; simpl; auto. simpl in H.
    assert (E : text_eqb n (lit "xml:space") = false) by (apply text_eqb_neq; intros ->; tauto).
    unfold attr_flag at 2, xml_space. rewrite T. cbn [fst snd]. rewrite E. apply IH. tauto. }
  induction attrs as [|[n v] l IH]; intros N; cbn [fold_left existsb]; auto.
  inversion N as [|? ? N1 N2]; subst. unfold attr_flag at 2, xml_space. rewrite T. cbn [fst snd] in *.
  destruct (text_eqb n (lit "xml:space")) eqn:E.
  - apply text_eqb_spec in E. subst n. cbn [andb].
    destruct (text_eqb v (lit "preserve")); cbn [orb].
    + apply A; auto.
    + destruct (text_eqb v (lit "default")); rewrite (proj1 (A l false N1)), (proj2 (A l false N1)); reflexivity.
  - apply IH; auto.
Qed.

Lemma root_space' o name attrs kids : opt_indent o = INone -> attributes_indent o = INone ->
  trim_whitespace o = SpAuto -> top_ok (XElem name attrs kids) ->
  Forall (fun a => fst a <> lit "xml:space") (flat_map all_attrs kids) -> exists s,
  serialize_document o [XElem name attrs kids] = WOk s /\
  read s = Some (document_of [XElem name attrs
    (map_top (if asks_preserve attrs then fun _ _ s => preserve_text s else default_text INone) kids true)]).
Proof.
  intros P1 P2 T OK Q. destruct (root_space o name attrs kids (conj P1 P2) T OK) as (s & H1 & H2).
  - eapply Forall_impl; [|exact Q]. intros a Ha. unfold xml_space.
    replace (text_eqb (fst a) (lit "xml:space")) with false; auto. symmetry. apply text_eqb_neq. exact Ha.
  - exists s. split; auto. rewrite H2. rewrite flag_preserve; auto; [|apply OK].
    rewrite (map_top_ext _ (if asks_preserve attrs then fun _ _ s => preserve_text s else default_text INone)); auto.
    intros. destruct (asks_preserve attrs); reflexivity.
Qed.

Lemma round_trip_default o kids : opt_indent o = INone -> attributes_indent o = INone ->
  Forall top_ok kids ->
  trim_whitespace o = SpDefault \/
  (trim_whitespace o = SpAuto /\ Forall (fun a => fst a <> lit "xml:space") (flat_map all_attrs kids)) ->
  exists s, serialize_document o kids = WOk s /\
  read s = Some (document_of (map_top (default_text INone) kids true)).
Proof.
  intros P1 P2 OK T. destruct (round_trip_quiet o kids (conj P1 P2) OK) as (s & H1 & H2).
  - intros E. destruct T as [T|[_ Q]]; [congruence|].
    eapply Forall_impl; [|exact Q]. intros a Ha. unfold xml_space.
    replace (text_eqb (fst a) (lit "xml:space")) with false; auto. symmetry. apply text_eqb_neq. exact Ha.
  - exists s. split; auto. rewrite H2. rewrite (map_top_ext _ (default_text INone)); auto.
    intros. unfold spaced_text. destruct T as [->|[-> _]]; reflexivity.
Qed.

Lemma round_trip_preserve o kids : opt_indent o = INone -> attributes_indent o = INone ->
  Forall top_ok kids -> trim_whitespace o = SpPreserve ->
  exists s, serialize_document o kids = WOk s /\
  read s = Some (document_of (map_top (fun _ _ s => preserve_text s) kids true)).
Proof.
  intros P1 P2 OK T. destruct (round_trip_quiet o kids (conj P1 P2) OK) as (s & H1 & H2); [intros E; congruence|].
  exists s. split; auto. rewrite H2. rewrite (map_top_ext _ (fun _ _ s => preserve_text s)); auto.
  intros. unfold spaced_text. rewrite T. reflexivity.
Qed.
