(** Lemmas: indented output. *)
From Coq Require Import String List NArith Bool Arith Lia.
From Verif Require Import Chars XmlModel XmlSpec XmlProofs XmlProofs2 XmlProofs3 XmlProofs4.
Import ListNotations.

Local Arguments attr_text : simpl never.

Definition is_inone (i : indent) : bool := match i with INone => true | _ => false end.
Definition pad (o : options) (blocked : bool) (d : nat) : text :=
  if is_inone (opt_indent o) || blocked then [] else 10%N :: concat (repeat (indent_unit (opt_indent o)) d).

Definition text_mode (o : options) (p : bool) : space :=
  match trim_whitespace o with SpAuto => if p then SpPreserve else SpDefault | x => x end.
(** What a text becomes. *)
Definition ispaced_text (o : options) (p f l : bool) (s : text) : text :=
  match text_mode o p with
  | SpDefault => default_text (opt_indent o) f l s
  | SpPreserve => preserve_text s
  | _ => s
  end.

Definition is_text_name (name : text) : bool := existsb (text_eqb name) text_content_names.
Definition nonempty {A} (l : list A) : bool := match l with [] => false | _ => true end.

Definition layout_kids (o : options) (f : xnode -> text -> bool -> bool -> bool -> list xnode * bool) (pd : bool -> text)
  : list xnode -> bool -> bool -> bool -> list xnode * bool :=
  fix go l e first p :=
  match l with
  | [] => ([], p)
  | k :: l =>
      let (k', p) := f k (if (e : bool) then [] else pd p) first (next_is_text l) p in
      let (l', p) := go l (e && negb (nonempty (flat_map (xml o) k'))) (is_text_node k) p in (k' ++ l', p)
  end.

Fixpoint layout (o : options) (d : nat) (t : bool) (n : xnode) (pd : text) (first last p : bool) : list xnode * bool :=
  match n with
  | XElem name attrs kids =>
      let t1 := t || is_text_name name in
      let (ks, p2) := layout_kids o (layout o (S d) t1) (fun p => pad o (p || t1) (S d)) kids false true (attrs_flag o attrs p) in
      ([XText pd; XElem name attrs (ks ++
         if nonempty (flat_map (xml o) ks) || negb (enable_self_closing o) then [XText (pad o (p2 || t1) d)] else [])], p2)
  | XText s =>
      match ispaced_text o p first last s with
      | [] => ([XText []], p)
      | s' => ([XText (match text_mode o p with SpPreserve => [] | _ => pd end); XText s'], p)
      end
  | XStyle [] => ([XStyle []], p)
  | XDoctype | XPI _ _ => ([n], p)
  | _ => ([XText pd; n], p)
  end.

(* ------------------------------------------------------------------ the writer *)

Definition textual (w : writer) : bool := is_text_content_element w.
Definition written_pad (o : options) (w : writer) : text :=
  if wstate_eqb (st w) WEmpty then [] else pad o (preserve w || textual w) (List.length (stack w)).

Lemma settle_textual s : existsb is_text_content_depth (settle s) = existsb is_text_content_depth s.
Proof. destruct s as [|[n h] s]; reflexivity. Qed.
Lemma settle_length s : List.length (settle s) = List.length s.
Proof. destruct s; reflexivity. Qed.

Lemma node_indent_spec o w : write_node_indent o w =
  emit w (if is_inone (opt_indent o) || (preserve w || textual w) then [] else concat (repeat (indent_unit (opt_indent o)) (List.length (stack w)))).
Proof.
  unfold write_node_indent, write_indent, textual. destruct (opt_indent o) eqn:E; simpl.
  - unfold emit. rewrite app_nil_r. destruct w; reflexivity.
  - destruct (preserve w || is_text_content_element w); auto. unfold emit; rewrite app_nil_r; destruct w; reflexivity.
  - destruct (preserve w || is_text_content_element w); auto. unfold emit; rewrite app_nil_r; destruct w; reflexivity.
Qed.
Lemma new_line_spec o w : write_new_line o w =
  emit w (if is_inone (opt_indent o) || (preserve w || textual w) then [] else [10%N]).
Proof.
  unfold write_new_line, textual. rewrite <- negb_orb.
  destruct (opt_indent o) eqn:E; simpl; try (unfold emit; rewrite app_nil_r; destruct w; reflexivity);
  destruct (preserve w || is_text_content_element w); simpl; auto; unfold emit; rewrite app_nil_r; destruct w; reflexivity.
Qed.
Lemma emit_emit w a b : emit (emit w a) b = emit w (a ++ b).
Proof. unfold emit. simpl. rewrite <- app_assoc. reflexivity. Qed.
Lemma emit_nil w : emit w [] = w.
Proof. unfold emit. rewrite app_nil_r. destruct w; reflexivity. Qed.

Lemma line_and_indent o w : write_node_indent o (write_new_line o w) = emit w (pad o (preserve w || textual w) (List.length (stack w))).
Proof.
  rewrite new_line_spec, node_indent_spec, emit_emit. f_equal. unfold pad.
  change (preserve (emit w ?x)) with (preserve w). change (textual (emit w ?x)) with (textual w).
  change (stack (emit w ?x)) with (stack w).
  destruct (is_inone (opt_indent o) || (preserve w || textual w)); reflexivity.
Qed.

Lemma pad_spec o w : Inv w ->
  write_node_indent o (if wstate_eqb (st w) WEmpty then w else write_new_line o w) = emit w (written_pad o w).
Proof.
  intros I. unfold written_pad. destruct (wstate_eqb (st w) WEmpty) eqn:E; [|apply line_and_indent].
  assert (S : stack w = []).
  { unfold Inv in I. destruct (stack w); auto. destruct I as [[H _]|[H _]]; rewrite H in E; discriminate. }
  rewrite node_indent_spec, S. simpl. destruct (is_inone _ || _); reflexivity.
Qed.

Lemma opened_inv w : Inv w -> Inv (opened w).
Proof.
  unfold Inv, opened. destruct (stack w) as [|d ds]; simpl.
  - intros [-> | ->]; simpl; auto.
  - intros [[-> H]|[-> H]]; simpl; auto.
Qed.
Lemma opened_pad o w : written_pad o (opened w) = written_pad o w.
Proof.
  unfold written_pad, textual, is_text_content_element, opened. simpl. rewrite settle_textual, settle_length.
  destruct (st w); reflexivity.
Qed.

Lemma before_text_pad o w : Inv w -> stack w <> [] ->
  before_write_text o w false = WOk (emit (opened w) (written_pad o w)).
Proof.
  intros I S. unfold before_write_text.
  assert (E : wstate_eqb (st w) WEmpty || match stack w with [] => true | _ => false end = false).
  { unfold Inv in I. destruct (stack w); [congruence|]. destruct I as [[-> _]|[-> _]]; reflexivity. }
  rewrite E, open_pending by auto. cbn [andb]. rewrite pad_spec by (apply opened_inv; auto).
  rewrite opened_pad. reflexivity.
Qed.

Lemma escape_pad sq eq s : forallb layout_space s = true -> escape sq eq s = s.
Proof.
  induction s as [|c s IH]; intros H; auto. simpl in H. apply andb_true_iff in H as [H1 H2].
  unfold escape in *. simpl. rewrite IH by auto.
  assert (E : escape_char sq eq c = [c]); [|rewrite E; reflexivity].
  unfold layout_space in H1. rewrite !orb_true_iff, !N.eqb_eq in H1.
  destruct H1 as [[->| ->]| ->]; reflexivity.
Qed.

Lemma pad_space_ok o b d : forallb layout_space (pad o b d) = true.
Proof.
  unfold pad. destruct (is_inone (opt_indent o) || b); auto. simpl. apply forallb_forall. intros c H.
  apply in_concat in H as (u & Hu & Hc). apply repeat_spec in Hu. subst u.
  destruct (opt_indent o); simpl in Hc; [tauto| |destruct Hc as [<-|[]]; reflexivity].
  apply repeat_spec in Hc. subst. reflexivity.
Qed.
Lemma written_pad_ok o w : forallb layout_space (written_pad o w) = true.
Proof. unfold written_pad. destruct (wstate_eqb _ _); auto. apply pad_space_ok. Qed.

Lemma emit_after w a x p : x <> [] -> p = preserve w ->
  set_st (emit (emit (opened w) a) x) WDocument = after w (a ++ x) p.
Proof. intros Hx Hp. rewrite emit_emit. apply emit_opened; auto. destruct a; [auto|discriminate]. Qed.

Lemma xml_pad o s : forallb layout_space s = true -> xml o (XText s) = s.
Proof. intros H. simpl. apply escape_pad. exact H. Qed.

Lemma ispaced_nil o p f l : ispaced_text o p f l [] = [].
Proof. unfold ispaced_text. destruct (text_mode o p); reflexivity. Qed.

(** Writing a text inside an element. *)
Lemma write_text_layout o w s f l d t : Inv w -> s <> [] -> stack w <> [] ->
  write_text o w s f l =
  WOk (after w (flat_map (xml o) (fst (layout o d t (XText s) (written_pad o w) f l (preserve w)))) (preserve w)).
Proof.
  intros I Hs S.
  assert (B : forall a x, x <> [] -> forallb layout_space a = true ->
    WOk (set_st (emit (emit (opened w) a) (escape (use_single_quote o) false x)) WDocument) =
    WOk (after w (flat_map (xml o) [XText a; XText x]) (preserve w))).
  { intros a x Hx Ha. f_equal. rewrite (emit_after w a _ (preserve w)); auto.
    - cbn [flat_map]. rewrite xml_pad by auto. simpl. rewrite app_nil_r. reflexivity.
    - intros E. apply escape_nil in E. auto. }
  unfold write_text. fold (text_mode o (preserve w)). cbn [layout]. unfold ispaced_text.
  destruct (text_mode o (preserve w)) eqn:M.
  - destruct s as [|c s]; [congruence|]. unfold write_text_fmt_impl. rewrite before_text_pad by auto. cbn [wbind fst].
    change (st (emit (emit (opened w) ?y) ?x)) with (st (opened w)). cbv zeta.
    change (st (emit (emit (opened w) ?y) ?x)) with (st (opened w)). rewrite opened_not_attrs.
    apply B; [discriminate|apply written_pad_ok].
  - exfalso. unfold text_mode in M. destruct (trim_whitespace o), (preserve w); discriminate.
  - destruct (default_text (opt_indent o) f l s) as [|c x] eqn:D.
    + apply default_text_nil in D. rewrite D. cbn [fst flat_map]. simpl. destruct w; reflexivity.
    + destruct (split_whitespace s) eqn:W; [rewrite split_nil_default in D by auto; discriminate|].
      rewrite before_text_pad by auto. cbn [wbind fst]. apply B; [discriminate|apply written_pad_ok].
  - destruct s as [|c s]; [congruence|]. rewrite before_text_pad by auto. cbn [wbind].
    assert (E : written_pad (mkOptions (use_single_quote o) INone (trim_whitespace o) (attributes_indent o) (enable_self_closing o)) w = []).
    { unfold written_pad, pad. simpl. destruct (wstate_eqb _ _); reflexivity. }
    rewrite E. unfold preserve_text at 2. cbn [map fst]. apply B; [discriminate|reflexivity].
Qed.

Definition laid_out (o : options) (n : xnode) : Prop := forall f l w,
  no_pi n -> placed n w -> Inv w ->
  serialize_node o n f l w =
  let r := layout o (List.length (stack w)) (textual w) n (written_pad o w) f l (preserve w) in
  WOk (after w (flat_map (xml o) (fst r)) (snd r)).

Lemma after_length w x p : List.length (stack (after w x p)) = List.length (stack w).
Proof. unfold after. destruct x; simpl; auto. apply settle_length. Qed.
Lemma after_textual w x p : textual (after w x p) = textual w.
Proof. unfold after, textual, is_text_content_element. destruct x; simpl; auto. apply settle_textual. Qed.

Lemma layout_kids_after o kids : Forall (laid_out o) kids -> forall f w,
  Forall no_pi kids -> Forall (fun k => placed k w) kids -> Inv w ->
  serialize_kids (serialize_node o) kids f w =
  let r := layout_kids o (layout o (List.length (stack w)) (textual w))
             (fun p => pad o (p || textual w) (List.length (stack w))) kids (wstate_eqb (st w) WEmpty) f (preserve w) in
  WOk (after w (flat_map (xml o) (fst r)) (snd r)).
Proof.
  induction 1 as [|k kids Hk _ IH]; intros f w NP PL I; cbv zeta.
  - simpl. f_equal. symmetry. apply after_nil.
  - inversion NP; subst. inversion PL; subst. cbn [serialize_kids]. rewrite Hk by auto. cbv zeta. cbn [wbind layout_kids].
    fold (written_pad o w).
    destruct (layout o (List.length (stack w)) (textual w) k (written_pad o w) f (next_is_text kids) (preserve w)) as [k' p] eqn:Ek.
    cbn [fst snd]. fold (serialize_kids (serialize_node o)). rewrite IH; auto.
    + cbv zeta. rewrite after_preserve, after_length, after_textual.
      assert (E : wstate_eqb (st (after w (flat_map (xml o) k') p)) WEmpty =
                  wstate_eqb (st w) WEmpty && negb (nonempty (flat_map (xml o) k'))).
      { unfold after. destruct (flat_map (xml o) k'); simpl; [rewrite andb_true_r; reflexivity|rewrite andb_false_r; reflexivity]. }
      rewrite E. fold (layout_kids o (layout o (List.length (stack w)) (textual w)) (fun p => pad o (p || textual w) (List.length (stack w)))).
      match goal with |- context [layout_kids ?a ?b ?c ?d ?e ?g ?h] => destruct (layout_kids a b c d e g h) as [l' p'] end.
      cbn [fst snd]. rewrite after_after by auto. rewrite flat_map_app. reflexivity.
    + eapply Forall_impl; [|eassumption]. intros x Hx. unfold placed in *.
      destruct x as [| [|] | [|] | | |]; auto; rewrite after_stack; auto.
    + apply after_inv; auto.
Qed.

Lemma start_element_pad o w name : Inv w ->
  start_element o w name =
  WOk (mkWriter (out w ++ pending w ++ written_pad o w ++ lit "<" ++ name) WAttributes (preserve w)
         (mkDepth (Some name) false :: settle (stack w))).
Proof.
  intros I. unfold start_element. rewrite open_pending by auto. cbv zeta.
  assert (E : forall x : writer, preserve x = preserve w -> textual x = textual w ->
    (if negb (preserve x) && negb (is_text_content_element x) then write_node_indent o x else x) = write_node_indent o x).
  { intros x H1 H2. rewrite <- negb_orb. fold (textual x). rewrite node_indent_spec.
    destruct (preserve x || textual x); simpl; auto. rewrite orb_true_r, emit_nil. reflexivity. }
  assert (T : textual (opened w) = textual w) by (unfold textual, is_text_content_element, opened; simpl; apply settle_textual).
  rewrite E.
  - rewrite pad_spec by (apply opened_inv; auto). rewrite opened_pad. unfold emit, opened. simpl. rewrite <- !app_assoc. reflexivity.
  - destruct (wstate_eqb _ _); auto. rewrite new_line_spec. reflexivity.
  - destruct (wstate_eqb _ _); auto. rewrite new_line_spec. exact T.
Qed.

Lemma end_element_pad o wo p name body ds :
  let t1 := existsb is_text_content_depth ds || is_text_name name in
  let trail := if nonempty body || negb (enable_self_closing o) then pad o (p || t1) (List.length ds) else [] in
  end_element o (after (mkWriter wo WAttributes p (mkDepth (Some name) false :: ds)) body p) =
  WOk (mkWriter (wo ++ match body ++ trail with
      | [] => if enable_self_closing o then lit "/>" else lit ">" ++ lit "</" ++ name ++ lit ">"
      | b => lit ">" ++ b ++ lit "</" ++ name ++ lit ">"
      end) WDocument p ds).
Proof.
  cbv zeta.
  assert (A : forall w, preserve w = p -> stack w = ds ->
    (if negb (preserve w) && negb (existsb (text_eqb name) text_content_names) then write_node_indent o (write_new_line o w) else w)
    = emit w (pad o (p || (existsb is_text_content_depth ds || is_text_name name)) (List.length ds))).
  { intros w H1 H2. rewrite line_and_indent. unfold textual, is_text_content_element. rewrite H1, H2.
    fold (is_text_name name). destruct p, (is_text_name name); simpl; rewrite ?orb_true_r, ?orb_false_r; auto;
      unfold pad; rewrite orb_true_r, emit_nil; reflexivity. }
  unfold end_element, after. destruct body as [|c body].
  - cbn [stack has_children orb nonempty app]. destruct (enable_self_closing o); cbn [negb orb andb].
    + unfold emit, set_st. simpl. reflexivity.
    + change (is_text_content_depth (mkDepth (Some name) false)) with (existsb (text_eqb name) text_content_names).
      rewrite A by reflexivity. unfold emit, set_st. cbn [st out wstate_eqb preserve stack].
      f_equal. f_equal. destruct (pad _ _ _); simpl; rewrite <- ?app_assoc; simpl; rewrite <- ?app_assoc; reflexivity.
  - cbn [stack settle has_children orb nonempty negb andb element_name].
    change (is_text_content_depth (mkDepth (Some name) true)) with (existsb (text_eqb name) text_content_names).
    rewrite A by reflexivity. unfold emit, set_st. cbn [st out wstate_eqb preserve stack pending].
    f_equal. f_equal. simpl. rewrite <- ?app_assoc. simpl. rewrite <- ?app_assoc. reflexivity.
Qed.

Lemma xml_layout_elem o name attrs ks pd tr : forallb layout_space pd = true -> forallb layout_space tr = true ->
  flat_map (xml o) [XText pd; XElem name attrs (ks ++ (if nonempty (flat_map (xml o) ks) || negb (enable_self_closing o) then [XText tr] else []))] =
  pd ++ lit "<" ++ name ++ flat_map (attr_text o) attrs ++
  match flat_map (xml o) ks ++ (if nonempty (flat_map (xml o) ks) || negb (enable_self_closing o) then tr else []) with
  | [] => if enable_self_closing o then lit "/>" else lit ">" ++ lit "</" ++ name ++ lit ">"
  | b => lit ">" ++ b ++ lit "</" ++ name ++ lit ">"
  end.
Proof.
  intros H1 H2. cbn [flat_map]. rewrite xml_pad by auto. rewrite app_nil_r. f_equal. cbn [xml].
  assert (E : flat_map (xml o) (ks ++ (if nonempty (flat_map (xml o) ks) || negb (enable_self_closing o) then [XText tr] else []))
     = flat_map (xml o) ks ++ (if nonempty (flat_map (xml o) ks) || negb (enable_self_closing o) then tr else [])).
  { rewrite flat_map_app. f_equal. destruct (_ || _); auto. cbn [flat_map]. rewrite xml_pad by auto. apply app_nil_r. }
  rewrite E. destruct (flat_map (xml o) ks ++ _); reflexivity.
Qed.

Lemma serialize_node_layout o : attributes_indent o = INone -> forall n, laid_out o n.
Proof.
  intros P. apply xnode_ind'; unfold laid_out.
  - intros n a ks IH f l w NP PL I. cbn [serialize_node]. rewrite start_element_pad by auto. cbn [wbind].
    rewrite write_attributes_spec by auto. cbn [wbind].
    set (w1 := mkWriter _ WAttributes _ _).
    assert (I1 : Inv w1) by (left; auto).
    rewrite (layout_kids_after o ks IH); auto.
    + cbv zeta. cbn [wbind]. change (preserve w1) with (attrs_flag o a (preserve w)).
      assert (L1 : List.length (stack w1) = S (List.length (stack w))) by (simpl; rewrite settle_length; reflexivity).
      assert (T1 : textual w1 = textual w || is_text_name n).
      { unfold textual, is_text_content_element, w1. cbn [stack existsb]. rewrite settle_textual, orb_comm. reflexivity. }
      rewrite L1, T1. change (wstate_eqb (st w1) WEmpty) with false. cbn [layout].
      match goal with |- context [layout_kids ?a ?b ?c ?d ?e ?g ?h] => destruct (layout_kids a b c d e g h) as [ks' p] eqn:E end.
      cbn [fst snd].
      assert (A : after w1 (flat_map (xml o) ks') p =
        after (mkWriter (out w1) WAttributes p (stack w1)) (flat_map (xml o) ks') p).
      { unfold after, pending, w1; simpl. destruct (flat_map (xml o) ks'); reflexivity. }
      rewrite A. unfold w1. cbn [out stack]. rewrite end_element_pad. rewrite settle_textual, settle_length.
      fold (is_text_content_element w). fold (textual w).
      rewrite xml_layout_elem by (try apply written_pad_ok; apply pad_space_ok).
      set (body := match flat_map (xml o) ks' ++ _ with [] => _ | _ => _ end).
      f_equal. unfold after.
      match goal with |- _ = match ?x with [] => _ | _ => _ end => assert (X : x <> []) by (intros X; apply app_eq_nil in X as [_ X]; discriminate) end.
      match goal with |- _ = match ?x with [] => _ | _ => _ end => destruct x eqn:Ex; [congruence|rewrite <- Ex] end.
      rewrite <- !app_assoc. reflexivity.
    + simpl in NP. apply all_forall in NP. auto.
    + apply Forall_forall. intros x _. unfold placed, w1. destruct x as [| [|] | [|] | | |]; simpl; auto;
        discriminate.
  - intros s f l w _ PL I. cbv zeta. destruct s as [|c s].
    + cbn [serialize_node layout]. rewrite ispaced_nil. simpl. destruct w; reflexivity.
    + simpl in PL. cbn [serialize_node]. rewrite (write_text_layout o w _ f l (List.length (stack w)) (textual w)); auto; [|discriminate].
      f_equal. f_equal. cbn [layout]. destruct (ispaced_text _ _ _ _ _); reflexivity.
  - intros s f l w _ PL I. cbv zeta. destruct s as [|c s]; cbn [serialize_node write_style layout fst snd].
    + simpl. destruct w; reflexivity.
    + simpl in PL. rewrite before_text_pad by auto. cbn [wbind]. f_equal. cbn [flat_map].
      rewrite xml_pad by apply written_pad_ok. rewrite app_nil_r. cbn [xml].
      rewrite <- (emit_after w (written_pad o w) (c :: s) (preserve w)); [|discriminate|auto].
      unfold emit, set_st, opened. simpl. f_equal.
      unfold Inv in I. destruct (stack w); [contradiction|]. destruct I as [[-> _]|[-> _]]; reflexivity.
  - intros s f l w _ _ I. cbv zeta. cbn [serialize_node layout fst snd]. unfold write_comment.
    rewrite open_pending by auto. cbv zeta. rewrite pad_spec by (apply opened_inv; auto). rewrite opened_pad.
    change (st (emit (emit (opened w) ?y) ?x)) with (st (opened w)). rewrite opened_not_attrs. f_equal.
    rewrite (emit_after w (written_pad o w) _ (preserve w)); [|discriminate|auto].
    cbn [flat_map]. rewrite xml_pad by apply written_pad_ok. rewrite app_nil_r. reflexivity.
  - intros t v f l w [].
  - intros f l w _ _ _. cbn. destruct w; reflexivity.
Qed.

Definition page (o : options) (kids : list xnode) : list xnode :=
  let r := layout_kids o (layout o 0 false) (fun p => pad o (p || false) 0) kids true true false in
  fst r ++ [XText (pad o (snd r) 0)].

Lemma serialize_document_page o kids : attributes_indent o = INone -> Forall top_ok kids ->
  serialize_document o kids = WOk (flat_map (xml o) (page o kids)).
Proof.
  intros P OK. unfold serialize_document.
  rewrite (layout_kids_after o kids); cbv zeta.
  - unfold page. change (List.length (stack new_writer)) with 0. change (textual new_writer) with false.
    change (wstate_eqb (st new_writer) WEmpty) with true. change (preserve new_writer) with false. cbn [wbind].
    unfold end_document.
    match goal with |- context [layout_kids ?a ?b ?c ?d ?e ?g ?h] => destruct (layout_kids a b c d e g h) as [ks p] end.
    cbn [fst snd].
    assert (S : stack (after new_writer (flat_map (xml o) ks) p) = [])
      by (apply after_stack; reflexivity).
    rewrite S. cbn [List.length end_all wbind]. rewrite new_line_spec, after_preserve. unfold textual, is_text_content_element. rewrite S.
    rewrite flat_map_app. f_equal. cbn [flat_map]. rewrite xml_pad by apply pad_space_ok. rewrite app_nil_r.
    unfold pad, emit. cbn [existsb out repeat concat]. rewrite orb_false_r. f_equal.
    unfold after. destruct (flat_map (xml o) ks); reflexivity.
  - apply Forall_forall. intros n _. apply serialize_node_layout. exact P.
  - eapply Forall_impl; [|exact OK]. intros n [H _]. apply ok_no_pi. exact H.
  - eapply Forall_impl; [|exact OK]. intros n [_ H]. unfold placed.
    destruct n as [| [|] | [|] | | |]; auto; contradiction.
  - left. reflexivity.
Qed.

(* ------------------------------------------------------------------ what was added *)

(** The tree with its texts as the indenting writer will write them. *)
Fixpoint ispaced (o : options) (n : xnode) (first last p : bool) : xnode * bool :=
  match n with
  | XElem name attrs kids =>
      let (kids', p') := spaced_kids (ispaced o) kids true (attrs_flag o attrs p) in
      (XElem name attrs kids', p')
  | XText s => (XText (ispaced_text o p first last s), p)
  | n => (n, p)
  end.

Lemma layout_flag o : forall n d t pd f l p, snd (layout o d t n pd f l p) = snd (ispaced o n f l p).
Proof.
  apply (xnode_ind' (fun n => forall d t pd f l p, snd (layout o d t n pd f l p) = snd (ispaced o n f l p))).
  - intros n a ks IH d t pd f l p. cbn [layout ispaced].
    assert (K : forall d t pf e f p, snd (layout_kids o (layout o d t) pf ks e f p) = snd (spaced_kids (ispaced o) ks f p)).
    { induction IH as [|k ks Hk _ IHk]; intros d' t' pf e f' p'; [reflexivity|].
      cbn [layout_kids spaced_kids]. specialize (Hk d' t' (if e then [] else pf p') f' (next_is_text ks) p').
      destruct (layout o d' t' k _ f' (next_is_text ks) p') as [k1 p1].
      destruct (ispaced o k f' (next_is_text ks) p') as [k2 p2]. cbn [snd] in Hk. subst p2.
      fold (layout_kids o (layout o d' t') pf). fold (spaced_kids (ispaced o)).
      specialize (IHk d' t' pf (e && negb (nonempty (flat_map (xml o) k1))) (is_text_node k) p1).
      destruct (layout_kids _ _ _ _ _ _ _), (spaced_kids _ _ _ _). exact IHk. }
    specialize (K (S d) (t || is_text_name n) (fun p => pad o (p || (t || is_text_name n)) (S d)) false true (attrs_flag o a p)).
    destruct (layout_kids _ _ _ _ _ _ _), (spaced_kids _ _ _ _). exact K.
  - intros s d t pd f l p. cbn [layout ispaced]. destruct (ispaced_text _ _ _ _ _); reflexivity.
  - intros [|c s]; reflexivity.
  - reflexivity.
  - reflexivity.
  - reflexivity.
Qed.

Lemma layout_kids_flag o ks : forall d t pf e f p,
  snd (layout_kids o (layout o d t) pf ks e f p) = snd (spaced_kids (ispaced o) ks f p).
Proof.
  induction ks as [|k ks IHk]; intros d' t' pf e f' p'; [reflexivity|].
  cbn [layout_kids spaced_kids]. pose proof (layout_flag o k d' t' (if e then [] else pf p') f' (next_is_text ks) p') as Hk.
  destruct (layout o d' t' k _ f' (next_is_text ks) p') as [k1 p1].
  destruct (ispaced o k f' (next_is_text ks) p') as [k2 p2]. cbn [snd] in Hk. subst p2.
  fold (layout_kids o (layout o d' t') pf). fold (spaced_kids (ispaced o)).
  specialize (IHk d' t' pf (e && negb (nonempty (flat_map (xml o) k1))) (is_text_node k) p1).
  destruct (layout_kids _ _ _ _ _ _ _), (spaced_kids _ _ _ _). exact IHk.
Qed.

Lemma ispaced_quiet o p : forall n f l, quiet o (all_attrs n) ->
  ispaced o n f l p = (map_texts (ispaced_text o p) n f l, p).
Proof.
  apply (xnode_ind' (fun n => forall f l, quiet o (all_attrs n) ->
    ispaced o n f l p = (map_texts (ispaced_text o p) n f l, p))); simpl; auto.
  intros n a ks IH f l Q. apply quiet_app in Q as [Q1 Q2]. rewrite quiet_flag by auto.
  assert (K : forall f, spaced_kids (ispaced o) ks f p = (map_top (ispaced_text o p) ks f, p)).
  { induction IH as [|k ks Hk _ IHk]; intros f'; simpl; auto.
    simpl in Q2. apply quiet_app in Q2 as [Q2 Q3].
    assert (E1 : next_is_text ks = match ks with [] => true | XText _ :: _ => true | _ => false end)
      by (destruct ks as [|[]]; reflexivity).
    rewrite E1, Hk by auto. rewrite IHk by auto. destruct k; reflexivity. }
  rewrite K. reflexivity.
Qed.
Lemma ispaced_kids_quiet o p ks : forall f, quiet o (flat_map all_attrs ks) ->
  spaced_kids (ispaced o) ks f p = (map_top (ispaced_text o p) ks f, p).
Proof.
  induction ks as [|k ks IH]; intros f Q; simpl; auto.
  simpl in Q. apply quiet_app in Q as [Q1 Q2].
  assert (E1 : next_is_text ks = match ks with [] => true | XText _ :: _ => true | _ => false end)
    by (destruct ks as [|[]]; reflexivity).
  rewrite E1, ispaced_quiet by auto. rewrite IH by auto. destruct k; reflexivity.
Qed.

Lemma renders_is_text name : renders_text name = true -> is_text_name name = true.
Proof.
  unfold renders_text, is_text_name. rewrite !existsb_exists. intros (x & H & E). exists x. split; auto.
  unfold rendered_text, text_content_names in *. simpl in *. tauto.
Qed.

Lemma padded_one t n l l' : match n with XElem _ _ _ => False | _ => True end -> forall s,
  forallb layout_space s = true -> (t = true -> s = []) -> padded t l l' -> padded t (n :: l) (XText s :: n :: l').
Proof. intros. apply padded_space; auto. apply padded_leaf; auto. Qed.

(** Frozen places are those where the writer does not indent. *)
Definition still (o : options) (ts t p : bool) (attrs : list (text * text)) : Prop :=
  ts = true -> t = true \/ (p = true /\ quiet o attrs).

Lemma still_pad o ts t p attrs d : still o ts t p attrs -> ts = true -> pad o (p || t) d = [].
Proof.
  intros H E. unfold pad. destruct (H E) as [->|[-> _]]; rewrite ?orb_true_r; cbn [orb]; rewrite ?orb_true_r; reflexivity.
Qed.

Lemma layout_padded o : forall n d t pd f l p ts rest rest',
  forallb layout_space pd = true -> (ts = true -> pd = []) -> still o ts t p (all_attrs n) ->
  padded ts rest rest' ->
  padded ts (fst (ispaced o n f l p) :: rest) (fst (layout o d t n pd f l p) ++ rest').
Proof.
  apply (xnode_ind' (fun n => forall d t pd f l p ts rest rest',
    forallb layout_space pd = true -> (ts = true -> pd = []) -> still o ts t p (all_attrs n) ->
    padded ts rest rest' ->
    padded ts (fst (ispaced o n f l p) :: rest) (fst (layout o d t n pd f l p) ++ rest'))).
  - intros n a ks IH d t pd f l p ts rest rest' Hpd Hts Hst HR. cbn [layout ispaced].
    assert (K : forall d t pf e f p ts rest rest', (forall p, forallb layout_space (pf p) = true) ->
      (still o ts t p (flat_map all_attrs ks) -> ts = true -> True) ->
      still o ts t p (flat_map all_attrs ks) ->
      (forall p attrs, still o ts t p attrs -> ts = true -> pf p = []) ->
      padded ts rest rest' ->
      padded ts (fst (spaced_kids (ispaced o) ks f p) ++ rest) (fst (layout_kids o (layout o d t) pf ks e f p) ++ rest')).
    { clear -IH. induction IH as [|k ks Hk _ IHk]; intros d t pf e f p ts rest rest' Hpf _ Hst Hz HR; [exact HR|].
      cbn [layout_kids spaced_kids].
      assert (S1 : still o ts t p (all_attrs k)).
      { intros E. destruct (Hst E) as [H|[H Q]]; auto. right. split; auto. cbn [flat_map] in Q. apply quiet_app in Q. tauto. }
      assert (S2 : still o ts t (snd (ispaced o k f (next_is_text ks) p)) (flat_map all_attrs ks)).
      { intros E. destruct (Hst E) as [H|[H Q]]; auto. right. cbn [flat_map] in Q. apply quiet_app in Q as [Q1 Q2].
        rewrite ispaced_quiet by auto. auto. }
      pose proof (layout_flag o k d t (if e then [] else pf p) f (next_is_text ks) p) as FL.
      specialize (fun r r' => Hk d t (if e then [] else pf p) f (next_is_text ks) p ts r r').
      destruct (layout o d t k _ f (next_is_text ks) p) as [k1 p1].
      destruct (ispaced o k f (next_is_text ks) p) as [k2 p2]. cbn [snd fst] in *. subst p2.
      fold (layout_kids o (layout o d t) pf). fold (spaced_kids (ispaced o)).
      specialize (IHk d t pf (e && negb (nonempty (flat_map (xml o) k1))) (is_text_node k) p1 ts rest rest' Hpf (fun _ _ => Logic.I) S2 Hz HR).
      destruct (layout_kids _ _ _ _ _ _ _) as [l1 q1], (spaced_kids _ _ _ _) as [l2 q2]. cbn [fst] in *.
      rewrite <- app_assoc. cbn [app]. apply Hk; auto.
      - destruct e; auto.
      - intros E. destruct e; auto. eapply Hz; eauto. }
    set (t1 := t || is_text_name n) in *. set (ts1 := ts || renders_text n) in *.
    assert (S1 : still o ts1 t1 (attrs_flag o a p) (flat_map all_attrs ks)).
    { unfold ts1, t1. intros E. apply orb_true_iff in E as [E|E].
      - destruct (Hst E) as [->|[-> Q]]; auto. cbn [all_attrs] in Q. apply quiet_app in Q as [Q1 Q2].
        right. split; auto. rewrite quiet_flag by auto. reflexivity.
      - left. apply renders_is_text in E. rewrite E. apply orb_true_r. }
    set (pf := fun p => pad o (p || t1) (S d)).
    pose proof (layout_kids_flag o ks (S d) t1 pf false true (attrs_flag o a p)) as FL.
    specialize (fun r r' => K (S d) t1 pf false true (attrs_flag o a p) ts1 r r').
    assert (ST : still o ts1 t1 (snd (spaced_kids (ispaced o) ks true (attrs_flag o a p))) (flat_map all_attrs ks)).
    { intros E. destruct (S1 E) as [H|[H Q]]; auto. right. split; auto. rewrite ispaced_kids_quiet by auto. exact H. }
    destruct (layout_kids _ _ _ _ _ _ _) as [l1 q1], (spaced_kids _ _ _ _) as [l2 q2]. cbn [fst snd] in *. subst q2.
    cbn [app]. apply padded_space; auto. apply padded_elem; auto. fold ts1.
    rewrite <- (app_nil_r l2). apply K; auto.
    + intros q. apply pad_space_ok.
    + intros q attrs H E. eapply still_pad; eauto.
    + destruct (nonempty _ || _); [|constructor]. apply padded_space; [apply pad_space_ok| |constructor].
      intros E. eapply still_pad; eauto.
  - intros s d t pd f l p ts rest rest' Hpd Hts Hst HR. cbn [layout ispaced fst].
    destruct (ispaced_text _ _ _ _ _); cbn [fst app].
    + apply padded_leaf; auto.
    + apply padded_one; auto; destruct (text_mode o p); auto.
  - intros [|c s] d t pd f l p ts rest rest' Hpd Hts Hst HR; cbn [layout ispaced fst app].
    + apply padded_leaf; auto.
    + apply padded_one; auto.
  - intros. apply padded_one; auto.
  - intros. apply padded_leaf; auto.
  - intros. apply padded_leaf; auto.
Qed.

Lemma layout_kids_padded o ks : forall d t pf e f p ts rest rest',
  (forall p, forallb layout_space (pf p) = true) ->
  still o ts t p (flat_map all_attrs ks) ->
  (forall p attrs, still o ts t p attrs -> ts = true -> pf p = []) ->
  padded ts rest rest' ->
  padded ts (fst (spaced_kids (ispaced o) ks f p) ++ rest) (fst (layout_kids o (layout o d t) pf ks e f p) ++ rest').
Proof.
  induction ks as [|k ks IHk]; intros d t pf e f p ts rest rest' Hpf Hst Hz HR; [exact HR|].
  cbn [layout_kids spaced_kids].
  assert (S1 : still o ts t p (all_attrs k)).
  { intros E. destruct (Hst E) as [H|[H Q]]; auto. right. split; auto. cbn [flat_map] in Q. apply quiet_app in Q. tauto. }
  assert (S2 : still o ts t (snd (ispaced o k f (next_is_text ks) p)) (flat_map all_attrs ks)).
  { intros E. destruct (Hst E) as [H|[H Q]]; auto. right. cbn [flat_map] in Q. apply quiet_app in Q as [Q1 Q2].
    rewrite ispaced_quiet by auto. auto. }
  pose proof (layout_flag o k d t (if e then [] else pf p) f (next_is_text ks) p) as FL.
  pose proof (fun r r' => layout_padded o k d t (if e then [] else pf p) f (next_is_text ks) p ts r r') as Hk.
  destruct (layout o d t k _ f (next_is_text ks) p) as [k1 p1].
  destruct (ispaced o k f (next_is_text ks) p) as [k2 p2]. cbn [snd fst] in *. subst p2.
  fold (layout_kids o (layout o d t) pf). fold (spaced_kids (ispaced o)).
  specialize (IHk d t pf (e && negb (nonempty (flat_map (xml o) k1))) (is_text_node k) p1 ts rest rest' Hpf S2 Hz HR).
  destruct (layout_kids _ _ _ _ _ _ _) as [l1 q1], (spaced_kids _ _ _ _) as [l2 q2]. cbn [fst] in *.
  rewrite <- app_assoc. cbn [app]. apply Hk; auto.
  - destruct e; auto.
  - intros E. destruct e; auto. eapply Hz; eauto.
Qed.

Lemma page_padded o kids : padded false (fst (spaced_kids (ispaced o) kids true false)) (page o kids).
Proof.
  unfold page. cbv zeta. rewrite <- (app_nil_r (fst (spaced_kids (ispaced o) kids true false))).
  apply layout_kids_padded; try discriminate.
  - intros p. apply pad_space_ok.
  - apply padded_space; [apply pad_space_ok|discriminate|constructor].
Qed.

Lemma ispaced_text_ok o p f l s : text_ok s -> text_ok (ispaced_text o p f l s).
Proof.
  unfold ispaced_text, text_mode. intros H.
  assert (D : text_ok (default_text (opt_indent o) f l s)).
  { unfold text_ok in *. rewrite forallb_forall in *. intros c Hc.
    assert (K : c = 32%N \/ In c s); [|destruct K as [->|K]; [reflexivity|auto]].
    revert Hc. unfold default_text. destruct (split_whitespace s) as [|w ws] eqn:E; [intros []|].
    rewrite !in_app_iff. intros [X|[X|[X|X]]].
    - left. destruct (_ && _); simpl in X; intuition.
    - right. destruct (words_in [] s w c) as [[]|]; auto.
      unfold split_whitespace in E. rewrite E. left; reflexivity.
    - apply in_flat_map in X as (x & Hx & X). simpl in X. destruct X as [<-|X]; [left; reflexivity|].
      right. destruct (words_in [] s x c) as [[]|]; auto.
      unfold split_whitespace in E. rewrite E. right; auto.
    - left. destruct (_ && _); simpl in X; intuition. }
  assert (V : text_ok (preserve_text s)).
  { unfold text_ok in *. rewrite forallb_forall in *. intros c. unfold preserve_text. rewrite in_map_iff. intros (x & E & Hx).
    destruct (_ || _); subst; [reflexivity|auto]. }
  destruct (trim_whitespace o), p; auto.
Qed.

Lemma ispaced_ok o : forall n f l p, node_ok n -> node_ok (fst (ispaced o n f l p)).
Proof.
  apply (xnode_ind' (fun n => forall f l p, node_ok n -> node_ok (fst (ispaced o n f l p)))); simpl; auto.
  - intros n a ks IH f l p (H1 & H2 & H3 & H4).
    assert (K : forall f p, Forall node_ok (fst (spaced_kids (ispaced o) ks f p))).
    { apply all_forall in H4. clear -IH H4. induction IH as [|k ks Hk _ IHk]; intros f p; simpl; auto.
      inversion H4; subst. specialize (Hk f (next_is_text ks) p).
      destruct (ispaced o k f (next_is_text ks) p) as [k' p1]. simpl in *.
      specialize (IHk ltac:(auto) (is_text_node k) p1).
      destruct (spaced_kids _ _ _ _). simpl in *. auto. }
    specialize (K true (attrs_flag o a p)). destruct (spaced_kids _ _ _ _) as [ks' p']. simpl in *.
    repeat split; auto. apply all_forall. auto.
  - intros s f l p H. apply ispaced_text_ok. exact H.
Qed.
Lemma ispaced_kids_ok o ks : forall f p, Forall node_ok ks ->
  Forall node_ok (fst (spaced_kids (ispaced o) ks f p)).
Proof.
  induction ks as [|k ks IH]; intros f p H; simpl; auto. inversion H; subst.
  pose proof (ispaced_ok o k f (next_is_text ks) p) as K.
  destruct (ispaced o k f (next_is_text ks) p) as [k' p1]. simpl in *.
  specialize (IH (is_text_node k) p1). destruct (spaced_kids _ _ _ _). simpl in *. auto.
Qed.

Lemma padded_ok t l l' : padded t l l' -> Forall node_ok l -> Forall node_ok l'.
Proof.
  induction 1 as [t|t s l l' Hs _ _ IH|t n a ks ks' l l' _ IH1 _ IH2|t n l l' _ _ IH]; intros F; auto.
  - constructor; auto. simpl. unfold text_ok. rewrite forallb_forall in *. intros c Hc. specialize (Hs c Hc).
    unfold layout_space in Hs. rewrite !orb_true_iff, !N.eqb_eq in Hs. destruct Hs as [[->| ->]| ->]; reflexivity.
  - inversion F as [|? ? H HF]; subst. destruct H as (H1 & H2 & H3 & H4). constructor; auto. apply all_forall in H4.
    simpl. repeat split; auto. apply all_forall. auto.
  - inversion F; subst. constructor; auto.
Qed.

Lemma indented o kids : attributes_indent o = INone -> Forall top_ok kids -> exists s kids',
  serialize_document o kids = WOk s /\ read s = Some (document_of kids') /\
  padded false (fst (spaced_kids (ispaced o) kids true false)) kids'.
Proof.
  intros P OK. exists (flat_map (xml o) (page o kids)), (page o kids).
  split; [apply serialize_document_page; auto|]. pose proof (page_padded o kids) as PD. split; auto.
  apply read_document. eapply padded_ok; [exact PD|]. apply ispaced_kids_ok.
  eapply Forall_impl; [|exact OK]. intros n [H _]; exact H.
Qed.

Lemma indented_never o kids : attributes_indent o = INone -> trim_whitespace o = SpNever -> Forall top_ok kids ->
  exists s kids', serialize_document o kids = WOk s /\ read s = Some (document_of kids') /\ padded false kids kids'.
Proof.
  intros P T OK. destruct (indented o kids P OK) as (s & ks & H1 & H2 & H3). exists s, ks. split; auto. split; auto.
  rewrite ispaced_kids_quiet in H3 by (intros E; congruence). cbn [fst] in H3.
  rewrite (map_top_ext _ (fun _ _ s => s)), map_top_id in H3; auto.
  intros. unfold ispaced_text, text_mode. rewrite T. reflexivity.
Qed.

Lemma quiet_names o attrs : Forall (fun a : text * text => fst a <> lit "xml:space") attrs -> quiet o attrs.
Proof.
  intros H _. eapply Forall_impl; [|exact H]. intros [n v] E. simpl in *. unfold xml_space.
  destruct (text_eqb n (lit "xml:space")) eqn:X; auto. apply text_eqb_spec in X. contradiction.
Qed.

Lemma indented_default o kids : attributes_indent o = INone -> Forall top_ok kids ->
  trim_whitespace o = SpDefault \/
  (trim_whitespace o = SpAuto /\ Forall (fun a => fst a <> lit "xml:space") (flat_map all_attrs kids)) ->
  exists s kids', serialize_document o kids = WOk s /\ read s = Some (document_of kids') /\
  padded false (map_top (default_text (opt_indent o)) kids true) kids'.
Proof.
  intros P OK T. destruct (indented o kids P OK) as (s & ks & H1 & H2 & H3). exists s, ks. split; auto. split; auto.
  rewrite ispaced_kids_quiet in H3.
  - cbn [fst] in H3. erewrite map_top_ext; [exact H3|]. intros. unfold ispaced_text, text_mode.
    destruct T as [T|[T _]]; rewrite T; reflexivity.
  - destruct T as [T|[T Q]]; [intros E; congruence|]. apply quiet_names. exact Q.
Qed.

Lemma indented_preserve o kids : attributes_indent o = INone -> Forall top_ok kids -> trim_whitespace o = SpPreserve ->
  exists s kids', serialize_document o kids = WOk s /\ read s = Some (document_of kids') /\
  padded false (map_top (fun _ _ s => preserve_text s) kids true) kids'.
Proof.
  intros P OK T. destruct (indented o kids P OK) as (s & ks & H1 & H2 & H3). exists s, ks. split; auto. split; auto.
  rewrite ispaced_kids_quiet in H3 by (intros E; congruence).
  cbn [fst] in H3. erewrite map_top_ext; [exact H3|]. intros. unfold ispaced_text, text_mode. rewrite T. reflexivity.
Qed.

(** Nothing is added to what is frozen. *)
Lemma merge_app a b : merge (a ++ b) = fold_right glue (merge b) a.
Proof. unfold merge. apply fold_right_app. Qed.
Lemma padded_frozen t l l' : padded t l l' -> t = true -> merge (flat_map denotes l) = merge (flat_map denotes l').
Proof.
  induction 1 as [t|t s l l' _ Hs _ IH|t n a ks ks' l l' _ IH1 _ IH2|t n l l' _ _ IH]; intros T; auto.
  - rewrite (Hs T). cbn [flat_map denotes app]. rewrite IH by auto. reflexivity.
  - cbn [flat_map]. rewrite !merge_app, IH2 by auto. cbn [denotes fold_right].
    rewrite (IH1 ltac:(rewrite T; reflexivity)). reflexivity.
  - cbn [flat_map]. rewrite !merge_app, IH by auto. reflexivity.
Qed.

Lemma indented_root o name attrs kids : attributes_indent o = INone -> trim_whitespace o = SpAuto ->
  top_ok (XElem name attrs kids) ->
  In (lit "xml:space", lit "preserve") attrs ->
  Forall (fun a => fst a <> lit "xml:space") (flat_map all_attrs kids) -> exists s,
  serialize_document o [XElem name attrs kids] = WOk s /\
  read s = Some (document_of [XElem name attrs (map_top (fun _ _ s => preserve_text s) kids true)]).
Proof.
  intros P T OK HA Q.
  assert (Hp : attrs_flag o attrs false = true).
  { rewrite attrs_flag_last by auto. destruct OK as [(_ & ND & _) _].
    assert (K : forall l p, NoDup (map fst l) -> In (lit "xml:space", lit "preserve") l -> last_space l p = true).
    { assert (N : forall l p, ~ In (lit "xml:space") (map fst l) -> last_space l p = p).
      { induction l as [|[n v] l IH]; intros p H; auto. cbn [last_space]. simpl in H.
        assert (E : text_eqb n (lit "xml:space") = false) by (apply text_eqb_neq; intros E; apply H; auto).
        rewrite E. cbn [andb]. apply IH. tauto. }
      induction l as [|[n v] l IH]; intros p H HI; [destruct HI|]. destruct HI as [E|HI]; cbn [last_space]; inversion H; subst.
      - inversion E; subst. cbn [fst] in *. rewrite N by auto. rewrite !text_eqb_refl. reflexivity.
      - apply IH; auto. }
    apply K; auto. }
  exists (flat_map (xml o) (page o [XElem name attrs kids])).
  split; [apply serialize_document_page; auto|].
  assert (QK : quiet o (flat_map all_attrs kids)) by (apply quiet_names; exact Q).
  pose proof (page_padded o [XElem name attrs kids]) as PD.
  rewrite read_document.
  - f_equal. unfold page. cbv zeta. cbn [layout_kids layout].
    set (t1 := false || is_text_name name). rewrite Hp.
    set (pf := fun p : bool => pad o (p || t1) 1).
    pose proof (layout_kids_flag o kids 1 t1 pf false true true) as FL.
    pose proof (fun r r' => layout_kids_padded o kids 1 t1 pf false true true true r r') as K.
    rewrite ispaced_kids_quiet in FL, K by auto.
    destruct (layout_kids _ _ _ _ _ _ _) as [l1 q1]. cbn [fst snd] in *. subst q1.
    assert (Z : forall d, pad o true d = []) by (intros d; unfold pad; rewrite orb_true_r; reflexivity).
    change (true || t1) with true. rewrite !Z. unfold document_of.
    assert (E : merge (flat_map denotes (l1 ++ if nonempty (flat_map (xml o) l1) || negb (enable_self_closing o) then [XText []] else [])) =
                merge (flat_map denotes (map_top (fun _ _ s => preserve_text s) kids true))).
    { symmetry. apply (padded_frozen true); auto.
      replace (map_top (fun _ _ s => preserve_text s) kids true) with (map_top (ispaced_text o true) kids true ++ []).
      - apply K.
        + intros p. apply pad_space_ok.
        + intros _. right. auto.
        + intros p at_ H E. eapply still_pad; eauto.
        + destruct (nonempty _ || _); [|constructor]. apply padded_space; auto. constructor.
      - rewrite app_nil_r. apply map_top_ext. intros. unfold ispaced_text, text_mode. rewrite T. reflexivity. }
    cbn [app flat_map denotes]. rewrite E. reflexivity.
  - eapply padded_ok; [exact PD|]. apply ispaced_kids_ok. constructor; [apply OK|constructor].
Qed.
