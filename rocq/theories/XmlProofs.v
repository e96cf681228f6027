(** Lemmas: escaping, and the writer as a pure printer. *)
From Coq Require Import String List NArith Bool Arith Lia.
From Verif Require Import Chars XmlModel XmlSpec.
Import ListNotations.

(* ------------------------------------------------------------------ escaping *)

Lemma escape_char_cases sq eq c :
  (exists e, In e entities /\ escape_char sq eq c = 38%N :: e /\
     forall s, unescape_from UText (escape_char sq eq c ++ s) =
               option_map (cons c) (unescape_from UText s)) \/
  (escape_char sq eq c = [c] /\ c <> 38%N /\ c <> 60%N /\ c <> 62%N /\
     (eq = true -> c <> if sq then 39%N else 34%N)).
Proof.
  unfold escape_char.
  destruct (N.eqb_spec c 38) as [->|]; [left; exists (lit "amp;"); simpl; auto|].
  destruct (N.eqb_spec c 62) as [->|]; [left; exists (lit "gt;"); simpl; auto|].
  destruct (N.eqb_spec c 60) as [->|]; [left; exists (lit "lt;"); simpl; auto|].
  destruct (N.eqb_spec c 34) as [->|]; destruct eq, sq; simpl; auto;
    try (left; exists (lit "quot;"); simpl; solve [auto 6]);
    try (right; repeat split; auto; intros; discriminate);
    destruct (N.eqb_spec c 39) as [->|]; simpl; auto;
    try (left; exists (lit "apos;"); simpl; solve [auto 8]);
    right; repeat split; auto; intros; discriminate.
Qed.

Lemma unescape_escape sq eq s : unescape (escape sq eq s) = Some s.
Proof.
  unfold unescape, escape. induction s as [|c s IH]; auto.
  simpl. destruct (escape_char_cases sq eq c) as [(e&_&_&H)|(E&N1&_)].
  - rewrite H, IH. reflexivity.
  - rewrite E. simpl. destruct (N.eqb_spec c 38); [contradiction|]. rewrite IH. reflexivity.
Qed.

Lemma in_entities c e : In e entities -> In c e -> (97 <= c <= 122)%N \/ c = 59%N.
Proof.
  simpl. intros H. repeat (destruct H as [<-|H]); try contradiction; simpl; intros I;
    repeat (destruct I as [<-|I]; [lia|]); contradiction.
Qed.

Lemma in_escape sq eq s c : In c (escape sq eq s) ->
  c <> 60%N /\ c <> 62%N /\ (eq = true -> c <> if sq then 39%N else 34%N).
Proof.
  unfold escape. rewrite in_flat_map. intros (d & _ & H).
  destruct (escape_char_cases sq eq d) as [(e&He&E&_)|(E&N1&N2&N3&N4)]; rewrite E in H; simpl in H.
  - destruct H as [<-|H]; [repeat split; try discriminate; intros _; destruct sq; discriminate|].
    destruct (in_entities c e He H) as [R|R]; repeat split; try lia; intros _; destruct sq; lia.
  - destruct H as [<-|[]]. auto.
Qed.

Lemma amp_starts_entity sq eq s pre post : escape sq eq s = pre ++ 38%N :: post ->
  exists e rest, In e entities /\ post = e ++ rest.
Proof.
  unfold escape. revert pre. induction s as [|c s IH]; intros pre; simpl.
  - destruct pre; discriminate.
  - destruct (escape_char_cases sq eq c) as [(e&He&E&_)|(E&N1&_)]; rewrite E; simpl; intros H.
    + destruct pre as [|x pre]; simpl in H; [injection H as H1|injection H as H0 H1].
      * exists e. eexists. split; [exact He|]. symmetry. exact H1.
      * (* the entity has no further ampersand *)
        clear E H0. revert pre H1.
        assert (A : Forall (fun c => c <> 38%N) e).
        { apply Forall_forall. intros y Hy. destruct (in_entities y e He Hy); lia. }
        clear He. induction A as [|y e Hy _ IHe]; simpl; intros pre H1; [eapply IH; eauto|].
        destruct pre as [|z pre]; simpl in H1; inversion H1; [contradiction|]. eauto.
    + destruct pre as [|x pre]; simpl in H; inversion H; [contradiction|]. eauto.
Qed.

Lemma escape_app sq eq a b : escape sq eq (a ++ b) = escape sq eq a ++ escape sq eq b.
Proof. apply flat_map_app. Qed.

Lemma escape_nil sq eq s : escape sq eq s = [] -> s = [].
Proof.
  destruct s as [|c s]; auto. unfold escape. simpl.
  destruct (escape_char_cases sq eq c) as [(e&_&E&_)|(E&_)]; rewrite E; discriminate.
Qed.

(* ------------------------------------------------------------------ the printed form *)

Lemma xnode_ind' (P : xnode -> Prop) :
  (forall n a ks, Forall P ks -> P (XElem n a ks)) ->
  (forall s, P (XText s)) -> (forall s, P (XStyle s)) -> (forall s, P (XComment s)) ->
  (forall t v, P (XPI t v)) -> P XDoctype -> forall n, P n.
Proof.
  intros H1 H2 H3 H4 H5 H6. fix IH 1. intros [n a ks|s|s|s|t v|];
    [apply H1|apply H2|apply H3|apply H4|apply H5|apply H6].
  induction ks as [|k ks IHk]; constructor; [apply IH|apply IHk].
Qed.

Definition attr_text (o : options) (a : text * text) : text :=
  lit " " ++ fst a ++ lit "=" ++ [quote o] ++ escape (use_single_quote o) true (snd a) ++ [quote o].

Fixpoint xml (o : options) (n : xnode) : text :=
  match n with
  | XElem name attrs kids =>
      let body := flat_map (xml o) kids in
      lit "<" ++ name ++ flat_map (attr_text o) attrs ++
      match body with
      | [] => if enable_self_closing o then lit "/>" else lit ">" ++ lit "</" ++ name ++ lit ">"
      | _ => lit ">" ++ body ++ lit "</" ++ name ++ lit ">"
      end
  | XText s => escape (use_single_quote o) false s
  | XStyle css => css
  | XComment s => lit "<!--" ++ s ++ lit "-->"
  | XPI t v => lit "<?" ++ t ++ match v with Some v => lit " " ++ v | None => [] end ++ lit "?>"
  | XDoctype => []
  end.

(** The whitespace flag after the attributes of an element. *)
Definition attr_flag (o : options) (p : bool) (a : text * text) : bool :=
  match trim_whitespace o, xml_space (fst a) (snd a) with SpAuto, Some q => q | _, _ => p end.
Definition attrs_flag (o : options) (attrs : list (text * text)) (p : bool) : bool :=
  fold_left (attr_flag o) attrs p.

(** What a text becomes. *)
Definition spaced_text (o : options) (p first last : bool) (s : text) : text :=
  match trim_whitespace o with
  | SpNever => s
  | SpDefault => default_text INone first last s
  | SpPreserve => preserve_text s
  | SpAuto => if p then preserve_text s else default_text INone first last s
  end.

Definition spaced_kids (f : xnode -> bool -> bool -> bool -> xnode * bool)
  : list xnode -> bool -> bool -> list xnode * bool :=
  fix go l first p :=
  match l with
  | [] => ([], p)
  | k :: l =>
      let (k', p) := f k first (next_is_text l) p in
      let (l', p) := go l (is_text_node k) p in (k' :: l', p)
  end.

(** The tree with its texts as the writer will write them, and the flag afterwards. *)
Fixpoint spaced (o : options) (n : xnode) (first last p : bool) : xnode * bool :=
  match n with
  | XElem name attrs kids =>
      let (kids', p') := spaced_kids (spaced o) kids true (attrs_flag o attrs p) in
      (XElem name attrs kids', p')
  | XText s => (XText (spaced_text o p first last s), p)
  | n => (n, p)
  end.

(* ------------------------------------------------------------------ the writer prints [xml] *)

Definition pending (w : writer) : text := if wstate_eqb (st w) WAttributes then lit ">" else [].
Definition settle (s : list depth) : list depth :=
  match s with [] => [] | d :: ds => mkDepth (element_name d) true :: ds end.
Definition after (w : writer) (piece : text) (p : bool) : writer :=
  match piece with
  | [] => mkWriter (out w) (st w) p (stack w)
  | _ => mkWriter (out w ++ pending w ++ piece) WDocument p (settle (stack w))
  end.

Definition Inv (w : writer) : Prop :=
  match stack w with
  | [] => st w = WEmpty \/ st w = WDocument
  | d :: _ => (st w = WAttributes /\ has_children d = false) \/ (st w = WDocument /\ has_children d = true)
  end.

Lemma after_inv w x p : Inv w -> Inv (after w x p).
Proof.
  unfold Inv, after. destruct x; simpl; auto. destruct (stack w); simpl; auto.
Qed.

Lemma after_after w x y p q : Inv w -> after (after w x p) y q = after w (x ++ y) q.
Proof.
  intros I. unfold after. destruct x as [|c x]; simpl; [reflexivity|].
  destruct y as [|d y]; simpl.
  - rewrite app_nil_r. reflexivity.
  - unfold pending at 1. simpl. f_equal.
    + rewrite <- !app_assoc. reflexivity.
    + destruct (stack w); reflexivity.
Qed.

Lemma after_stack w x p : stack (after w x p) = [] <-> stack w = [].
Proof. unfold after. destruct x; simpl; [tauto|]. destruct (stack w); simpl; split; congruence. Qed.

Lemma after_preserve w x p : preserve (after w x p) = p.
Proof. unfold after. destruct x; reflexivity. Qed.

Definition plain (o : options) : Prop := opt_indent o = INone /\ attributes_indent o = INone.

Lemma no_newline o w : opt_indent o = INone -> write_new_line o w = w.
Proof. unfold write_new_line. intros ->. reflexivity. Qed.
Lemma no_indent o w : opt_indent o = INone -> write_node_indent o w = w.
Proof. unfold write_node_indent, write_indent. intros ->. reflexivity. Qed.

(** Opening the pending tag. *)
Definition opened (w : writer) : writer :=
  mkWriter (out w ++ pending w) (if wstate_eqb (st w) WAttributes then WDocument else st w)
    (preserve w) (settle (stack w)).

Lemma open_pending w : Inv w ->
  (if wstate_eqb (st w) WAttributes then write_open_element w else w) = opened w.
Proof.
  unfold Inv, opened, pending, write_open_element. destruct w as [wo ws wp [|d ds]]; simpl.
  - intros [-> | ->]; simpl; rewrite app_nil_r; reflexivity.
  - intros [[-> H] | [-> H]]; simpl; [reflexivity|]. rewrite app_nil_r.
    destruct d; simpl in *; subst; reflexivity.
Qed.

Lemma before_text o w : opt_indent o = INone -> Inv w -> stack w <> [] ->
  before_write_text o w false = WOk (opened w).
Proof.
  intros H I S. unfold before_write_text.
  assert (E : wstate_eqb (st w) WEmpty || match stack w with [] => true | _ => false end = false).
  { unfold Inv in I. destruct (stack w); [congruence|]. destruct I as [[-> _]|[-> _]]; reflexivity. }
  rewrite E, open_pending by auto. cbn [andb]. rewrite no_newline, no_indent by auto.
  destruct (wstate_eqb (st (opened w)) WEmpty); reflexivity.
Qed.

Lemma opened_not_attrs w : wstate_eqb (st (opened w)) WAttributes = false.
Proof. unfold opened. simpl. destruct (st w); reflexivity. Qed.

Lemma emit_opened w x p : x <> [] -> p = preserve w ->
  set_st (emit (opened w) x) WDocument = after w x p.
Proof.
  intros Hx ->. unfold after, set_st, emit, opened. simpl. destruct x; [congruence|].
  rewrite <- app_assoc. reflexivity.
Qed.

Lemma split_nil_default i f l s : split_whitespace s = [] -> default_text i f l s = [].
Proof. unfold default_text. intros ->. reflexivity. Qed.

Lemma words_nonempty cur s : ~ In [] (words_from cur s).
Proof.
  revert cur; induction s as [|c s IH]; intros cur; simpl.
  - destruct cur; simpl; auto. intros [E|[]]. destruct (rev cur); discriminate.
  - destruct (is_whitespace c); [|apply IH]. destruct cur; [apply IH|].
    intros [E|H]; [simpl in E; destruct (rev cur); discriminate|]. revert H. apply IH.
Qed.

Lemma default_text_nil i f l s : default_text i f l s = [] -> split_whitespace s = [].
Proof.
  unfold default_text. destruct (split_whitespace s) as [|x xs] eqn:E; auto. intros H.
  exfalso. apply app_eq_nil in H as [_ H]. apply app_eq_nil in H as [H _]. subst x.
  apply (words_nonempty [] s). unfold split_whitespace in E. rewrite E. left; reflexivity.
Qed.

Lemma write_text_after o w s f l : plain o -> Inv w -> s <> [] ->
  (stack w = [] -> spaced_text o (preserve w) f l s = []) ->
  (stack w = [] -> trim_whitespace o <> SpNever /\ trim_whitespace o <> SpPreserve /\
                   (trim_whitespace o = SpAuto -> preserve w = false)) ->
  write_text o w s f l =
  WOk (after w (escape (use_single_quote o) false (spaced_text o (preserve w) f l s)) (preserve w)).
Proof.
  intros [P1 P2] I Hs Ht Hm.
  assert (N : forall x, x <> [] -> stack w <> [] ->
     wbind (before_write_text o w false) (fun w =>
       WOk (set_st (emit w (escape (use_single_quote o) false x)) WDocument)) =
     WOk (after w (escape (use_single_quote o) false x) (preserve w))).
  { intros x Hx S. rewrite before_text by auto. simpl. f_equal. apply emit_opened; auto.
    intros E. apply escape_nil in E. auto. }
  assert (ND : preserve w = preserve w ->
    match split_whitespace s with
    | [] => WOk w
    | _ => wbind (before_write_text o w false) (fun w0 =>
        WOk (set_st (emit w0 (escape (use_single_quote o) false
                       (default_text (opt_indent o) f l s))) WDocument))
    end = WOk (after w (escape (use_single_quote o) false (default_text INone f l s)) (preserve w)) \/
    (stack w = [] /\ default_text INone f l s <> [])).
  { intros _. rewrite P1. destruct (split_whitespace s) eqn:E.
    - left. rewrite split_nil_default by auto. simpl. destruct w; reflexivity.
    - destruct (stack w) eqn:S; [right; split; auto; intros E'; apply default_text_nil in E'; congruence|].
      left. rewrite <- S in *. apply N; [intros E'; apply default_text_nil in E'; congruence|congruence]. }
  assert (PV : stack w <> [] ->
    wbind (before_write_text (mkOptions (use_single_quote o) INone (trim_whitespace o)
        (attributes_indent o) (enable_self_closing o)) w false)
      (fun w => WOk (set_st (emit w (escape (use_single_quote o) false (preserve_text s))) WDocument))
    = WOk (after w (escape (use_single_quote o) false (preserve_text s)) (preserve w))).
  { intros S. rewrite before_text by auto. simpl. f_equal. apply emit_opened; auto.
    intros E. apply escape_nil in E. unfold preserve_text in E. apply map_eq_nil in E. auto. }
  unfold write_text, spaced_text in *.
  destruct (trim_whitespace o) eqn:T; simpl in *.
  - destruct (stack w) eqn:S; [specialize (Hm eq_refl); destruct Hm as [Hm _]; congruence|].
    rewrite <- S in *. unfold write_text_fmt_impl. rewrite before_text by (auto; congruence).
    cbn [wbind]. cbv zeta.
    change (st (emit (opened w) ?x)) with (st (opened w)). rewrite opened_not_attrs.
    f_equal. apply emit_opened; auto.
    intros E. apply escape_nil in E. auto.
  - destruct (preserve w) eqn:Pw.
    + apply PV. intros S. specialize (Hm S) as (_&_&Hm). specialize (Hm eq_refl). discriminate.
    + destruct (ND eq_refl) as [E|[S E]]; [exact E|]. exfalso. apply E. auto.
  - destruct (ND eq_refl) as [E|[S E]]; [exact E|]. exfalso. apply E. auto.
  - apply PV. intros S. specialize (Hm S) as (_&Hm&_). congruence.
Qed.

Lemma write_attributes_spec o attrs : attributes_indent o = INone -> forall wo wp ds,
  write_attributes o (mkWriter wo WAttributes wp ds) attrs =
  WOk (mkWriter (wo ++ flat_map (attr_text o) attrs) WAttributes (attrs_flag o attrs wp) ds).
Proof.
  intros P. unfold attrs_flag. induction attrs as [|[n v] attrs IH]; intros wo wp ds; simpl.
  - rewrite app_nil_r. reflexivity.
  - assert (E : match trim_whitespace o, xml_space n v with
                | SpAuto, Some p => mkWriter wo WAttributes p ds
                | _, _ => mkWriter wo WAttributes wp ds end
              = mkWriter wo WAttributes (attr_flag o wp (n, v)) ds).
    { unfold attr_flag. simpl. destruct (trim_whitespace o), (xml_space n v); reflexivity. }
    rewrite E. simpl. unfold write_attribute_prefix. rewrite P. unfold emit. simpl.
    rewrite IH. f_equal. f_equal. unfold attr_text. simpl. rewrite <- !app_assoc. simpl.
    rewrite <- !app_assoc. reflexivity.
Qed.

Fixpoint no_pi (n : xnode) : Prop :=
  match n with
  | XElem _ _ kids =>
      (fix all (l : list xnode) : Prop := match l with [] => True | k :: l => no_pi k /\ all l end) kids
  | XPI _ _ => False
  | _ => True
  end.

Lemma all_forall (P : xnode -> Prop) l :
  (fix all (l : list xnode) : Prop := match l with [] => True | k :: l => P k /\ all l end) l
  <-> Forall P l.
Proof.
  induction l as [|k l IH]; split; intros H; auto.
  - destruct H. constructor; [auto|]. now apply IH.
  - inversion H; subst. split; auto. now apply IH.
Qed.

(** Texts and style rules are only written inside an element. *)
Definition placed (n : xnode) (w : writer) : Prop :=
  match n with XText (_ :: _) | XStyle (_ :: _) => stack w <> [] | _ => True end.

Lemma after_nil w : after w [] (preserve w) = w.
Proof. destruct w; reflexivity. Qed.

Lemma spaced_text_nil o p f l : spaced_text o p f l [] = [].
Proof. unfold spaced_text. destruct (trim_whitespace o), p; reflexivity. Qed.

Definition serialises (o : options) (n : xnode) : Prop := forall f l w,
  no_pi n -> placed n w -> Inv w ->
  serialize_node o n f l w =
  WOk (after w (xml o (fst (spaced o n f l (preserve w)))) (snd (spaced o n f l (preserve w)))).

Lemma serialize_kids_after o kids : Forall (serialises o) kids -> forall f w,
  Forall no_pi kids -> Forall (fun k => placed k w) kids -> Inv w ->
  serialize_kids (serialize_node o) kids f w =
  WOk (after w (flat_map (xml o) (fst (spaced_kids (spaced o) kids f (preserve w))))
               (snd (spaced_kids (spaced o) kids f (preserve w)))).
Proof.
  induction 1 as [|k kids Hk _ IH]; intros f w NP PL I; simpl.
  - f_equal. symmetry. apply after_nil.
  - inversion NP; subst. inversion PL; subst. rewrite Hk by auto. simpl.
    destruct (spaced o k f (next_is_text kids) (preserve w)) as [k' p] eqn:Ek. simpl.
    rewrite IH; auto.
    + rewrite after_preserve. destruct (spaced_kids (spaced o) kids (is_text_node k) p) as [l' p'].
      simpl. rewrite after_after by auto. reflexivity.
    + eapply Forall_impl; [|eassumption]. intros x Hx. unfold placed in *.
      destruct x as [| [|] | [|] | | |]; auto; rewrite after_stack; auto.
    + apply after_inv; auto.
Qed.

Lemma start_element_spec o w name : opt_indent o = INone -> Inv w ->
  start_element o w name =
  WOk (mkWriter (out w ++ pending w ++ lit "<" ++ name) WAttributes (preserve w)
         (mkDepth (Some name) false :: settle (stack w))).
Proof.
  intros P I. unfold start_element. rewrite open_pending by auto. cbv zeta.
  rewrite no_newline, no_indent by auto.
  assert (E : forall (b c : bool) (x : writer), (if b then x else x) = x) by (destruct b; auto).
  rewrite !E by exact true. unfold emit, opened. simpl. rewrite <- !app_assoc. reflexivity.
Qed.

Lemma end_element_spec o wo p name body ds : plain o -> (exists d ds', ds = settle (d :: ds')) \/ ds = [] ->
  end_element o (after (mkWriter wo WAttributes p (mkDepth (Some name) false :: ds)) body p) =
  WOk (mkWriter (wo ++ match body with
      | [] => if enable_self_closing o then lit "/>" else lit ">" ++ lit "</" ++ name ++ lit ">"
      | _ => lit ">" ++ body ++ lit "</" ++ name ++ lit ">"
      end) WDocument p ds).
Proof.
  intros [P1 P2] _.
  assert (E : forall (b : bool) (x : writer), (if b then x else x) = x) by (destruct b; auto).
  unfold end_element, after. destruct body as [|c body]; simpl.
  - destruct (enable_self_closing o); simpl.
    + unfold emit, set_st. simpl. reflexivity.
    + rewrite no_newline, no_indent by auto. rewrite E. simpl. unfold emit, set_st. simpl.
      rewrite <- !app_assoc. reflexivity.
  - rewrite no_newline, no_indent by auto. rewrite E. simpl. unfold emit, set_st. simpl.
    rewrite <- !app_assoc. reflexivity.
Qed.

Lemma xml_elem_cons o n a ks : exists c s, xml o (XElem n a ks) = c :: s.
Proof. simpl. eauto. Qed.

Lemma serialize_node_after o : plain o -> forall n, serialises o n.
Proof.
  intros P. apply xnode_ind'; unfold serialises.
  - (* element *)
    intros n a ks IH f l w NP PL I. destruct P as [P1 P2].
    cbn [serialize_node]. rewrite start_element_spec by auto. cbn [wbind].
    rewrite write_attributes_spec by auto. cbn [wbind].
    set (w1 := mkWriter _ WAttributes _ _).
    assert (I1 : Inv w1) by (left; auto).
    rewrite (serialize_kids_after o ks IH); auto.
    + cbn [wbind]. change (preserve w1) with (attrs_flag o a (preserve w)). cbn [spaced].
      destruct (spaced_kids (spaced o) ks true (attrs_flag o a (preserve w))) as [ks' p] eqn:E.
      cbn [fst snd].
      assert (A : after w1 (flat_map (xml o) ks') p =
        after (mkWriter (out w1) WAttributes p (stack w1)) (flat_map (xml o) ks') p).
      { unfold after, pending, w1; simpl. destruct (flat_map (xml o) ks'); reflexivity. }
      rewrite A. unfold w1. cbn [out stack]. rewrite end_element_spec.
      * f_equal. destruct (xml_elem_cons o n a ks') as (c & s & Ex). rewrite Ex.
        unfold after. rewrite <- Ex. f_equal. simpl xml. rewrite <- !app_assoc. reflexivity.
      * split; auto.
      * destruct (stack w) as [|d0 l0]; [right; reflexivity|left; exists d0, l0; reflexivity].
    + simpl in NP. apply all_forall in NP. auto.
    + apply Forall_forall. intros x _. unfold placed, w1. destruct x as [| [|] | [|] | | |]; simpl; auto;
        discriminate.
  - (* text *)
    intros s f l w _ PL I. simpl. destruct s as [|c s].
    + rewrite spaced_text_nil. simpl. destruct w; reflexivity.
    + simpl in PL. apply write_text_after; auto; try discriminate; intros S; contradiction.
  - (* style *)
    intros s f l w _ PL I. simpl. destruct s as [|c s]; simpl.
    + destruct w; reflexivity.
    + simpl in PL. destruct P as [P1 P2]. rewrite before_text by auto. simpl. f_equal.
      unfold after, emit, opened. simpl. rewrite <- app_assoc. f_equal.
      unfold Inv in I. destruct (stack w); [contradiction|]. destruct I as [[-> _]|[-> _]]; reflexivity.
  - (* comment *)
    intros s f l w _ _ I. cbn [serialize_node spaced fst snd xml]. unfold write_comment.
    destruct P as [P1 P2].
    rewrite open_pending by auto. cbv zeta. rewrite no_newline, no_indent by auto.
    assert (E : forall (b : bool) (x : writer), (if b then x else x) = x) by (destruct b; auto).
    rewrite E. change (st (emit (opened w) ?x)) with (st (opened w)). rewrite opened_not_attrs.
    f_equal.
    apply emit_opened; auto. discriminate.
  - simpl. tauto.
  - intros f l w _ _ I. simpl. destruct w; reflexivity.
Qed.
