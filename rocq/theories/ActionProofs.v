From Coq Require Import String List NArith Bool Arith Lia.
From Verif Require Import Chars XmlModel XmlSpec XmlProofs XmlProofs2 XmlProofs3 ActionModel ActionSpec.
Import ListNotations.

(** ** Recording and deriving in memory *)
Section Memory.
  Context {num : Type}.
  Variable show : num -> text.
  Variable parse : text -> option num.
  Hypothesis round : forall x, parse (show x) = Some x.

  Lemma n_arg_show x : n_arg parse (Ok (show x)) = Ok x.
  Proof. unfold n_arg. cbn [bind]. rewrite round. reflexivity. Qed.
  Lemma n_arg_show' t x : parse t = Some x -> n_arg parse (Ok t) = Ok x.
  Proof. unfold n_arg. cbn [bind]. intros ->. reflexivity. Qed.

  Lemma read_embed_arg t : read_arg (embed_arg t) = Ok t.
  Proof. unfold embed_arg, read_arg. cbn. rewrite app_nil_r. reflexivity. Qed.

  (** Reading an element with the right id and arguments. *)
  Lemma from_state_args (a : action num) kids : not_insert a ->
    map read_arg (child_elements kids) = map Ok (action_args show a) ->
    from_state parse (XElem (oxvg ACTION) [(oxvg ID, action_name a)] kids) = Ok a.
  Proof.
    intros N E. unfold from_state.
    replace (assert_oxvg_element (oxvg ACTION) ACTION) with (Ok tt) by reflexivity.
    cbn [bind].
    replace (get_oxvg_attr [(oxvg ID, action_name a)] ID) with (Some (action_name a)) by reflexivity.
    cbv zeta. rewrite E.
    destruct a; try (exfalso; eapply N; reflexivity); try reflexivity;
    repeat match goal with o : option _ |- _ => destruct o | p : (_ * _)%type |- _ => destruct p end;
    cbn [action_args map]; rewrite ?n_arg_show; reflexivity.
  Qed.
  Lemma from_state_embed (a : action num) : not_insert a -> from_state parse (embed_action show a) = Ok a.
  Proof.
    intros N. apply from_state_args; auto.
    induction (action_args show a) as [|t l IH]; auto.
    change (child_elements (map embed_arg (t :: l))) with (embed_arg t :: child_elements (map embed_arg l)).
    cbn [map]. rewrite IH, read_embed_arg. reflexivity.
  Qed.
  Lemma recorded l : forall s, st_history (fold_left (record show) l s) =
    match l with [] => st_history s | _ => Some (match st_history s with Some h => h | None => [] end ++ map (embed_action show) l) end /\
    st_selection (fold_left (record show) l s) = st_selection s.
  Proof.
    induction l as [|a l IH]; intros s; [auto|]. cbn [fold_left]. destruct (IH (record show s a)) as [H1 H2].
    rewrite H1, H2. split; [|reflexivity]. destruct l as [|b l]; [reflexivity|].
    cbn [record st_history map]. rewrite <- app_assoc. reflexivity.
  Qed.
  Lemma embedded_elements l : child_elements (map (embed_action show) l) = map (embed_action show) l.
  Proof. induction l as [|a l IH]; auto. cbn. unfold child_elements in IH. rewrite IH. reflexivity. Qed.
  Lemma map_res_ok {A B} (f : A -> res B) l l' : Forall2 (fun a b => f a = Ok b) l l' -> map_res f l = Ok l'.
  Proof. induction 1 as [|a b l l' H _ IH]; auto. cbn. rewrite H. cbn. rewrite IH. reflexivity. Qed.
  Lemma map_res_err {A B} (f : A -> res B) l a e : In a l -> f a = Err e -> exists e', map_res f l = Err e'.
  Proof.
    induction l as [|b l IH]; [intros []|]. intros [<-|H] E; cbn.
    - rewrite E. cbn. eauto.
    - destruct (f b); cbn; [|eauto]. destruct (IH H E) as [e' ->]. cbn. eauto.
  Qed.

  Lemma derived s l : st_history s = None -> Forall not_insert l ->
    derive_history parse (fold_left (record show) l s) = Ok l.
  Proof.
    intros H F. unfold derive_history. destruct (recorded l s) as [-> _].
    destruct l as [|a l]; [rewrite H; reflexivity|]. rewrite H. cbn [app].
    rewrite embedded_elements. apply map_res_ok. induction F; constructor; auto using from_state_embed.
  Qed.
  Lemma derived_more s l0 l : derive_history parse s = Ok l0 -> Forall not_insert l ->
    derive_history parse (fold_left (record show) l s) = Ok (l0 ++ l).
  Proof.
    intros D F. unfold derive_history in *. destruct (recorded l s) as [-> _].
    destruct l as [|a l]; [rewrite D, app_nil_r; reflexivity|].
    unfold child_elements in *. rewrite filter_app.
    fold (child_elements (map (embed_action show) (a :: l))). rewrite embedded_elements.
    revert l0 D. induction (filter is_elem _) as [|x xs IH]; intros l0 D.
    - cbn in D. injection D as <-. cbn [app]. apply map_res_ok. clear -F round. induction F; constructor; auto using from_state_embed.
    - cbn [map_res app] in *. destruct (from_state parse x); [|discriminate]. cbn [bind] in *.
      destruct (map_res (from_state parse) xs) as [r|]; [|discriminate]. cbn [bind] in D. injection D as <-.
      rewrite (IH r eq_refl). reflexivity.
  Qed.
  Lemma insert_fails s t l1 l2 : exists e, derive_history parse (fold_left (record show) (l1 ++ Insert t :: l2) s) = Err e.
  Proof.
    unfold derive_history. destruct (recorded (l1 ++ Insert t :: l2) s) as [H _].
    destruct (l1 ++ Insert t :: l2) eqn:E; [destruct l1; discriminate|]. rewrite H, <- E.
    apply map_res_err with (a := embed_action show (Insert t)) (e := InvalidStateAttribute (lit "Insert")).
    - unfold child_elements. rewrite filter_app. apply in_or_app. right.
      fold (child_elements (map (embed_action show) (l1 ++ Insert t :: l2))). rewrite embedded_elements.
      apply in_map. apply in_or_app. right. left. reflexivity.
    - reflexivity.
  Qed.
End Memory.

(** ** Writing and loading again *)
Definition is_relem (n : rnode) : bool := match n with RElem _ _ _ => true | _ => false end.
Definition reread (f : bool -> bool -> text -> text) (n : xnode) : xnode :=
  match n with
  | XElem name attrs kids => XElem name attrs (map load (document_of (map_top f kids true)))
  | n => n
  end.

Lemma child_elements_app a b : child_elements (a ++ b) = child_elements a ++ child_elements b.
Proof. apply filter_app. Qed.
Lemma elements_load l : child_elements (map load l) = map load (filter is_relem l).
Proof. induction l as [|[] l IH]; cbn in *; auto. unfold child_elements in IH. rewrite IH. reflexivity. Qed.
Lemma elements_glue n l : filter is_relem (glue n l) = filter is_relem (n :: l).
Proof.
  destruct n; auto. cbn. destruct s; auto. destruct l as [|[] l]; auto.
Qed.
Lemma elements_merge l : filter is_relem (merge l) = filter is_relem l.
Proof.
  induction l as [|n l IH]; auto. change (merge (n :: l)) with (glue n (merge l)). rewrite elements_glue.
  cbn. rewrite IH. reflexivity.
Qed.
Lemma elements_denotes l : filter is_relem (flat_map denotes l) =
  flat_map denotes (child_elements l).
Proof.
  induction l as [|n l IH]; auto. cbn [flat_map]. rewrite filter_app, IH.
  destruct n; reflexivity.
Qed.
Lemma map_top_elements f l : forall b, child_elements (map_top f l b) =
  map (fun n => map_texts f n true true) (child_elements l).
Proof.
  induction l as [|n l IH]; intros b; auto.
  change (map_top f (n :: l) b) with
    (map_texts f n b (match l with [] => true | XText _ :: _ => true | _ => false end)
     :: map_top f l (match n with XText _ => true | _ => false end)).
  destruct n; unfold child_elements in *; cbn [filter is_elem map_texts map]; rewrite IH; reflexivity.
Qed.
Lemma reread_elements f l b :
  child_elements (map load (document_of (map_top f l b))) = map (reread f) (child_elements l).
Proof.
  unfold document_of. rewrite elements_load, elements_merge, elements_denotes, map_top_elements.
  assert (F : Forall (fun n => is_elem n = true) (child_elements l)).
  { apply Forall_forall. intros x H. apply filter_In in H. tauto. }
  induction F as [|n ks H _ IH]; auto. cbn [map flat_map]. rewrite map_app, IH.
  destruct n; try discriminate. reflexivity.
Qed.

(** *** Squeezing *)
Lemma blank_iff s : blank s <-> forallb is_whitespace s = true.
Proof.
  split; [induction 1; cbn; rewrite ?H; auto|]. induction s; cbn; [constructor|].
  intros H. apply andb_prop in H as []. constructor; auto.
Qed.
Lemma words_blank s : blank s -> words_from [] s = [].
Proof. induction 1; cbn; rewrite ?H; auto. Qed.
Lemma words_nil_blank s : words_from [] s = [] -> blank s.
Proof.
  assert (A : forall s cur, cur <> [] -> words_from cur s <> []).
  { induction s0 as [|d s0 IHs]; intros cur Hc; simpl; [destruct cur; [congruence|discriminate]|].
    destruct (is_whitespace d); [destruct cur; [congruence|discriminate]|]. apply IHs. discriminate. }
  induction s as [|c s IH]; [constructor|]. cbn. destruct (is_whitespace c) eqn:E; [constructor; auto|].
  intros H. exfalso. apply (A s [c]); [discriminate|exact H].
Qed.
(** Cutting at the first word. *)
Lemma first_word s w ws : words_from [] s = w :: ws ->
  exists a b, s = a ++ w ++ b /\ blank a /\ is_word w /\
    (b = [] /\ ws = [] \/ exists c b', b = c :: b' /\ is_whitespace c = true /\ words_from [] b' = ws).
Proof.
  assert (A : forall s cur, cur <> [] -> Forall (fun c => is_whitespace c = false) cur -> words_from cur s = w :: ws ->
    exists b0 b, s = b0 ++ b /\ w = rev cur ++ b0 /\ is_word w /\
     (b = [] /\ ws = [] \/ exists c b', b = c :: b' /\ is_whitespace c = true /\ words_from [] b' = ws)).
  { clear s. assert (Wr : forall x cur, Forall (fun c => is_whitespace c = false) (x :: cur) -> is_word (rev (x :: cur))).
    { intros x cur F. split; [|apply Forall_rev; exact F]. intros E.
      apply (f_equal (@rev N)) in E. rewrite rev_involutive in E. discriminate E. }
    induction s as [|c s IH]; intros cur Nc F; cbn [words_from].
    - destruct cur as [|x cur]; [congruence|]. intros H. injection H as <- <-.
      exists [], []. split; [reflexivity|]. split; [rewrite app_nil_r; reflexivity|]. split; [exact (Wr x cur F)|]. left; auto.
    - destruct (is_whitespace c) eqn:E.
      + destruct cur as [|x cur]; [congruence|]. intros H. injection H as <- <-.
        exists [], (c :: s). split; [reflexivity|]. split; [rewrite app_nil_r; reflexivity|]. split; [exact (Wr x cur F)|].
        right. exists c, s. auto.
      + intros H. destruct (IH (c :: cur)) as (b0 & b & -> & -> & W & R); auto; [discriminate|].
        exists (c :: b0), b. cbn. rewrite <- app_assoc. split; auto. split; auto.
        cbn in W. rewrite <- app_assoc in W. auto. }
  revert w ws A. induction s as [|c s IH]; intros w ws A; cbn; [discriminate|].
  destruct (is_whitespace c) eqn:E.
  - intros H. destruct (IH w ws A H) as (a & b & -> & Ba & W & R).
    exists (c :: a), b. repeat split; auto; try apply W. constructor; auto.
  - intros H. destruct (A s [c]) as (b0 & b & -> & -> & W & R); auto; [discriminate|].
    exists [], b. repeat split; auto; try apply W. constructor.
Qed.
Lemma default_squeezed s : squeezed s (default_text INone true true s).
Proof.
  unfold default_text, split_whitespace. remember (words_from [] s) as ws eqn:E. symmetry in E.
  revert s E. induction ws as [|w ws IH]; intros s E.
  - constructor. apply words_nil_blank; auto.
  - cbn [negb andb app]. rewrite app_nil_r.
    destruct (first_word s w ws E) as (a & b & -> & Ba & W & [[-> ->]|(c & b' & -> & Wc & E')]).
    + cbn. rewrite !app_nil_r. rewrite <- (app_nil_r w) at 1. constructor; auto. constructor.
    + specialize (IH b' E'). destruct ws as [|v ws].
      * cbn. rewrite app_nil_r. constructor; auto. constructor; auto. apply words_nil_blank; auto.
      * cbn [negb andb app] in IH. rewrite app_nil_r in IH. cbn [flat_map].
        replace (lit " " ++ v) with (32%N :: v) by reflexivity. cbn [app].
        apply squeezed_more; auto.
        destruct v; [|discriminate]. exfalso.
        destruct (first_word b' [] ws E') as (? & ? & _ & _ & [] & _). congruence.
Qed.
Lemma blank_app_l a b : blank (a ++ b) -> blank a.
Proof. rewrite !blank_iff, forallb_app. intros H. apply andb_prop in H. tauto. Qed.
Lemma squeezed_word_id w t : is_word w -> squeezed w t -> t = w.
Proof.
  intros [N F] S. destruct S as [s B|a w b Ba W Bb|a w c s t Ba W Wc S Nt].
  - exfalso. destruct B; [congruence|]. inversion F; congruence.
  - destruct Ba as [|x a Hx Ba]; [|inversion F; congruence]. cbn [app] in *.
    apply Forall_app in F as [_ F]. destruct Bb as [|x b Hx Bb]; [rewrite app_nil_r; reflexivity|].
    inversion F; congruence.
  - exfalso. apply Forall_app in F as [_ F]. apply Forall_app in F as [_ F]. inversion F; congruence.
Qed.
Lemma default_word w : is_word w -> default_text INone true true w = w.
Proof. intros W. apply squeezed_word_id; auto. apply default_squeezed. Qed.
Lemma default_tidy ws : Forall is_word ws -> default_text INone true true (spaced_words ws) = spaced_words ws.
Proof.
  intros F.
  assert (F' : Forall (fun w => forallb (fun c => negb (is_whitespace c)) w = true /\ w <> []) ws).
  { eapply Forall_impl; [|exact F]. intros w [N W]. split; auto. apply forallb_forall.
    rewrite Forall_forall in W. intros c Hc. rewrite W; auto. }
  assert (J : forall w ws, spaced_words (w :: ws) = w ++ flat_map (fun p => lit " " ++ p) ws).
  { intros w l. revert w. induction l as [|v l IH]; intros w; [cbn; now rewrite app_nil_r|].
    change (spaced_words (w :: v :: l)) with (w ++ 32%N :: spaced_words (v :: l)). rewrite IH. reflexivity. }
  destruct ws as [|w ws]; [reflexivity|].
  destruct (words_join (w :: ws) F' [] eq_refl) as [W _].
  rewrite app_nil_r in W. change (flat_map (fun p => lit " " ++ p) (w :: ws)) with (32%N :: (w ++ flat_map (fun p => lit " " ++ p) ws)) in W.
  cbn [words_from] in W. replace (is_whitespace 32) with true in W by reflexivity. cbn match in W.
  rewrite J. unfold default_text, split_whitespace. rewrite W. cbn [negb andb app].
  rewrite app_nil_r. reflexivity.
Qed.

(** *** Loading the state again *)
Section Reload.
  Context {num : Type}.
  Variable show : num -> text.
  Variable parse : text -> option num.
  Hypothesis nums : numbers_ok show parse.
  Let f := default_text INone.

  Lemma text_of_load_texts s : text_of (XElem (oxvg ARG) [] (map load (merge [RText s]))) = s.
  Proof. destruct s; cbn; [reflexivity|]. rewrite app_nil_r. reflexivity. Qed.
  Lemma read_reread_arg t : read_arg (reread f (embed_arg t)) = Ok (f true true t).
  Proof. unfold embed_arg. cbn [reread read_arg]. cbn [map_top map_texts]. unfold document_of. cbn [flat_map denotes app].
    rewrite text_of_load_texts. reflexivity. Qed.

  Definition tidy (a : action num) : action num :=
    match a with
    | Attr x y => Attr (f true true x) (f true true y)
    | Style x y => Style (f true true x) (f true true y)
    | Class x => Class (f true true x)
    | Insert x => Insert (f true true x)
    | Select x => Select (f true true x)
    | SelectMore x => SelectMore (f true true x)
    | a => a
    end.
  Lemma tidy_alike a : alike squeezed a (tidy a).
  Proof. destruct a; constructor; apply default_squeezed. Qed.
  Lemma tidy_args a : map (f true true) (action_args show a) = action_args show (tidy a).
  Proof.
    assert (D : forall x, f true true (show x) = show x) by (intros; apply default_word, nums).
    destruct a; try reflexivity; cbn [tidy action_args];
    repeat match goal with o : option _ |- _ => destruct o | p : (_ * _)%type |- _ => destruct p end;
    cbn [map]; rewrite ?D; reflexivity.
  Qed.
  Lemma from_state_reread a : not_insert a -> from_state parse (reread f (embed_action show a)) = Ok (tidy a).
  Proof.
    intros N. unfold embed_action. cbn [reread].
    replace (action_name a) with (action_name (tidy a)) by (destruct a; reflexivity).
    apply from_state_args with (show := show); [intros; apply nums|destruct a; try (intros t E; discriminate E); exfalso; eapply N; reflexivity|].
    rewrite reread_elements, <- tidy_args.
    induction (action_args show a) as [|t l IH]; auto.
    change (child_elements (map embed_arg (t :: l))) with (embed_arg t :: child_elements (map embed_arg l)).
    cbn [map]. rewrite read_reread_arg, IH. reflexivity.
  Qed.

  Definition sel_ok (o : option xnode) : Prop :=
    match o with
    | None => True
    | Some e => node_ok e /\ Forall (fun a => fst a <> lit "xml:space") (all_attrs e) /\
                exists attrs kids, e = XElem (oxvg SELECTION) attrs kids
    end.

  Lemma fold_all_ok l : Forall node_ok l ->
    (fix all (l : list xnode) : Prop := match l with [] => True | k :: l => node_ok k /\ all l end) l.
  Proof. induction 1; auto. Qed.
  Lemma fold_all_inv l :
    (fix all (l : list xnode) : Prop := match l with [] => True | k :: l => node_ok k /\ all l end) l -> Forall node_ok l.
  Proof. induction l as [|k l IH]; [constructor|]. intros [H1 H2]. constructor; auto. Qed.
  Lemma elem_ok name attrs kids : is_name name -> NoDup (map fst attrs) ->
    Forall (fun a => is_name (fst a) /\ value_ok (snd a)) attrs -> Forall node_ok kids -> node_ok (XElem name attrs kids).
  Proof. intros. cbn. repeat split; auto. apply fold_all_ok; auto. Qed.

  Lemma arg_ok t : text_ok t -> node_ok (embed_arg t).
  Proof. intros H. apply elem_ok; [split; reflexivity|constructor|constructor|]. constructor; [exact H|constructor]. Qed.
  Lemma args_ok a : writable a -> Forall text_ok (action_args show a).
  Proof.
    unfold writable. intros W.
    assert (D : forall x, text_ok (show x)) by (intros; apply nums).
    destruct a; cbn in *; auto;
    repeat match goal with o : option _ |- _ => destruct o | p : (_ * _)%type |- _ => destruct p end;
    repeat constructor; auto.
  Qed.
  Lemma action_ok a : writable a -> node_ok (embed_action show a).
  Proof.
    intros W. apply elem_ok; [split; reflexivity| | |].
    - constructor; [intros []|constructor].
    - constructor; [|constructor]. split; [split; reflexivity|]. destruct a; reflexivity.
    - apply Forall_map. eapply Forall_impl; [|apply args_ok; exact W]. apply arg_ok.
  Qed.
  Lemma state_ok h sel : Forall writable h -> sel_ok sel ->
    node_ok (state_element (mkState (Some (map (embed_action show) h)) sel)).
  Proof.
    intros W S. apply elem_ok; [split; reflexivity|constructor|constructor|].
    apply Forall_app. split.
    - constructor; [|constructor]. apply elem_ok; [split; reflexivity|constructor|constructor|].
      apply Forall_map. eapply Forall_impl; [|exact W]. apply action_ok.
    - cbn. destruct sel; [|constructor]. constructor; [apply S|constructor].
  Qed.
  Lemma state_attrs h sel : sel_ok sel ->
    Forall (fun a => fst a <> lit "xml:space") (all_attrs (state_element (mkState (Some (map (embed_action show) h)) sel))).
  Proof.
    intros S. cbn [all_attrs state_element st_history st_selection]. rewrite flat_map_app. cbn [app]. apply Forall_app. split.
    - cbn [flat_map all_attrs app]. rewrite app_nil_r. induction h as [|a h IH]; [constructor|].
      cbn [map flat_map]. apply Forall_app. split; auto. unfold embed_action. cbn [all_attrs]. apply Forall_app. split.
      + constructor; [discriminate|constructor].
      + induction (action_args show a); [constructor|]. cbn. auto.
    - destruct sel; [|constructor]. cbn [flat_map]. rewrite app_nil_r. apply S.
  Qed.
  Lemma set_attr_ok l n v (P : text * text -> Prop) : Forall P l -> P (n, v) -> Forall P (set_attr l n v).
  Proof.
    intros F H. induction F as [|a l Ha F IH]; cbn; [auto|]. destruct (text_eqb (fst a) n); auto.
  Qed.
  Lemma set_attr_in l n v m : In m (map fst (set_attr l n v)) -> m = n \/ In m (map fst l).
  Proof.
    induction l as [|a l IH]; cbn; [intros [H|[]]; auto|]. destruct (text_eqb (fst a) n) eqn:E; cbn; intros [H|H]; auto.
    destruct (IH H); auto.
  Qed.
  Lemma set_attr_nodup l n v : NoDup (map fst l) -> NoDup (map fst (set_attr l n v)).
  Proof.
    induction l as [|a l IH]; cbn; intros H; [constructor; auto|]. inversion H as [|x xs N D]; subst.
    destruct (text_eqb (fst a) n) eqn:E; cbn.
    - apply text_eqb_spec in E. rewrite <- E. constructor; auto.
    - constructor; auto. intros I. apply set_attr_in in I as [I|I]; auto.
      apply text_eqb_spec in I. congruence.
  Qed.

  Theorem reloaded l sel before name attrs kids after :
    Forall not_insert l -> Forall writable l -> sel_ok sel -> l <> [] ->
    Forall top_ok (before ++ XElem name attrs kids :: after) ->
    Forall (fun a => fst a <> lit "xml:space") (flat_map all_attrs (before ++ XElem name attrs kids :: after)) ->
    child_elements before = [] ->
    exists s r, snapshot (fold_left (record show) l (mkState None sel)) before (XElem name attrs kids) after = WOk s /\
      reload s = Some (Ok r) /\ derive_history parse r = Ok (map tidy l).
  Proof.
    intros N W S NE T Q B. unfold snapshot.
    destruct (recorded show l (mkState None sel)) as [H1 H2].
    destruct (fold_left (record show) l (mkState None sel)) as [hh ss]. cbn [st_history st_selection] in *.
    assert (E1 : hh = Some (map (embed_action show) l)) by (destruct l; [congruence|exact H1]).
    clear H1. subst hh ss.
    set (st := mkState (Some (map (embed_action show) l)) sel).
    replace (embed st (XElem name attrs kids)) with
      (XElem name (set_attr attrs (lit "xmlns:oxvg") oxvg_xmlns) (kids ++ [state_element st])) by reflexivity.
    set (root := XElem name (set_attr attrs (lit "xmlns:oxvg") oxvg_xmlns) (kids ++ [state_element st])).
    apply Forall_app in T as [T1 T2]. inversion T2 as [|x xs T3 T4]; subst.
    rewrite flat_map_app in Q. apply Forall_app in Q as [Q1 Q2]. cbn [flat_map all_attrs] in Q2.
    apply Forall_app in Q2 as [Q2 Q4]. apply Forall_app in Q2 as [Q2 Q3].
    destruct T3 as [(R1 & R2 & R3 & R4) _].
    assert (RO : top_ok root).
    { split; [|exact Logic.I]. apply elem_ok; auto.
      - apply set_attr_nodup; auto.
      - apply set_attr_ok; auto. split; [split; reflexivity|reflexivity].
      - apply Forall_app. split; [apply fold_all_inv; exact R4|]. constructor; [|constructor]. apply state_ok; auto. }
    destruct (round_trip_default default_options (before ++ root :: after) eq_refl eq_refl) as (s & E & R).
    - apply Forall_app. split; auto.
    - right. split; [reflexivity|]. rewrite flat_map_app. apply Forall_app. split; auto. cbn [flat_map].
      apply Forall_app. split; auto. unfold root. cbn [all_attrs]. apply Forall_app. split.
      + apply set_attr_ok; auto. discriminate.
      + rewrite flat_map_app. apply Forall_app. split; auto. cbn [flat_map]. rewrite app_nil_r. apply state_attrs; auto.
    - exists s.
      enough (G : exists r, debed (map load (document_of (map_top (default_text INone) (before ++ root :: after) true))) = Ok r /\
        derive_history parse r = Ok (map tidy l)).
      { destruct G as (r & G1 & G2). exists r. split; [exact E|]. split; [|exact G2]. unfold reload. rewrite R. cbn [option_map].
        rewrite G1. reflexivity. }
      unfold debed. rewrite reread_elements.
      replace (child_elements (before ++ root :: after)) with (root :: child_elements after).
      2:{ unfold child_elements in *. rewrite filter_app, B. reflexivity. }
      cbn [map]. unfold root. cbn [reread]. rewrite reread_elements.
      rewrite child_elements_app.
      change (child_elements [state_element st]) with [state_element st].
      rewrite map_app, rev_app_distr. cbn [map rev app]. unfold state_element at 1. cbn [reread].
      replace (assert_oxvg_element (oxvg STATE) STATE) with (Ok tt) by reflexivity. cbn match.
      rewrite reread_elements, child_elements_app, map_app. cbn [st_history st_selection st].
      change (child_elements [XElem (oxvg HISTORY) [] (map (embed_action show) l)]) with [XElem (oxvg HISTORY) [] (map (embed_action show) l)].
      cbn [map reread app].
      assert (D : derive_history parse (mkState (Some (map load (document_of (map_top (default_text INone) (map (embed_action show) l) true)))) None) = Ok (map tidy l)).
      { unfold derive_history. cbn [st_history]. rewrite reread_elements, embedded_elements.
        apply map_res_ok. clear -N nums. induction N as [|x xs Hx N IH]; cbn; constructor; [apply from_state_reread; exact Hx|exact IH]. }
      destruct sel as [e|].
      + destruct S as (_ & _ & sa & sk & ->). eexists. split; [reflexivity|]. exact D.
      + eexists. split; [reflexivity|]. exact D.
  Qed.
End Reload.

Theorem reloaded_alike {num : Type} (show : num -> text) (parse : text -> option num) (nums : numbers_ok show parse)
    l sel before name attrs kids after :
  Forall not_insert l -> Forall writable l -> sel_ok sel -> l <> [] ->
  Forall top_ok (before ++ XElem name attrs kids :: after) ->
  Forall (fun a => fst a <> lit "xml:space") (flat_map all_attrs (before ++ XElem name attrs kids :: after)) ->
  child_elements before = [] ->
  exists s r l', snapshot (fold_left (record show) l (mkState None sel)) before (XElem name attrs kids) after = WOk s /\
    reload s = Some (Ok r) /\ derive_history parse r = Ok l' /\ Forall2 (alike squeezed) l l'.
Proof.
  intros N W S NE T Q B. destruct (reloaded show parse nums l sel before name attrs kids after N W S NE T Q B) as (s & r & H1 & H2 & H3).
  exists s, r, (map tidy l). repeat split; auto. clear. induction l; cbn; constructor; auto using tidy_alike.
Qed.

Lemma blank_no_word a w b : blank (a ++ w ++ b) -> is_word w -> False.
Proof.
  rewrite blank_iff, !forallb_app. intros H [N F]. destruct w as [|c w]; [congruence|]. inversion F; subst.
  cbn in H. rewrite H2, andb_false_r in H. discriminate.
Qed.
Lemma squeezed_words s t : squeezed s t -> exists ws, split_whitespace s = ws /\ t = spaced_words ws /\ Forall is_word ws.
Proof.
  assert (Bl : forall a s, blank a -> words_from [] (a ++ s) = words_from [] s).
  { induction 1 as [|c a H _ IH]; cbn; rewrite ?H; auto. }
  assert (Wd : forall w s cur, Forall (fun c => is_whitespace c = false) w -> words_from cur (w ++ s) = words_from (rev w ++ cur) s).
  { induction w as [|c w IH]; intros s0 cur F; cbn; auto. inversion F; subst. rewrite H1, IH by auto.
    rewrite <- app_assoc. reflexivity. }
  assert (NE : forall w : text, w <> [] -> exists x r, rev w = x :: r).
  { intros w H. destruct (rev w) as [|x r] eqn:E; eauto. apply (f_equal (@rev N)) in E. rewrite rev_involutive in E. contradiction. }
  unfold split_whitespace. induction 1 as [s B|a w b Ba W Bb|a w c s t Ba W Wc S (ws & E & -> & F) NT].
  - exists []. rewrite words_blank; auto.
  - exists [w]. rewrite Bl, Wd, app_nil_r by (auto; apply W). destruct (NE w (proj1 W)) as (x & r & R).
    repeat split; auto. rewrite R. destruct Bb as [|c b H Bb]; cbn [words_from].
    + rewrite <- R, rev_involutive. reflexivity.
    + rewrite H, <- R, rev_involutive, words_blank; auto.
  - exists (w :: ws). rewrite Bl, Wd, app_nil_r by (auto; apply W). destruct (NE w (proj1 W)) as (x & r & R).
    rewrite R. cbn [words_from]. rewrite Wc, <- R, rev_involutive, E. repeat split; auto.
    destruct ws; [cbn in NT; congruence|reflexivity].
Qed.
Lemma squeezed_tidy ws t : Forall is_word ws -> squeezed (spaced_words ws) t -> t = spaced_words ws.
Proof.
  intros F S. apply squeezed_words in S as (vs & E & -> & _).
  assert (T := default_squeezed (spaced_words ws)). rewrite (default_tidy ws F) in T.
  apply squeezed_words in T as (us & E' & H & _). congruence.
Qed.
