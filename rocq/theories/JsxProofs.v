From Coq Require Import String List NArith ZArith QArith Bool Lia.
From Verif Require Import Chars NameModel AttrTable ElemModel TextModel TextSpec TextProofs JsxNamesModel JsxModel JsxSpec.
Import ListNotations.

(** ** Words survive the rule of lines *)
Local Notation W := split_whitespace.
Lemma words_from_break s c t : is_whitespace c = true -> forall cur, words_from cur (s ++ c :: t) = words_from cur s ++ W t.
Proof.
  intros C. induction s as [|d s IH]; intros cur; cbn [app words_from].
  - rewrite C. destruct cur; reflexivity.
  - destruct (is_whitespace d); [|apply IH]. destruct cur; cbn [app]; rewrite IH; reflexivity.
Qed.
Lemma words_break s c t : is_whitespace c = true -> W (s ++ c :: t) = W s ++ W t.
Proof. intros C. apply words_from_break, C. Qed.
Lemma lines_shape s : exists l ls, lines s = l :: ls.
Proof. destruct s as [|c s]; cbn [lines]; [eauto|]. destruct (_ || _)%bool; [eauto|]. destruct (lines s); eauto. Qed.
Lemma lines_words s : forall cur l ls, lines s = l :: ls -> words_from cur s = words_from cur l ++ flat_map W ls.
Proof.
  induction s as [|c s IH]; intros cur l ls E; cbn [lines] in E.
  - injection E as <- <-. cbn [flat_map]. rewrite app_nil_r. reflexivity.
  - destruct (lines_shape s) as (m & ms & L). rewrite L in E. destruct (N.eqb c 10 || N.eqb c 13)%bool eqn:C.
    + injection E as <- <-. assert (WC : is_whitespace c = true).
      { apply orb_true_iff in C. destruct C as [C|C]; apply N.eqb_eq in C; subst c; reflexivity. }
      rewrite (words_from_break [] c s WC cur : words_from cur (c :: s) = _). f_equal.
      cbn [flat_map]. apply (IH [] _ _ L).
    + injection E as <- <-. cbn [words_from]. destruct (is_whitespace c).
      * destruct cur; cbn [app]; rewrite (IH [] _ _ L); reflexivity.
      * apply (IH _ _ _ L).
Qed.
Lemma lines_W s : W s = flat_map W (lines s).
Proof. destruct (lines_shape s) as (l & ls & E). rewrite E. cbn [flat_map]. apply (lines_words s [] l ls E). Qed.
Lemma drop_spaces_app s : exists a, s = a ++ drop_spaces s /\ Forall white a.
Proof.
  induction s as [|c s (a & E & F)]; cbn [drop_spaces]; [exists []; auto|]. destruct (N.eqb c 32) eqn:C.
  - exists (c :: a). apply N.eqb_eq in C. subst c. split; [cbn [app]; f_equal; exact E|constructor; [reflexivity|exact F]].
  - exists []. auto.
Qed.
Lemma W_pre a s : Forall white a -> W (a ++ s) = W s.
Proof. apply words_from_white. Qed.
Lemma W_post b s : Forall white b -> W (s ++ b) = W s.
Proof. intros B. apply words_from_tail, B. Qed.
Lemma drop_W s : W (drop_spaces s) = W s.
Proof. destruct (drop_spaces_app s) as (a & E & F). rewrite E at 2. symmetry. apply W_pre, F. Qed.
Lemma drop_end_W s : W (rev (drop_spaces (rev s))) = W s.
Proof.
  destruct (drop_spaces_app (rev s)) as (a & E & F). apply (f_equal (@rev N)) in E. rewrite rev_involutive, rev_app_distr in E.
  rewrite E at 2. symmetry. apply W_post, Forall_rev, F.
Qed.
Lemma tabs_W s : forall cur, words_from cur (map (fun c => if N.eqb c 9 then 32%N else c) s) = words_from cur s.
Proof.
  induction s as [|c s IH]; intros cur; cbn [map words_from]; [reflexivity|]. destruct (N.eqb c 9) eqn:C.
  - apply N.eqb_eq in C. subst c. cbn. destruct cur; rewrite IH; reflexivity.
  - destruct (is_whitespace c); [destruct cur; rewrite IH; reflexivity|apply IH].
Qed.
Lemma line_W f l x : W (line_text f l x) = W x.
Proof.
  unfold line_text. set (y := map _ x). assert (E : W (if f then y else drop_spaces y) = W x).
  { destruct f; rewrite ?drop_W; apply tabs_W. }
  destruct l; [exact E|]. rewrite drop_end_W. exact E.
Qed.
Lemma blank_line_drop l : blank_line l = true -> drop_spaces (map (fun c => if N.eqb c 9 then 32%N else c) l) = [].
Proof.
  unfold blank_line. induction l as [|c l IH]; [reflexivity|]. cbn [forallb map drop_spaces]. intros H. apply andb_true_iff in H. destruct H as [C H].
  destruct (N.eqb c 9) eqn:T; [cbn; apply IH, H|]. rewrite orb_false_r in C. rewrite C. apply IH, H.
Qed.
Lemma blank_line_text l x : blank_line x = true -> line_text false l x = [].
Proof. intros B. unfold line_text. rewrite (blank_line_drop _ B). destruct l; reflexivity. Qed.
Lemma blank_join r : forallb blank_line r = true -> join_lines false r = [].
Proof.
  induction r as [|l r IH]; [reflexivity|]. cbn [forallb]. intros H. apply andb_true_iff in H. destruct H as [B H]. destruct r as [|l' r].
  - apply blank_line_text, B.
  - change (join_lines false (l :: l' :: r)) with (match line_text false false l with [] => join_lines false (l' :: r) | t => if forallb blank_line (l' :: r) then t ++ join_lines false (l' :: r) else t ++ 32%N :: join_lines false (l' :: r) end).
    rewrite (blank_line_text false l B). apply IH, H.
Qed.
Lemma blank_W x : blank_line x = true -> W x = [].
Proof.
  unfold blank_line. intros B. rewrite <- (app_nil_r x). apply W_pre. apply Forall_forall. intros c I. rewrite forallb_forall in B. specialize (B c I).
  apply orb_true_iff in B. destruct B as [B|B]; apply N.eqb_eq in B; subst c; reflexivity.
Qed.
Lemma blank_lines_W r : forallb blank_line r = true -> flat_map W r = [].
Proof. induction r as [|l r IH]; [reflexivity|]. cbn [forallb flat_map]. intros H. apply andb_true_iff in H. destruct H as [B H]. rewrite (blank_W _ B), (IH H). reflexivity. Qed.
Lemma join_W ls : forall f, W (join_lines f ls) = flat_map W ls.
Proof.
  induction ls as [|l r IH]; intros f; [reflexivity|]. destruct r as [|l' r].
  - cbn [join_lines flat_map]. rewrite app_nil_r. apply line_W.
  - change (join_lines f (l :: l' :: r)) with (match line_text f false l with [] => join_lines false (l' :: r) | t => if forallb blank_line (l' :: r) then t ++ join_lines false (l' :: r) else t ++ 32%N :: join_lines false (l' :: r) end).
    pose proof (line_W f false l) as L. cbn [flat_map]. rewrite <- L. specialize (IH false).
    destruct (line_text f false l) as [|c t]; [exact IH|].
    destruct (forallb blank_line (l' :: r)) eqn:B.
    + rewrite (blank_join _ B), app_nil_r. rewrite (blank_lines_W _ B : W l' ++ flat_map W r = []), app_nil_r. reflexivity.
    + rewrite words_break by reflexivity. f_equal. exact IH.
Qed.
Lemma jsx_text_W t u : jsx_text t = Some u -> W u = W t.
Proof. unfold jsx_text. destruct (existsb special t); [discriminate|]. intros E. injection E as <-. rewrite join_W, <- lines_W. reflexivity. Qed.
Lemma same_W s t : W s = W t -> same_words s t.
Proof.
  intros E ws. split; intros H; apply words_of_split in H; rewrite <- H; [rewrite E|rewrite <- E]; apply split_words.
Qed.
Lemma jsx_text_plain t : plain t -> exists u, jsx_text t = Some u.
Proof.
  intros P. unfold jsx_text. destruct (existsb special t) eqn:X; [|eauto]. apply existsb_exists in X. destruct X as (c & I & S).
  rewrite (proj1 (Forall_forall _ _) P c I) in S. discriminate.
Qed.
Lemma trim_plain t : plain t -> plain (trim_str t).
Proof. intros P. apply Forall_forall. intros c I. apply (proj1 (Forall_forall _ _) P), trim_sub, I. Qed.
Lemma trim_blank t : (match trim_str t with [] => true | _ => false end) = forallb is_whitespace t.
Proof.
  destruct (forallb is_whitespace t) eqn:B.
  - destruct (trim_str t) as [|c u] eqn:T; [reflexivity|]. exfalso. pose proof (trim_str_head _ _ _ T) as H.
    assert (I : In c t) by (apply trim_sub; rewrite T; left; reflexivity). rewrite forallb_forall in B. rewrite (B c I) in H. discriminate.
  - destruct (trim_str t) as [|c u] eqn:T; [|reflexivity]. exfalso. destruct (trim_str_app t) as (a & b & E & A & B'). rewrite T in E. cbn [app] in E.
    assert (X : forallb is_whitespace t = true).
    { apply forallb_forall. intros c I. rewrite E in I. apply in_app_iff in I. destruct I as [I|I]; [apply (proj1 (Forall_forall _ _) A _ I)|apply (proj1 (Forall_forall _ _) B' _ I)]. }
    congruence.
Qed.

(** ** Attributes *)
Lemma attr_shown s camel a v : unimportant (a, v) -> exists p, eval s (attr_value camel v) = Some p /\ shown camel v p.
Proof.
  unfold unimportant. cbn [snd]. destruct v as [b|[b|]|q|z|q|n [|i l]|t]; intros U; cbn [attr_value eval]; eexists; (split; [reflexivity|]); try constructor; try contradiction.
  induction n as [|((c & x) & t) n IH]; cbn [map]; constructor; [split; reflexivity|exact IH].
Qed.
Lemma attrs_props s uni camel svg attrs : Forall unimportant attrs ->
  props_of uni camel svg attrs (eval_attrs s (flat_map (attr_to_jsx uni camel) (if svg then filter (fun a => negb (is_xmlns a)) attrs else attrs))).
Proof.
  induction 1 as [|(a & v) l U F IH]; [destruct svg; constructor|].
  assert (K : forall r, props_of uni camel svg l (eval_attrs s r) -> props_of uni camel svg ((a, v) :: l) (eval_attrs s (attr_to_jsx uni camel (a, v) ++ r))).
  { intros r P. unfold attr_to_jsx. cbn [fst snd]. destruct (jsx_name uni a) as [n|e] eqn:E.
    - cbn [app eval_attrs flat_map]. destruct (attr_shown s camel a v U) as (p & -> & S). apply p_keep; assumption.
    - cbn [app]. eapply p_drop; eauto. }
  destruct svg; cbn [filter flat_map]; [|apply K, IH].
  destruct (is_xmlns (a, v)) eqn:X; cbn [negb flat_map]; [|apply K, IH].
  unfold is_xmlns in X. cbn [fst] in X. destruct (id_unaliased a) as [k|] eqn:A; [|discriminate]. apply text_eqb_spec in X. eapply p_xmlns; eauto.
Qed.

(** ** The tree *)
Section tree.
Variables (uni : N -> bool) (camel : text -> text).
Lemma xnode_all (P : xnode -> Prop) :
  (forall kids, Forall P kids -> P (XDocument kids)) -> (forall e a kids, Forall P kids -> P (XElement e a kids)) ->
  (forall t, P (XText t)) -> (forall t, P (XComment t)) -> (forall t, P (XPI t)) -> (forall t, P (XStyle t)) -> forall n, P n.
Proof.
  intros D E T C I S. fix IH 1. intros n.
  assert (K : forall l : list xnode, Forall P l) by (fix KI 1; intros [|k l]; constructor; [apply IH|apply KI]).
  destruct n as [kids|e a kids|t|t|t|t]; [apply D, K|apply E, K|apply T|apply C|apply I|apply S].
Qed.
Lemma to_jsx_closed n : closed (to_jsx uni camel n).
Proof.
  induction n as [kids IH|e a kids IH|[t|]|t|[t|]|t] using xnode_all; cbn [to_jsx]; try constructor.
  - assert (F : Forall closed (flat_map (fun k => if in_document k then [to_jsx uni camel k] else []) kids)).
    { induction IH as [|k l C F IH]; cbn [flat_map]; [constructor|]. destruct (in_document k); [cbn [app]; constructor; [exact C|exact IH]|exact IH]. }
    destruct (flat_map _ kids) as [|j [|j' l]]; [constructor; exact F|inversion F; assumption|constructor; exact F].
  - destruct (negb (prefix_is_empty (elem_prefix e))); [constructor|]. destruct kids as [|k kids]; cbn [none_left map]; constructor.
    change (Forall closed (map (to_jsx uni camel) (k :: kids))). apply Forall_map. exact IH.
Qed.
Lemma same_text s t : plain t -> exists u, render s (JText t) = Some u /\ (match u with [] => words_of t [] | [DText x] => same_words t x /\ x <> [] | _ => False end).
Proof.
  intros P. cbn [render]. destruct (jsx_text_plain t P) as (u & E). rewrite E. apply jsx_text_W in E. destruct u as [|c u].
  - exists []. split; [reflexivity|]. apply (same_W [] t); [exact E|]. apply (split_words []).
  - eexists. split; [reflexivity|]. split; [apply same_W; symmetry; exact E|discriminate].
Qed.
Lemma same_trim t x : same_words (trim_str t) x -> same_words t x.
Proof. intros H ws. rewrite <- (H ws). revert ws. apply same_W. symmetry. apply words_trim. Qed.
Definition good s n := tame n -> exists l, render s (to_jsx uni camel n) = Some l /\ same uni camel n l.
Lemma seq_sames s kids : Forall (good s) kids -> Forall tame kids -> exists l, seq (map (render s) (map (to_jsx uni camel) kids)) = Some l /\ sames uni camel kids l.
Proof.
  induction 1 as [|k kids G F IH]; intros T; cbn [map seq]; [exists []; split; [reflexivity|constructor]|].
  inversion T as [|? ? T1 T2]; subst. destruct (G T1) as (l & -> & S). destruct (IH T2) as (m & -> & SM). exists (l ++ m). split; [reflexivity|]. constructor; assumption.
Qed.
Lemma plain_white t : Forall white t -> trim_str t = [].
Proof.
  intros F. pose proof (trim_blank t) as B. rewrite (proj2 (forallb_forall _ _) (fun c I => proj1 (Forall_forall _ _) F c I)) in B.
  destruct (trim_str t); [reflexivity|discriminate].
Qed.
Lemma blank_jsx k : tame k -> (match k with XDocument _ => False | _ => True end) -> (match to_jsx uni camel k with JText [] => false | _ => true end) = negb (blank k).
Proof.
  intros T D. destruct k as [kids|e a kids|[t|]|t|[t|]|t]; cbn [to_jsx blank]; try reflexivity; try contradiction.
  - destruct (negb (prefix_is_empty (elem_prefix e))); reflexivity.
  - rewrite <- trim_blank. destruct (trim_str t); reflexivity.
  - rewrite <- trim_blank. destruct (trim_str t); reflexivity.
  - destruct t; reflexivity.
Qed.
Lemma texty_jsx k : tame k -> (match k with XDocument _ => False | _ => True end) -> blank k = false -> (match to_jsx uni camel k with JText _ => true | _ => false end) = texty k.
Proof.
  intros T D B. destruct k as [kids|e a kids|[t|]|t|[t|]|t]; cbn [to_jsx texty blank] in *; try reflexivity; try contradiction.
  - destruct (negb (prefix_is_empty (elem_prefix e))); reflexivity.
  - exfalso. inversion T as [| | | | | |? F| |]; subst. rewrite (proj2 (forallb_forall _ _) (fun c I => proj1 (Forall_forall _ _) F c I)) in B. discriminate.
Qed.
Lemma spaced_apart kids : Forall tame kids -> Forall (fun k => match k with XDocument _ => False | _ => True end) kids -> spaced kids -> apart (map (to_jsx uni camel) kids) = true.
Proof.
  unfold spaced, apart. intros T D.
  assert (E : filter (fun j => match j with JText [] => false | _ => true end) (map (to_jsx uni camel) kids) = map (to_jsx uni camel) (filter (fun n => negb (blank n)) kids)).
  { induction kids as [|k l IH]; cbn [map filter]; [reflexivity|]. inversion T as [|? ? T1 T2]; inversion D as [|? ? D1 D2]; subst.
    pose proof (blank_jsx k T1 D1) as B. rewrite <- B. destruct (to_jsx uni camel k) as [| |[|c r]| | |] eqn:J; cbn [map filter]; rewrite ?J; try (f_equal); apply IH; assumption. }
  rewrite E. clear E.
  assert (X : forall l, Forall (fun k => tame k /\ (match k with XDocument _ => False | _ => True end) /\ blank k = false) l -> spaced_out l -> pairs_apart (map (to_jsx uni camel) l) = true).
  { induction l as [|a l IH]; [reflexivity|]. intros F S. inversion F as [|? ? (A1 & A2 & A3) F']; subst. destruct l as [|b l]; cbn [map] in *.
    - cbn [pairs_apart]. destruct (to_jsx uni camel a); reflexivity.
    - destruct S as [S1 S2]. inversion F' as [|? ? (B1 & B2 & B3) _]; subst. specialize (IH F' S2).
      pose proof (texty_jsx a A1 A2 A3) as TA. pose proof (texty_jsx b B1 B2 B3) as TB. rewrite <- TA, <- TB in S1.
      destruct (to_jsx uni camel a); cbn [pairs_apart] in *; try exact IH. destruct (to_jsx uni camel b); try exact IH. discriminate. }
  apply X. apply Forall_forall. intros k I. apply filter_In in I. destruct I as [I B]. rewrite Forall_forall in T, D.
  split; [apply T, I|]. split; [apply D, I|]. apply negb_true_iff, B.
Qed.
Lemma nothing_W t : Forall white t -> words_of t [].
Proof. intros F. constructor. exact F. Qed.
Lemma tree s n : good s n.
Proof.
  unfold good. induction n as [kids IH|e a kids IH|[t|]|t|[t|]|t] using xnode_all; intros T; cbn [to_jsx].
  - inversion T as [? F D| | | | | | | |]; subst. clear T.
    set (js := flat_map (fun k => if in_document k then [to_jsx uni camel k] else []) kids).
    assert (X : exists l, seq (map (render s) js) = Some l /\ sames uni camel kids l).
    { subst js. induction kids as [|k kids IHk]; cbn [flat_map map seq]; [exists []; split; [reflexivity|constructor]|].
      inversion IH as [|? ? I1 I2]; inversion F as [|? ? F1 F2]; inversion D as [|? ? D1 D2]; subst. destruct (IHk I2 F2 D2) as (m & M & SM).
      assert (Y : in_document k = true -> tame k).
      { destruct k as [ks|e a ks|[t|]|t|[t|]|t]; cbn [in_document]; try discriminate; intros _.
        - apply F1. eauto.
        - constructor. eapply Forall_impl; [|exact D1]. intros c WC. unfold special. destruct (N.eqb c 123) eqn:E1; [apply N.eqb_eq in E1; subst c; discriminate WC|].
          destruct (N.eqb c 125) eqn:E2; [apply N.eqb_eq in E2; subst c; discriminate WC|]. destruct (N.eqb c 60) eqn:E3; [apply N.eqb_eq in E3; subst c; discriminate WC|].
          destruct (N.eqb c 62) eqn:E4; [apply N.eqb_eq in E4; subst c; discriminate WC|]. destruct (N.eqb c 38) eqn:E5; [apply N.eqb_eq in E5; subst c; discriminate WC|]. reflexivity.
        - constructor. }
      destruct (in_document k) eqn:IDK.
      + cbn [app map seq]. destruct (I1 (Y eq_refl)) as (l & -> & S). rewrite M. exists (l ++ m). split; [reflexivity|]. constructor; assumption.
      + cbn [app]. exists m. split; [exact M|]. change m with ([] ++ m). constructor; [|exact SM].
        destruct k as [ks|e a ks|[t|]|t|[t|]|t]; try discriminate IDK; try contradiction; constructor. }
    assert (AP : apart js = true).
    { assert (NT : Forall (fun j => match j with JText (_ :: _) => False | _ => True end) js).
      { subst js. clear -D. induction kids as [|k kids IHk]; cbn [flat_map]; [constructor|]. inversion D as [|? ? D1 D2]; subst. apply Forall_app. split; [|apply IHk, D2].
        destruct k as [ks|e a ks|[t|]|t|[t|]|t]; cbn [in_document to_jsx]; try contradiction; repeat constructor.
        - destruct (negb (prefix_is_empty (elem_prefix e))); exact Logic.I.
        - rewrite (plain_white t D1). exact Logic.I. }
      clear -NT. unfold apart. induction NT as [|j l J F IH]; [reflexivity|]. cbn [filter]. destruct j as [| |[|c r]| | |]; try exact IH; contradiction. }
    destruct X as (l & E & S). exists l. split; [|constructor; exact S]. revert E AP. generalize js. intros [|j [|j' r]] E AP.
    + exact E.
    + cbn [map seq] in E. destruct (render s j) as [x|]; [|discriminate]. rewrite app_nil_r in E. exact E.
    + cbn [render]. rewrite AP. exact E.
  - inversion T as [|? ? ? PE IN U TK D SP|? ? ? PE PN| | | | | |]; subst.
    + assert (PI : prefix_is_empty (elem_prefix e) = true) by (unfold prefix_is_empty; rewrite PE; reflexivity). rewrite PI. cbn [negb render]. rewrite IN.
      destruct (seq_sames s kids IH TK) as (l & E & S). rewrite (spaced_apart kids TK D SP), E.
      assert (K : (if none_left kids then none_left (map (to_jsx uni camel) kids) && none_left (match (if none_left kids then None else Some (elem_local e)) with Some _ => [tt] | None => [] end)
                   else match (if none_left kids then None else Some (elem_local e)) with Some m => text_eqb m (elem_local e) | None => false end)%bool = true).
      { destruct kids; cbn; [reflexivity|]. apply text_eqb_spec. reflexivity. }
      rewrite K. cbn [orb andb]. eexists. split; [reflexivity|]. constructor; [exact PE| |exact S]. apply attrs_props, U.
    + assert (PI : prefix_is_empty (elem_prefix e) = false) by (unfold prefix_is_empty; destruct (prefix_value (elem_prefix e)); [reflexivity|contradiction]).
      rewrite PI. exists []. split; [reflexivity|]. apply s_foreign; assumption.
  - inversion T as [| | |? P| | | | |]; subst. destruct (same_text s (trim_str t) (trim_plain t P)) as (u & -> & H). exists u. split; [reflexivity|].
    destruct u as [|[|x] [|]]; try contradiction.
    + apply s_blank. apply (same_W _ _ (eq_sym (words_trim t))), H.
    + destruct H as [H N]. apply s_text; [apply same_trim, H|exact N].
  - exists []. split; [reflexivity|constructor].
  - exists []. split; [reflexivity|constructor].
  - inversion T as [| | | | | |? F| |]; subst. rewrite (plain_white t F). exists []. split; [reflexivity|constructor].
  - exists []. split; [reflexivity|constructor].
  - inversion T as [| | | | | | | |? P]; subst. destruct (same_text s t P) as (u & -> & H). exists u. split; [reflexivity|].
    destruct u as [|[|x] [|]]; try contradiction; [apply s_style_blank, H|]. destruct H as [H N]. apply s_style; assumption.
Qed.
End tree.
