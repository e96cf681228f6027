From Coq Require Import String List NArith ZArith Bool Arith Lia.
From Verif Require Import Chars ParseModel ParseSpec ParseProofs ParseProofs2 ParseProofs3 ParseProofs4 ListProofs ClockModel ClockSpec ClockProofs OnsetModel OnsetSpec OnsetProofs OnsetProofs2
  KeywordTable KeywordModel KeywordSpec KeywordProofs KeywordProofs2 KeywordProofs3 ClipModel ClipSpec.
Import ListNotations.

Lemma close_ends c u w : c = 44%N \/ c = 46%N -> spaces w -> ~ ends_in c (u ++ 41%N :: w).
Proof.
  intros C W. rewrite ends_app by discriminate. destruct w as [|x w].
  - intros (v & E). apply (app_inj_tail [] v) in E. destruct E as [_ E]. subst. lia.
  - intros E. apply ends_cons in E; [|discriminate]. revert E. apply spaces_not_ends; [exact W|unfold xml_space; lia].
Qed.
Definition after_side (r : text) : Prop := match r with [] => True | c :: _ => wsp_char c \/ c = 41%N end.
Lemma wsp_side s r : comma_wsp s -> after_side (s ++ r).
Proof. intros S. pose proof (wsp_after s r S) as H. destruct (s ++ r); [exact I|left; exact H]. Qed.
Lemma spaces_side w r : spaces w -> after_side (w ++ 41%N :: r).
Proof. intros W. destruct w as [|c w]; [right; reflexivity|]. inversion W; subst. left. left. assumption. Qed.

Section Clip.
  Variable finite : dec -> bool.
  Variable f32 : dec -> dec.
  Variable print : dec -> text.

  Lemma side_at a t r d : num_text finite f32 d t -> after_side r -> ~ ends_in 46%N r -> parse_f32 finite f32 (at_ a (t ++ r)) = Ok d (at_ (a ++ t) r).
  Proof.
    intros (N & _ & e & E & F & R) A ED. unfold parse_f32, bind. pose proof (f64_exact_dec finite a [] t r e) as H. cbn [app] in H. rewrite H; auto.
    - unfold ret. rewrite R. reflexivity.
    - destruct r as [|c r]; [exact I|]. cbn in A. unfold wsp_char, xml_space in A. unfold stops, digit. repeat split; intros; lia.
  Qed.
  Lemma skip_first a v t r : spaces v -> is_number t -> ~ ends_in 44%N (t ++ r) -> skip_comma (at_ a (v ++ t ++ r)) = Ok tt (at_ (a ++ v) (t ++ r)).
  Proof.
    intros V N ED. unfold skip_comma, bind; pose proof (number_ws t r N) as H.
    assert (D : drop_while (N.eqb 44) (t ++ r) = t ++ r).
    { pose proof (number_chars t N) as C. destruct t as [|c t]; [destruct (number_nonempty [] N eq_refl)|]. cbn [app drop_while]. inversion C as [|? ? X _]; subst. destruct (N.eqb_spec 44 c) as [<-|_]; [destruct (comma_not_num X)|reflexivity]. }
    rewrite skip_spaces; [|exact V|exact H]. rewrite skip_char_at by (rewrite D; exact ED).
    assert (T : take_while (N.eqb 44) (t ++ r) = []) by (pose proof (take_drop (N.eqb 44) (t ++ r)) as X; rewrite D in X; apply (app_inv_tail (t ++ r) (take_while (N.eqb 44) (t ++ r)) []); exact X).
    rewrite D, T, app_nil_r. apply skip_ws_head, H.
  Qed.

  Lemma shape_at p xa xb xc xd s w : clip_text finite f32 (Shape xa xb xc xd) s -> spaces w ->
    parse_shape finite f32 (at_ p (s ++ w)) = Ok (Shape xa xb xc xd) (at_ (p ++ s) w).
  Proof.
    intros (ta & tb & tc & td & s1 & s2 & s3 & w0 & w1 & NA & NB & NC & ND & S1 & S2 & S3 & W0 & W1 & ->) W.
    unfold rect. rewrite <- !app_assoc. unfold parse_shape, bind. rewrite expect_str_at.
    rewrite skip_first; [|exact W0|apply NA|]. 2:{ rewrite !app_assoc. cbn [app]. rewrite <- app_assoc. cbn [app]. apply close_ends; auto. }
    rewrite (side_at _ ta _ xa NA); [|apply wsp_side, S1|]. 2:{ rewrite !app_assoc. rewrite <- app_assoc. cbn [app]. apply close_ends; auto. }
    rewrite skip_comma_at; [|exact S1|apply NB|]. 2:{ rewrite !app_assoc. rewrite <- app_assoc. cbn [app]. apply close_ends; auto. }
    rewrite (side_at _ tb _ xb NB); [|apply wsp_side, S2|]. 2:{ rewrite !app_assoc. rewrite <- app_assoc. cbn [app]. apply close_ends; auto. }
    rewrite skip_comma_at; [|exact S2|apply NC|]. 2:{ rewrite !app_assoc. rewrite <- app_assoc. cbn [app]. apply close_ends; auto. }
    rewrite (side_at _ tc _ xc NC); [|apply wsp_side, S3|]. 2:{ rewrite !app_assoc. rewrite <- app_assoc. cbn [app]. apply close_ends; auto. }
    rewrite skip_comma_at; [|exact S3|apply ND|]. 2:{ rewrite !app_assoc. rewrite <- app_assoc. cbn [app]. apply close_ends; auto. }
    rewrite (side_at _ td _ xd ND); [|apply spaces_side, W1|apply close_ends; auto].
    cbn [app]. rewrite skip_spaces; [|exact W1|reflexivity].
    match goal with |- context [expect_char 41 (at_ ?a ?b)] => pose proof (expect_char_at 41 a b) as E; cbn iota in E; rewrite E by lia; clear E end.
    change (N.eqb 41 41) with true. cbn iota. unfold ret. rewrite <- !app_assoc. reflexivity.
  Qed.
  Lemma auto_at p w : spaces w -> parse_clip finite f32 (at_ p (lit "auto" ++ w)) = Ok Auto (at_ (p ++ lit "auto") w).
  Proof.
    intros W. unfold parse_clip, or_else, try_parse, expect_ident_matching, bind. rewrite ident_at.
    - reflexivity.
    - split; [unfold letter; right; left; cbn; lia|]. repeat constructor; unfold letter; cbn; lia.
    - destruct w as [|c w]; [exact I|]. inversion W as [|? ? X _]; subst. destruct X as [-> |[-> |[-> | ->]]]; reflexivity.
  Qed.
  Lemma not_auto p r : (expect_ident_matching (lit "auto") ;;; ret Auto)%parse (at_ p (lit "rect(" ++ r)) = Fail ExpectedIdent (at_ (p ++ lit "rect") (40%N :: r)).
  Proof.
    unfold expect_ident_matching, bind. change (lit "rect(" ++ r) with (lit "rect" ++ 40%N :: r). rewrite ident_at.
    - reflexivity.
    - split; [unfold letter; right; left; cbn; lia|]. repeat constructor; unfold letter; cbn; lia.
    - reflexivity.
  Qed.
  Theorem read_clip x s t : clip_text finite f32 x s -> padded s t -> exists q, parse_string (parse_clip finite f32) t = Ok x q.
  Proof.
    intros X (v & w & V & W & ->). destruct x as [a b c d|].
    - assert (exists r, s = lit "rect(" ++ r) as [r E] by (destruct X as (? & ? & ? & ? & ? & ? & ? & ? & ? & _ & _ & _ & _ & _ & _ & _ & _ & _ & ->); unfold rect; eauto).
      apply string_padded; auto; [rewrite E; reflexivity|]. unfold parse_clip, or_else, try_parse.
      assert (F := not_auto v (r ++ w)). rewrite app_assoc, <- E in F. rewrite F. cbn [at_ p_input p_cursor].
      match goal with |- parse_shape _ _ ?p = _ => replace p with (at_ v (s ++ w)) end; [apply shape_at; assumption|].
      unfold at_. rewrite E, <- !app_assoc. reflexivity.
    - cbn in X. subst s. apply string_padded; [exact V|exact W|reflexivity|apply auto_at, W].
  Qed.
  Lemma wsp_comma : comma_wsp [44%N].
  Proof. exists [], []. split; [constructor|]. split; [constructor|]. right. reflexivity. Qed.
  Theorem print_clip_text x : sides_print finite f32 print x -> clip_text finite f32 x (print_clip print x).
  Proof.
    destruct x as [a b c d|]; [|reflexivity]. intros (A & B & C & D). exists (print a), (print b), (print c), (print d), [44%N], [44%N], [44%N], [], [].
    repeat (split; [assumption || apply wsp_comma || constructor|]). reflexivity.
  Qed.
  Theorem clip_back x : sides_print finite f32 print x -> exists q, parse_string (parse_clip finite f32) (print_clip print x) = Ok x q.
  Proof.
    intros S. apply (read_clip x (print_clip print x)); [apply print_clip_text, S|]. exists [], []. split; [constructor|]. split; [constructor|]. rewrite app_nil_r. reflexivity.
  Qed.
End Clip.
