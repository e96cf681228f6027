From Coq Require Import String List NArith ZArith Bool Arith Lia.
From Verif Require Import Chars ParseModel ParseSpec ParseProofs ParseProofs2 ParseProofs3 ParseProofs4 ListProofs ClockModel ClockSpec ClockProofs OnsetModel OnsetSpec OnsetProofs OnsetProofs2
  KeywordTable KeywordModel KeywordSpec KeywordProofs KeywordProofs2.
Import ListNotations.

Definition num_char (c : N) : Prop := digit c \/ c = 43%N \/ c = 45%N \/ c = 46%N \/ c = 101%N \/ c = 69%N.
Lemma digits_chars t : Forall digit t -> Forall num_char t.
Proof. apply Forall_impl. intros c C. left. exact C. Qed.
Lemma number_chars t : is_number t -> Forall num_char t.
Proof.
  intros (n & m & e & s & i & tf & f & te & x & -> & SG & I & FR & NE & EX & _ & _).
  assert (SC : forall s n, sign_text s n -> Forall num_char s).
  { intros u b [[-> _]|[[-> _]|[-> _]]]; [constructor|constructor; [unfold num_char; tauto|constructor]..]. }
  apply Forall_app. split; [apply (SC _ _ SG)|]. apply Forall_app. split; [apply digits_chars, I|]. apply Forall_app. split.
  - destruct FR as [[-> _]|[-> F]]; [constructor|]. constructor; [unfold num_char; auto|apply digits_chars, F].
  - destruct EX as [[-> _]|(l & u & b & ds & -> & L & S & _ & D & _)]; [constructor|]. constructor; [unfold num_char; tauto|]. apply Forall_app. split; [apply (SC _ _ S)|apply digits_chars, D].
Qed.
Lemma number_nonempty t : is_number t -> t <> [].
Proof. intros (n & m & e & N). destruct (number_head t n m e N) as (c & u & -> & _). discriminate. Qed.
Lemma number_ws t r : is_number t -> match t ++ r with [] => True | c :: _ => is_whitespace c = false end.
Proof. intros (n & m & e & N). destruct (number_head t n m e N) as (c & u & -> & W). exact W. Qed.
Lemma number_ws' t : is_number t -> match t with [] => False | c :: _ => is_whitespace c = false end.
Proof. intros (n & m & e & N). destruct (number_head t n m e N) as (c & u & -> & W). exact W. Qed.
Lemma number_not_ends c t : is_number t -> ~ num_char c -> ~ ends_in c t.
Proof. intros N C (u & ->). apply C. apply number_chars in N. apply Forall_app in N. destruct N as [_ N]. inversion N. assumption. Qed.
Lemma comma_not_num : ~ num_char 44.
Proof. unfold num_char, digit. lia. Qed.
Lemma spaces_not_ends c w : spaces w -> ~ xml_space c -> ~ ends_in c w.
Proof. intros W C (u & ->). apply C. apply Forall_app in W. destruct W as [_ W]. inversion W. assumption. Qed.
Lemma not_ends_app c a b : ~ ends_in c a -> ~ ends_in c b -> ~ ends_in c (a ++ b).
Proof. intros A B. destruct b as [|x b]; [rewrite app_nil_r; exact A|]. rewrite ends_app by discriminate. exact B. Qed.
Definition wsp_char (c : N) : Prop := xml_space c \/ c = 44%N.
Definition after_number (r : text) : Prop := match r with [] => True | c :: _ => wsp_char c end.

Section Numbers.
  Variable finite : dec -> bool.
  Variable f32 : dec -> dec.
  Variable print : dec -> text.
  Local Notation num_text := (num_text finite f32).

  Lemma num_at a w t r d : spaces w -> num_text d t -> after_number r -> ~ ends_in 46%N r -> parse_f32 finite f32 (at_ a (w ++ t ++ r)) = Ok d (at_ (a ++ w ++ t) r).
  Proof.
    intros W (N & _ & e & E & F & R) A ED. unfold parse_f32, bind. rewrite (f64_exact_dec finite a w t r e); auto.
    - unfold ret. rewrite R. reflexivity.
    - revert W. apply Forall_impl, space_ws.
    - destruct r as [|c r]; [exact I|]. cbn in A. unfold wsp_char, xml_space in A. unfold stops, digit. repeat split; intros; lia.
  Qed.
  Lemma wsp_after s r : comma_wsp s -> after_number (s ++ r).
  Proof.
    intros (v & w & V & W & [[-> NE]| ->]).
    - destruct v as [|c v]; [contradiction|]. inversion V; subst. left. assumption.
    - destruct v as [|c v]; [right; reflexivity|]. inversion V; subst. left. assumption.
  Qed.
  Lemma skip_comma_at a s t r : comma_wsp s -> is_number t -> ~ ends_in 44%N (t ++ r) -> skip_comma (at_ a (s ++ t ++ r)) = Ok tt (at_ (a ++ s) (t ++ r)).
  Proof.
    intros (v & w & V & W & [[-> NE]| ->]) N ED; unfold skip_comma, bind; pose proof (number_ws t r N) as H.
    - assert (D : drop_while (N.eqb 44) (t ++ r) = t ++ r).
      { pose proof (number_chars t N) as C. destruct t as [|c t]; [destruct (number_nonempty [] N eq_refl)|]. cbn [app drop_while]. inversion C as [|? ? X _]; subst. destruct (N.eqb_spec 44 c) as [<-|_]; [destruct (comma_not_num X)|reflexivity]. }
      rewrite skip_spaces; [|exact V|exact H]. rewrite skip_char_at by (rewrite D; exact ED).
      assert (T : take_while (N.eqb 44) (t ++ r) = []) by (pose proof (take_drop (N.eqb 44) (t ++ r)) as X; rewrite D in X; apply (app_inv_tail (t ++ r) (take_while (N.eqb 44) (t ++ r)) []); exact X).
      rewrite D, T, app_nil_r. apply skip_ws_head, H.
    - rewrite <- app_assoc. cbn [app]. rewrite skip_spaces; [|exact V|reflexivity].
      assert (NW : match w ++ t ++ r with [] => True | c :: _ => N.eqb 44 c = false end).
      { destruct w as [|x w]; cbn [app]; [|inversion W as [|? ? X _]; subst; destruct X as [-> |[-> |[-> | ->]]]; reflexivity].
        pose proof (number_chars t N) as C. destruct t as [|c t]; [destruct (number_nonempty [] N eq_refl)|]. cbn [app drop_while]. inversion C as [|? ? X _]; subst. destruct (N.eqb_spec 44 c) as [<-|_]; [destruct (comma_not_num X)|reflexivity]. }
      destruct (take_while_app (N.eqb 44) [44%N] (w ++ t ++ r)) as [T D]; [repeat constructor|exact NW|]. cbn [app] in T, D.
      rewrite skip_char_at.
      + rewrite T, D. rewrite skip_spaces; [|exact W|exact H]. rewrite <- !app_assoc. reflexivity.
      + rewrite D. rewrite ends_app; [exact ED|]. intros X. apply app_eq_nil in X. destruct X as [-> _]. exact (number_nonempty [] N eq_refl).
  Qed.
  Lemma wsp_not_dot s : comma_wsp s -> ~ ends_in 46%N s.
  Proof.
    intros (v & w & V & W & [[-> _]| ->]); [apply spaces_not_ends; [exact V|unfold xml_space; lia]|].
    apply not_ends_app; [apply spaces_not_ends; [exact V|unfold xml_space; lia]|]. destruct w as [|x w].
    - intros (u & E). apply (app_inj_tail [] u) in E. destruct E as [_ E]. discriminate.
    - intros E. apply ends_cons in E; [|discriminate]. revert E. apply spaces_not_ends; [exact W|unfold xml_space; lia].
  Qed.

  Lemma four_at a x t w : four_text finite f32 x t -> spaces w -> parse_four finite f32 (at_ a (t ++ w)) = Ok x (at_ (a ++ t) w).
  Proof.
    destruct x as [[[xa xb] xc] xd]. intros (ta & tb & tc & td & s1 & s2 & s3 & NA & NB & NC & ND & S1 & S2 & S3 & ->) W.
    assert (W46 : ~ ends_in 46%N w) by (apply spaces_not_ends; [exact W|unfold xml_space; lia]).
    assert (W44 : ~ ends_in 44%N w) by (apply spaces_not_ends; [exact W|unfold xml_space; lia]).
    assert (N44 : forall t, is_number t -> ~ ends_in 44%N t) by (intros t N; apply number_not_ends; [exact N|apply comma_not_num]).
    assert (D3 : ~ ends_in 46%N (td ++ w)) by (apply not_ends_app; [apply ND|exact W46]).
    assert (E3 : ~ ends_in 44%N (td ++ w)) by (apply not_ends_app; [apply N44, ND|exact W44]).
    assert (NE3 : td ++ w <> []) by (intros X; apply app_eq_nil in X; destruct X as [-> _]; exact (number_nonempty [] (proj1 ND) eq_refl)).
    assert (D3' : ~ ends_in 46%N (s3 ++ td ++ w)) by (rewrite ends_app by exact NE3; exact D3).
    assert (E3' : ~ ends_in 44%N (s3 ++ td ++ w)) by (rewrite ends_app by exact NE3; exact E3).
    assert (NE3' : s3 ++ td ++ w <> []) by (intros X; apply app_eq_nil in X; destruct X as [_ X]; exact (NE3 X)).
    assert (D2 : ~ ends_in 46%N (tc ++ s3 ++ td ++ w)) by (rewrite ends_app by exact NE3'; exact D3').
    assert (E2 : ~ ends_in 44%N (tc ++ s3 ++ td ++ w)) by (rewrite ends_app by exact NE3'; exact E3').
    assert (NE2 : tc ++ s3 ++ td ++ w <> []) by (intros X; apply app_eq_nil in X; destruct X as [_ X]; exact (NE3' X)).
    assert (D2' : ~ ends_in 46%N (s2 ++ tc ++ s3 ++ td ++ w)) by (rewrite ends_app by exact NE2; exact D2).
    assert (E2' : ~ ends_in 44%N (s2 ++ tc ++ s3 ++ td ++ w)) by (rewrite ends_app by exact NE2; exact E2).
    assert (NE2' : s2 ++ tc ++ s3 ++ td ++ w <> []) by (intros X; apply app_eq_nil in X; destruct X as [_ X]; exact (NE2 X)).
    assert (D1 : ~ ends_in 46%N (tb ++ s2 ++ tc ++ s3 ++ td ++ w)) by (rewrite ends_app by exact NE2'; exact D2').
    assert (E1 : ~ ends_in 44%N (tb ++ s2 ++ tc ++ s3 ++ td ++ w)) by (rewrite ends_app by exact NE2'; exact E2').
    assert (NE1 : tb ++ s2 ++ tc ++ s3 ++ td ++ w <> []) by (intros X; apply app_eq_nil in X; destruct X as [_ X]; exact (NE2' X)).
    assert (D1' : ~ ends_in 46%N (s1 ++ tb ++ s2 ++ tc ++ s3 ++ td ++ w)) by (rewrite ends_app by exact NE1; exact D1).
    rewrite <- !app_assoc. unfold parse_four, bind. rewrite skip_ws_head by (apply number_ws, NA).
    pose proof (num_at a [] ta _ xa (Forall_nil _) NA (wsp_after s1 _ S1) D1') as H. cbn [app] in H. rewrite H. clear H.
    rewrite (skip_comma_at _ s1 tb _ S1 (proj1 NB) E1).
    pose proof (num_at ((a ++ ta) ++ s1) [] tb _ xb (Forall_nil _) NB (wsp_after s2 _ S2) D2') as H. cbn [app] in H. rewrite H. clear H.
    rewrite (skip_comma_at _ s2 tc _ S2 (proj1 NC) E2).
    pose proof (num_at ((((a ++ ta) ++ s1) ++ tb) ++ s2) [] tc _ xc (Forall_nil _) NC (wsp_after s3 _ S3) D3') as H. cbn [app] in H. rewrite H. clear H.
    rewrite (skip_comma_at _ s3 td _ S3 (proj1 ND) E3).
    assert (WA : after_number w) by (destruct w as [|c w]; [exact I|inversion W; subst; left; assumption]).
    pose proof (num_at ((((((a ++ ta) ++ s1) ++ tb) ++ s2) ++ tc) ++ s3) [] td w xd (Forall_nil _) ND WA W46) as H. cbn [app] in H. rewrite H. clear H.
    unfold ret. rewrite <- !app_assoc. reflexivity.
  Qed.
  Lemma four_head x t : four_text finite f32 x t -> match t with [] => False | c :: _ => is_whitespace c = false end.
  Proof.
    destruct x as [[[xa xb] xc] xd]. intros (ta & tb & tc & td & s1 & s2 & s3 & NA & _ & _ & _ & _ & _ & _ & ->). pose proof (number_ws' ta (proj1 NA)) as H. destruct ta; [destruct H|exact H].
  Qed.
  Lemma read_four x s t : four_text finite f32 x s -> padded s t -> exists q, parse_string (parse_four finite f32) t = Ok x q.
  Proof. intros F (v & w & V & W & ->). apply string_padded; auto; [apply (four_head x), F|apply (four_at v x s w F W)]. Qed.
  Lemma read_view_box x s t : four_text finite f32 x s -> padded s t -> exists q, parse_string (parse_view_box finite f32) t = Ok x q.
  Proof.
    intros F (v & w & V & W & ->). unfold parse_string, bind. change (new (v ++ s ++ w)) with (at_ [] (v ++ s ++ w)). pose proof (four_head x s F) as H.
    rewrite skip_spaces; [|exact V|destruct s; [destruct H|exact H]]. unfold parse_view_box, bind. rewrite (four_at _ x s w F W).
    pose proof (skip_spaces (([] ++ v) ++ s) w [] W I) as E. rewrite app_nil_r in E. rewrite E. unfold ret. rewrite skip_ws_head by exact I. rewrite done_at. eexists. reflexivity.
  Qed.
  Lemma wsp_space : comma_wsp [32%N].
  Proof. exists [32%N], []. split; [constructor; [left; reflexivity|constructor]|]. split; [constructor|]. left. split; [reflexivity|discriminate]. Qed.
  Lemma print_four_text a b c d : prints finite f32 print a -> prints finite f32 print b -> prints finite f32 print c -> prints finite f32 print d ->
    four_text finite f32 (a, b, c, d) (print_four print (a, b, c, d)).
  Proof.
    intros A B C D. exists (print a), (print b), (print c), (print d), [32%N], [32%N], [32%N]. repeat (split; [assumption || apply wsp_space|]). reflexivity.
  Qed.

  (** ** One or two numbers *)
  Lemma try_comma_no a b : match b with [] => True | c :: _ => c <> 44%N /\ (c < 128)%N end -> ok (try_parse (expect_char 44)) (at_ a b) = Ok None (at_ a b).
  Proof.
    intros H. unfold ok, try_parse. destruct b as [|c b].
    - pose proof (expect_char_at 44 a []) as E. cbn iota in E. rewrite E by lia. reflexivity.
    - unfold expect_char, bind. rewrite read_at by apply H. destruct (N.eqb_spec c 44) as [->|_]; [destruct (proj1 H eq_refl)|]. cbn [fail at_ p_input p_cursor]. rewrite <- app_assoc. reflexivity.
  Qed.
  Lemma try_num_end a : ok (try_parse (parse_f32 finite f32)) (at_ a []) = Ok None (at_ a []).
  Proof. unfold ok, try_parse, parse_f32, bind. rewrite f64_end. reflexivity. Qed.
  Lemma number_first t r : is_number t -> match t ++ r with [] => True | c :: _ => c <> 44%N /\ (c < 128)%N end.
  Proof.
    intros N. pose proof (number_chars t N) as C. destruct t as [|c t]; [destruct (number_nonempty [] N eq_refl)|]. cbn. inversion C as [|? ? X _]; subst.
    unfold num_char, digit in X. lia.
  Qed.
  Lemma read_pair x s t : pair_text finite f32 x s -> padded s t -> exists q, parse_string (parse_pair finite f32) t = Ok x q.
  Proof.
    destruct x as [xa xb]. intros (ta & NA & H) (v & w & V & W & ->). cbn [fst snd] in *.
    assert (W46 : ~ ends_in 46%N w) by (apply spaces_not_ends; [exact W|unfold xml_space; lia]).
    assert (WA : after_number w) by (destruct w as [|c w]; [exact I|inversion W; subst; left; assumption]).
    destruct xb as [b|].
    - destruct H as (s1 & tb & NB & S1 & ->).
      assert (D : ~ ends_in 46%N (tb ++ w)) by (apply not_ends_app; [apply NB|exact W46]).
      assert (NE : tb ++ w <> []) by (intros X; apply app_eq_nil in X; destruct X as [-> _]; exact (number_nonempty [] (proj1 NB) eq_refl)).
      assert (D' : ~ ends_in 46%N (s1 ++ tb ++ w)) by (rewrite ends_app by exact NE; exact D).
      apply string_padded; auto; [pose proof (number_ws' ta (proj1 NA)) as X; destruct ta; [destruct X|exact X]|].
      rewrite <- !app_assoc. unfold parse_pair. unfold bind at 1. pose proof (num_at v [] ta _ xa (Forall_nil _) NA (wsp_after s1 _ S1) D') as E. cbn [app] in E. rewrite E. clear E.
      unfold bind at 1, cursor at 1. unfold bind at 1.
      destruct S1 as (u & u' & U & U' & [[-> UN]| ->]).
      + rewrite skip_spaces; [|exact U|apply number_ws, NB]. unfold bind at 1. rewrite try_comma_no by (apply number_first, NB). unfold bind at 1. rewrite skip_ws_head by (apply number_ws, NB).
        unfold bind at 1, cursor. unfold bind at 1, ok, try_parse. pose proof (num_at ((v ++ ta) ++ u) [] tb w b (Forall_nil _) NB WA W46) as E. cbn [app] in E. rewrite E. clear E.
        cbn [at_ p_cursor]. rewrite (blen_app (v ++ ta) u). destruct (Nat.eqb_spec (blen (v ++ ta)) (blen (v ++ ta) + blen u)) as [X|_].
        { exfalso. apply UN, blen_0. lia. }
        unfold ret. rewrite <- !app_assoc. reflexivity.
      + rewrite <- app_assoc. cbn [app]. rewrite skip_spaces; [|exact U|reflexivity]. unfold bind at 1, ok, try_parse. pose proof (expect_char_at 44 ((v ++ ta) ++ u) (44%N :: u' ++ tb ++ w)) as E. cbn iota in E. rewrite E by lia. clear E.
        change (N.eqb 44 44) with true. cbn iota. unfold bind at 1. rewrite skip_spaces; [|exact U'|apply number_ws, NB]. 
        unfold bind at 1. pose proof (num_at ((((v ++ ta) ++ u) ++ [44%N]) ++ u') [] tb w b (Forall_nil _) NB WA W46) as E. cbn [app] in E. rewrite E. clear E. unfold ret. rewrite <- !app_assoc. reflexivity.
    - subst s. unfold parse_string. unfold bind at 1. change (new (v ++ ta ++ w)) with (at_ [] (v ++ ta ++ w)). rewrite skip_spaces; [|exact V|apply number_ws, NA].
      unfold bind at 1. unfold parse_pair. unfold bind at 1. pose proof (num_at ([] ++ v) [] ta w xa (Forall_nil _) NA WA W46) as E. cbn [app] in E. cbn [app]. rewrite E. clear E.
      unfold bind at 1, cursor at 1. unfold bind at 1. pose proof (skip_spaces (v ++ ta) w [] W I) as E. rewrite app_nil_r in E. rewrite E. clear E.
      unfold bind at 1. rewrite try_comma_no by exact I. unfold bind at 1. rewrite skip_ws_head by exact I. unfold bind at 1, cursor at 1. unfold bind at 1. rewrite try_num_end. unfold ret. unfold bind at 1. rewrite skip_ws_head by exact I.
      unfold bind. rewrite done_at. eexists. reflexivity.
  Qed.
  Lemma print_pair_text a b : prints finite f32 print a -> match b with Some b => prints finite f32 print b | None => True end -> pair_text finite f32 (a, b) (print_pair print (a, b)).
  Proof.
    intros A B. exists (print a). split; [exact A|]. unfold print_pair. cbn [fst snd]. destruct b as [b|]; [|apply app_nil_r]. exists [32%N], (print b). split; [exact B|]. split; [apply wsp_space|reflexivity].
  Qed.

  (** ** Rotation *)
  Lemma print_rotate_text r : (forall d, r = Angle d -> prints finite f32 print d) -> rotate_text finite f32 r (print_rotate print r).
  Proof. intros H. destruct r as [d| |]; [exact (H d eq_refl)|reflexivity..]. Qed.
  Lemma read_rotate r s t : rotate_text finite f32 r s -> padded s t -> exists q, parse_string (parse_rotate finite f32) t = Ok r q.
  Proof.
    intros R (v & w & V & W & ->). assert (W46 : ~ ends_in 46%N w) by (apply spaces_not_ends; [exact W|unfold xml_space; lia]).
    assert (WA : after_number w) by (destruct w as [|c w]; [exact I|inversion W; subst; left; assumption]).
    destruct r as [d| |]; cbn [rotate_text] in R.
    - apply string_padded; auto; [apply number_ws', R|]. unfold parse_rotate.
      destruct (ident_first v (s ++ w)) as [(i & r & Q & X)|(e & q & X & Q)].
      + pose proof (number_first s w (proj1 R)) as F. destruct (s ++ w) as [|c l] eqn:E; [apply app_eq_nil in E; destruct E as [-> _]; destruct (number_nonempty [] (proj1 R) eq_refl)|]. exists c, l. split; [reflexivity|apply F].
      + exfalso. pose proof (number_chars s (proj1 R)) as C. pose proof (proj1 R) as N. destruct N as (n & m & e & N). destruct N as (sg & ii & tf & f & te & x & ES & SG & II & FR & NEI & EX & _).
        (* the first character of a number begins no name *)
        assert (HC : exists c u, s = c :: u /\ is_name_start_char c = false /\ (c < 128)%N).
        { subst s. destruct SG as [[-> _]|[[-> _]|[-> _]]]; cbn [app]; [|eexists; eexists; split; [reflexivity|split; [reflexivity|lia]]..].
          destruct ii as [|c ii].
          - cbn [app] in *. destruct FR as [[-> ->]|[-> F]]; [destruct (NEI eq_refl)|]. cbn [app]. eexists; eexists. split; [reflexivity|split; [reflexivity|lia]].
          - cbn [app]. exists c. eexists. split; [reflexivity|]. inversion II as [|? ? DC _]; subst. split; [|unfold digit in DC; lia].
            assert (XX : forall k, 48 <= k <= 57 -> is_name_start_char (N.of_nat k) = false) by (intros k K; do 58 (destruct k as [|k]; [try lia; try reflexivity|]); lia).
            rewrite <- (N2Nat.id c). apply XX. unfold digit in DC. lia. }
        destruct HC as (c & u & -> & NS & L). unfold expect_ident, bind, cursor in X. cbn [app] in X. rewrite read_at in X by exact L. rewrite NS in X. destruct (slice_from _ _); discriminate.
      + erewrite or_else_fail; [|unfold bind; rewrite X; reflexivity|exact Q]. unfold bind. rewrite skip_ws_head by (apply number_ws, R).
        pose proof (num_at v [] s w d (Forall_nil _) R WA W46) as E. cbn [app] in E. rewrite E. reflexivity.
    - subst s. assert (K : keyword (lit "auto")) by (apply keyword_b_ok; reflexivity). apply string_padded; [exact V|exact W|reflexivity|]. unfold parse_rotate. apply or_else_ok. unfold bind. rewrite (ident_at v _ w K (spaces_end w W)). reflexivity.
    - subst s. assert (K : keyword (lit "auto-reverse")) by (apply keyword_b_ok; reflexivity). apply string_padded; [exact V|exact W|reflexivity|]. unfold parse_rotate. apply or_else_ok. unfold bind. rewrite (ident_at v _ w K (spaces_end w W)). reflexivity.
  Qed.
End Numbers.

Lemma sources_read k : In k svg_sources -> exists v q, parse_string parse_in (lit k) = Ok (Source v) q /\ print_in (Source v) = Some (lit k).
Proof.
  intros H. unfold svg_sources in H. repeat (destruct H as [<-|H]; [eexists; eexists; split; vm_compute; reflexivity|]). destruct H.
Qed.
Lemma profile_back x : match x with Srgb => True | ProfileName t => match t with [] => False | c :: _ => is_whitespace c = false /\ (c < 128)%N end /\ (forall k r, map lower k = lit "srgb" -> t <> k ++ r) end ->
  exists q, parse_string parse_profile (print_profile x) = Ok x q.
Proof.
  destruct x as [|t]; [intros _; eexists; vm_compute; reflexivity|]. intros [A B]. exact (read_profile_name t A B).
Qed.
