From Coq Require Import String List NArith ZArith Bool Arith Lia.
From Verif Require Import Chars ParseModel ParseSpec ParseProofs ParseProofs2 ParseProofs3 ParseProofs4 ListProofs ClockModel ClockSpec ClockProofs OnsetModel OnsetSpec OnsetProofs OnsetProofs2
  KeywordTable KeywordModel KeywordSpec KeywordProofs KeywordProofs2 KeywordProofs3 FeatureProofs TallyModel TallySpec.
Import ListNotations.

Lemma number_stuck s w : is_number s -> stuck (s ++ w) /\ safe (s ++ w).
Proof.
  intros N. destruct N as (n & m & e & N). destruct N as (sg & ii & tf & f & te & x & ES & SG & II & FR & NEI & EX & _).
  assert (HC : exists c u, s = c :: u /\ is_name_start_char c = false /\ (c < 128)%N).
  { subst s. destruct SG as [[-> _]|[[-> _]|[-> _]]]; cbn [app]; [|eexists; eexists; split; [reflexivity|split; [reflexivity|lia]]..].
    destruct ii as [|c ii].
    - cbn [app] in *. destruct FR as [[-> ->]|[-> F]]; [destruct (NEI eq_refl)|]. cbn [app]. eexists; eexists. split; [reflexivity|split; [reflexivity|lia]].
    - cbn [app]. exists c. eexists. split; [reflexivity|]. inversion II as [|? ? DC _]; subst. split; [|unfold digit in DC; lia].
      assert (XX : forall k, 48 <= k <= 57 -> is_name_start_char (N.of_nat k) = false) by (intros k K; do 58 (destruct k as [|k]; [try lia; try reflexivity|]); lia).
      rewrite <- (N2Nat.id c). apply XX. unfold digit in DC. lia. }
  destruct HC as (c & u & -> & NS & L). cbn. auto.
Qed.
Lemma positive_ok d : positive d <-> at_most_zero d = false.
Proof.
  unfold positive, at_most_zero. rewrite orb_false_iff. split; intros [A B]; (split; [exact A|]).
  - destruct B as (c & I & NE). destruct (forallb _ _) eqn:E; [|reflexivity]. rewrite forallb_forall in E. specialize (E c I). apply N.eqb_eq in E. congruence.
  - revert B. induction (dig d) as [|c l IH]; [discriminate|]. cbn [forallb]. destruct (N.eqb_spec 0 c) as [<-|NE].
    + intros E. destruct (IH E) as (x & X & Y). exists x. split; [right; exact X|exact Y].
    + intros _. exists c. split; [left; reflexivity|congruence].
Qed.

Section Tally.
  Variable finite : dec -> bool.
  Variable f32 : dec -> dec.
  Variable print : dec -> text.

  Lemma word_or_num {A} k (x : A) (f : dec -> A) v s w d : num_text finite f32 d s -> spaces w ->
    or_else (expect_ident_matching k ;;; ret x)%parse (e <- parse_f32 finite f32 ;; ret (f e))%parse (at_ v (s ++ w)) = Ok (f d) (at_ (v ++ s) w).
  Proof.
    intros R W. destruct (number_stuck s w (proj1 R)) as [S F]. unfold or_else, try_parse, expect_ident_matching, bind.
    destruct (ident_stuck v (s ++ w) S) as [(e & q & -> & Q)|(_ & X)]; [|contradiction]. rewrite Q. change (P (v ++ s ++ w) (p_cursor (at_ v (s ++ w)))) with (at_ v (s ++ w)).
    assert (W46 : ~ ends_in 46%N w) by (apply spaces_not_ends; [exact W|unfold xml_space; lia]).
    assert (WA : after_number w) by (destruct w as [|c w]; [exact I|inversion W; subst; left; assumption]).
    pose proof (num_at finite f32 v [] s w d (Forall_nil _) R WA W46) as E. cbn [app] in E. rewrite E. reflexivity.
  Qed.
  Lemma word_at {A} k (x : A) g v w : keyword (lit k) -> spaces w ->
    or_else (expect_ident_matching (lit k) ;;; ret x)%parse g (at_ v (lit k ++ w)) = Ok x (at_ (v ++ lit k) w).
  Proof.
    intros K W. unfold or_else, try_parse, expect_ident_matching, bind. rewrite (ident_at v _ w K (spaces_end w W)).
    replace (text_eqb (lit k) (lit k)) with true by (symmetry; apply text_eqb_spec; reflexivity). reflexivity.
  Qed.

  Theorem read_count x s t : count_text finite f32 x s -> padded s t -> exists q, parse_string (parse_count finite f32) t = Ok x q.
  Proof.
    intros X (v & w & V & W & ->). destruct x as [d|].
    - destruct X as [N P]. apply string_padded; [exact V|exact W|apply number_ws', N|]. unfold parse_count. unfold bind at 1. rewrite (word_or_num _ _ Times v s w d N W).
      apply positive_ok in P. rewrite P. reflexivity.
    - cbn in X. subst s. apply string_padded; [exact V|exact W|reflexivity|]. unfold parse_count. unfold bind at 1. rewrite word_at; [reflexivity|apply keyword_b_ok; reflexivity|exact W].
  Qed.
  Theorem count_positive t d q : parse_string (parse_count finite f32) t = Ok (Times d) q -> positive d.
  Proof.
    intros E. apply string_only in E. destruct E as (v & b & _ & _ & p & E & _). unfold parse_count in E. unfold bind at 1 in E. destruct (or_else _ _ _) as [r p'|? ?| |]; try discriminate.
    destruct r as [e|]; [|discriminate]. destruct (at_most_zero e) eqn:Z; [discriminate|]. unfold ret in E. injection E as <- <-. apply positive_ok, Z.
  Qed.
  Theorem read_adjust x s t : adjust_text finite f32 x s -> padded s t -> exists q, parse_string (parse_adjust finite f32) t = Ok x q.
  Proof.
    intros X (v & w & V & W & ->). destruct x as [d|].
    - apply string_padded; [exact V|exact W|apply number_ws', X|]. apply (word_or_num _ _ Aspect v s w d X W).
    - cbn in X. subst s. apply string_padded; [exact V|exact W|reflexivity|]. apply word_at; [apply keyword_b_ok; reflexivity|exact W].
  Qed.
  Lemma unpadded s : padded s s.
  Proof. exists [], []. split; [constructor|]. split; [constructor|]. rewrite app_nil_r. reflexivity. Qed.
  Theorem count_back x : (forall d, x = Times d -> prints finite f32 print d /\ positive d) -> count_text finite f32 x (print_count print x) /\ exists q, parse_string (parse_count finite f32) (print_count print x) = Ok x q.
  Proof.
    intros H. assert (T : count_text finite f32 x (print_count print x)) by (destruct x as [d|]; [exact (H d eq_refl)|reflexivity]). split; [exact T|]. apply (read_count x _ _ T), unpadded.
  Qed.
  Theorem adjust_back x : (forall d, x = Aspect d -> prints finite f32 print d) -> adjust_text finite f32 x (print_adjust print x) /\ exists q, parse_string (parse_adjust finite f32) (print_adjust print x) = Ok x q.
  Proof.
    intros H. assert (T : adjust_text finite f32 x (print_adjust print x)) by (destruct x as [d|]; [exact (H d eq_refl)|reflexivity]). split; [exact T|]. apply (read_adjust x _ _ T), unpadded.
  Qed.

  Lemma unit_at d n u v w : num_text finite f32 d n -> u = lit "Hz" \/ u = lit "KHz" -> spaces w ->
    parse_frequency finite f32 (at_ v ((n ++ u) ++ w)) = Ok (if text_eqb u (lit "Hz") then Hz d else KHz d) (at_ (v ++ n ++ u) w).
  Proof.
    intros N U W. rewrite <- app_assoc. unfold parse_frequency. unfold bind at 1. unfold parse_f32. unfold bind at 1.
    assert (W46 : ~ ends_in 46%N w) by (apply spaces_not_ends; [exact W|unfold xml_space; lia]).
    assert (K : keyword u) by (destruct U as [-> | ->]; apply keyword_b_ok; reflexivity).
    destruct N as (N & _ & e & E & F & R).
    pose proof (f64_exact_dec finite v [] n (u ++ w) e (Forall_nil _) N) as X. cbn [app] in X. rewrite X; [|destruct U as [-> | ->]; cbn; unfold digit; repeat split; intros; lia| |exact E|exact F].
    - unfold ret. rewrite R. unfold bind. rewrite (ident_at _ u w K (spaces_end w W)). destruct U as [-> | ->]; cbn [text_eqb]; rewrite <- app_assoc; reflexivity.
    - apply not_ends_app; [|exact W46]. destruct U as [-> | ->]; intros (l & L); [change (lit "Hz") with ([72%N] ++ [122%N]) in L|change (lit "KHz") with ([75; 72]%N ++ [122%N]) in L]; apply app_inj_tail in L; destruct L as [_ L]; discriminate.
  Qed.
  Theorem read_hertz d s t : frequency_text finite f32 (Hz d) s -> padded s t -> exists q, parse_string (parse_frequency finite f32) t = Ok (Hz d) q.
  Proof.
    intros (n & N & ->) (v & w & V & W & ->). apply string_padded; [exact V|exact W|pose proof (number_ws' n (proj1 N)) as H; destruct n; [destruct H|exact H]|].
    apply (unit_at d n (lit "Hz") v w N (or_introl eq_refl) W).
  Qed.
  Theorem frequency_back x : prints finite f32 print (amount x) -> exists q, parse_string (parse_frequency finite f32) (print_frequency print x) = Ok x q.
  Proof.
    intros H. assert (Y : exists u, print_frequency print x = print (amount x) ++ u /\ (u = lit "Hz" \/ u = lit "KHz") /\ (if text_eqb u (lit "Hz") then Hz (amount x) else KHz (amount x)) = x).
    { destruct x; [exists (lit "Hz")|exists (lit "KHz")]; (split; [reflexivity|]); (split; [tauto|reflexivity]). }
    destruct Y as (u & -> & U & E). pose proof (unit_at _ _ u [] [] H U (Forall_nil _)) as X. rewrite E in X.
    pose proof (string_padded (parse_frequency finite f32) x [] (print (amount x) ++ u) [] (Forall_nil _) (Forall_nil _)) as S. rewrite app_nil_r in S. cbn [app] in S. apply S; [|rewrite app_nil_r in X; exact X].
    pose proof (number_ws' _ (proj1 H)) as Z. destruct (print (amount x)); [destruct Z|exact Z].
  Qed.
End Tally.
