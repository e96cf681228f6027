From Coq Require Import String List NArith ZArith Bool Arith Permutation Lia.
From Verif Require Import Chars ParseModel ParseSpec ParseProofs ParseProofs2 ListProofs ClockModel OnsetModel OnsetSpec OnsetProofs OnsetProofs2
  KeywordTable KeywordModel KeywordSpec KeywordProofs KeywordProofs2 FeatureProofs OrderModel OrderSpec.
Import ListNotations.

Lemma table_paint : table "Paint" = [("Stroke", "stroke"); ("Fill", "fill"); ("Markers", "markers")]%string.
Proof. reflexivity. Qed.
Lemma steps_table k x : In (k, x) steps <-> In (k, x) (table "Paint").
Proof. rewrite table_paint. unfold steps. cbn [In]. tauto. Qed.
Lemma step_word k x : In (k, x) steps -> keyword (lit x).
Proof. intros [E|[E|[E|[]]]]; injection E as <- <-; apply keyword_b_ok; reflexivity. Qed.
Lemma step_not_normal k x : In (k, x) steps -> text_eqb (lit x) (lit "normal") = false.
Proof. intros [E|[E|[E|[]]]]; injection E as <- <-; reflexivity. Qed.
Lemma paint_good : good (table "Paint").
Proof. rewrite table_paint. intros v k [E|[E|[E|[]]]]; injection E as <- <-; cbn; split; try reflexivity; eexists; reflexivity. Qed.

(** ** Reading *)
Lemma words_end n ps a : words n ps (at_ a []) = Ok ps (at_ a []).
Proof.
  destruct n as [|n]; [reflexivity|]. cbn [words]. unfold bind, ok, try_parse, parse_enum, bind, expect_ident, bind, cursor. rewrite read_end. reflexivity.
Qed.
Lemma words_read ks : forall n ps a t w, ks <> [] -> length ks <= n -> spelled xml_space ks t -> spaces w ->
  exists r q, words n ps (at_ a (t ++ w)) = Ok (ps ++ ks) (at_ q r) /\ spaces r.
Proof.
  induction ks as [|k ks IH]; intros n ps a t w NE L S W; [contradiction|]. destruct n as [|n]; [cbn in L; lia|]. cbn in L.
  cbn [spelled] in S. destruct S as (x & K & S). cbn [words]. unfold bind at 1, ok, try_parse.
  destruct ks as [|k' ks].
  - subst t. rewrite (enum_at a _ k x w paint_good); [|apply steps_table, K|apply (step_word k), K|apply spaces_end, W].
    unfold bind. pose proof (skip_spaces (a ++ lit x) w [] W I) as E. rewrite app_nil_r in E. rewrite E. rewrite words_end. exists [], ((a ++ lit x) ++ w). split; [reflexivity|constructor].
  - destruct S as (v & u & V & VN & S & ->). rewrite <- !app_assoc.
    rewrite (enum_at a _ k x _ paint_good); [|apply steps_table, K|apply (step_word k), K|apply spaces_end'; assumption].
    unfold bind. assert (H : match u ++ w with [] => True | c :: _ => is_whitespace c = false end).
    { cbn [spelled] in S. destruct S as (y & Y & S). pose proof (step_word k' y Y) as Q. assert (exists z, u = lit y ++ z) as [z ->] by (destruct ks; [exists []; rewrite app_nil_r; exact S|destruct S as (? & ? & _ & _ & _ & ->); eauto]).
      rewrite <- app_assoc. pose proof (keyword_head (lit y) (z ++ w) Q) as R. destruct (lit y ++ z ++ w); [exact I|exact R]. }
    rewrite skip_spaces; [|exact V|exact H].
    destruct (IH n (ps ++ [k]) ((a ++ lit x) ++ v) u w) as (r & q & E & R); [discriminate|cbn; cbn in L; lia|exact S|exact W|]. rewrite E, <- app_assoc. exists r, q. split; [reflexivity|exact R].
Qed.
Lemma spelled_steps sp ks : forall t, spelled sp ks t -> Forall (fun k => In k (map fst steps)) ks.
Proof.
  induction ks as [|k ks IH]; intros t S; [constructor|]. cbn [spelled] in S. destruct S as (x & K & S). constructor; [apply (in_map fst) in K; exact K|].
  destruct ks as [|k' ks]; [constructor|]. destruct S as (w & u & _ & _ & S & _). apply (IH u S).
Qed.
Lemma three ks : NoDup ks -> Forall (fun k => In k (map fst steps)) ks -> length ks <= 3.
Proof. intros N F. apply (NoDup_incl_length (l' := map fst steps) N). intros k K. rewrite Forall_forall in F. apply F, K. Qed.
(** The possible lists are few. *)
Definition lists : list (list string) :=
  let s := map fst steps in
  map (fun a => [a]) s ++ flat_map (fun a => map (fun b => [a; b]) s) s ++ flat_map (fun a => flat_map (fun b => map (fun c => [a; b; c]) s) s) s.
Lemma in_lists ks : ks <> [] -> length ks <= 3 -> Forall (fun k => In k (map fst steps)) ks -> In ks lists.
Proof.
  intros NE L F. destruct ks as [|a [|b [|c [|d ks]]]]; [contradiction| | | |cbn in L; lia]; unfold lists; rewrite !in_app_iff.
  - left. apply (in_map (fun a => [a])). inversion F. assumption.
  - right. left. inversion F as [|? ? A F']; subst. inversion F' as [|? ? B _]; subst. apply in_flat_map. exists a. split; [exact A|]. apply (in_map (fun b => [a; b])), B.
  - right. right. inversion F as [|? ? A F']; subst. inversion F' as [|? ? B F'']; subst. inversion F'' as [|? ? C _]; subst.
    apply in_flat_map. exists a. split; [exact A|]. apply in_flat_map. exists b. split; [exact B|]. apply (in_map (fun c => [a; b; c])), C.
Qed.
Fixpoint nodup_b (ks : list string) : bool := match ks with [] => true | k :: r => negb (existsb (String.eqb k) r) && nodup_b r end.
Lemma nodup_b_ok ks : nodup_b ks = true <-> NoDup ks.
Proof.
  induction ks as [|k ks IH]; cbn [nodup_b]; [split; [constructor|reflexivity]|]. rewrite andb_true_iff, IH, negb_true_iff. split.
  - intros [A B]. constructor; [|exact B]. intros X. assert (existsb (String.eqb k) ks = true) by (apply existsb_exists; exists k; split; [exact X|apply String.eqb_refl]). congruence.
  - intros X. inversion X as [|? ? A B]; subst. split; [|exact B]. destruct (existsb (String.eqb k) ks) eqn:E; [|reflexivity]. apply existsb_exists in E. destruct E as (y & Y & E). apply String.eqb_eq in E. subst y. contradiction.
Qed.
Definition list_eqb (a b : list string) : bool := if list_eq_dec string_dec a b then true else false.
Lemma lists_facts ks : In ks lists -> if nodup_b ks then complete ks = whole ks /\ (3 <? length (complete ks)) = false /\ Permutation (whole ks) (map fst steps) else (3 <? length (complete ks)) = true.
Proof.
  assert (P : forall a b c : string, Permutation [b; a; c] [a; b; c] /\ Permutation [a; c; b] [a; b; c] /\ Permutation [b; c; a] [a; b; c] /\ Permutation [c; a; b] [a; b; c] /\ Permutation [c; b; a] [a; b; c]).
  { intros a b c. split; [apply perm_swap|]. split; [apply perm_skip, perm_swap|]. split; [apply Permutation_sym; apply (Permutation_cons_append [b; c] a)|].
    split; [apply (Permutation_cons_append [a; b] c)|]. apply Permutation_sym, (Permutation_rev [a; b; c]). }
  unfold lists. cbn [map steps fst flat_map app In]. intros H. destruct (P "Fill" "Stroke" "Markers")%string as (P1 & P2 & P3 & P4 & P5). clear P.
  repeat (destruct H as [<-|H]; [vm_compute; first [reflexivity | split; [reflexivity|split; [reflexivity|first [assumption|reflexivity]]]]|]). destruct H.
Qed.
Lemma means_steps sp t v : means sp t v -> Permutation v (map fst steps).
Proof.
  intros [[_ ->]|(ks & NE & N & S & ->)]; [reflexivity|]. pose proof (spelled_steps sp ks t S) as F. pose proof (lists_facts ks (in_lists ks NE (three ks N F) F)) as X.
  apply nodup_b_ok in N. rewrite N in X. apply X.
Qed.
Theorem read_order s v t : means xml_space s v -> padded s t -> exists q, parse_string parse_order t = Ok v q.
Proof.
  intros [[-> ->]|(ks & NE & N & S & ->)] (a & w & A & W & ->).
  - apply string_padded; [exact A|exact W|reflexivity|]. unfold parse_order, bind, ok, try_parse, expect_ident_matching, bind.
    rewrite ident_at; [reflexivity|apply keyword_b_ok; reflexivity|apply spaces_end, W].
  - pose proof (spelled_steps _ ks s S) as F. pose proof (three ks N F) as L. pose proof (lists_facts ks (in_lists ks NE L F)) as X.
    apply nodup_b_ok in N. rewrite N in X. destruct X as (C & T & _). rewrite C in T.
    destruct (words_read ks 3 [] a s w NE L S W) as (r & q & E & R).
    assert (NN : ok (try_parse (expect_ident_matching (lit "normal"))) (at_ a (s ++ w)) = Ok None (at_ a (s ++ w)) /\ match s ++ w with [] => True | c :: _ => is_whitespace c = false end).
    { destruct ks as [|k ks]; [contradiction|]. cbn [spelled] in S. destruct S as (x & K & S).
      assert (exists z, s ++ w = lit x ++ z /\ name_end z) as (z & -> & Z).
      { destruct ks; [subst s; exists w; split; [reflexivity|apply spaces_end, W]|]. destruct S as (v & u & V & VN & _ & ->). exists (v ++ u ++ w). rewrite <- !app_assoc. split; [reflexivity|apply spaces_end'; assumption]. }
      split; [|pose proof (keyword_head (lit x) z (step_word k x K)) as Q; destruct (lit x ++ z); [exact I|exact Q]].
      unfold ok, try_parse, expect_ident_matching, bind. rewrite (ident_at a _ z (step_word k x K) Z). rewrite (step_not_normal k x K). unfold fail. cbn [at_ p_input p_cursor]. unfold at_. rewrite <- app_assoc. reflexivity. }
    destruct NN as [NN H]. unfold parse_string, bind. change (new (a ++ s ++ w)) with (at_ [] (a ++ s ++ w)). rewrite skip_spaces; [|exact A|exact H]. cbn [app].
    unfold parse_order, bind. rewrite NN, E. cbn [app]. destruct ks as [|k ks]; [contradiction|]. cbv zeta. rewrite C, T. unfold ret.
    pose proof (skip_spaces q r [] R I) as E2. rewrite app_nil_r in E2. rewrite E2. rewrite done_at. eexists. reflexivity.
Qed.

(** ** Nothing else *)
Lemma try_word a b o q : ok (try_parse (parse_enum (table "Paint"))) (at_ a b) = Ok o q ->
  (o = None /\ q = at_ a b) \/ exists k x r, o = Some k /\ In (k, x) steps /\ b = lit x ++ r /\ name_end r /\ q = at_ (a ++ lit x) r.
Proof.
  unfold ok, try_parse, parse_enum, bind. destruct (head_cases b) as [S|(w & r & -> & W & R)].
  - destruct (ident_stuck a b S) as [(e & p & -> & Q)|(-> & _)]; [|discriminate]. intros E. injection E as <- <-. left. split; [reflexivity|]. rewrite Q. reflexivity.
  - rewrite (ident_word a w r W R). destruct (find _ _) as [[k x]|] eqn:D.
    + cbn [fst]. unfold ret. intros E. injection E as <- <-. apply find_some in D. destruct D as [I D]. cbn [snd] in D. apply text_eqb_spec in D. subst w.
      right. exists k, x, r. split; [reflexivity|]. split; [apply steps_table, I|]. auto.
    + unfold fail. intros E. injection E as <- <-. left. split; [reflexivity|]. cbn [at_ p_input p_cursor]. unfold at_. rewrite <- app_assoc. reflexivity.
Qed.
Lemma words_only n : forall ps a b l q, words n ps (at_ a b) = Ok l q ->
  exists ks, l = ps ++ ks /\ length ks <= n /\
  ((ks = [] /\ q = at_ a b) \/ exists s w r, spelled white ks s /\ Forall white w /\ ks <> [] /\ b = s ++ w ++ r /\ q = at_ (a ++ s ++ w) r).
Proof.
  induction n as [|n IH]; intros ps a b l q E.
  - unfold words, ret in E. injection E as <- <-. exists []. rewrite app_nil_r. split; [reflexivity|]. split; [constructor|]. left. auto.
  - cbn [words] in E. unfold bind at 1 in E. destruct (ok _ _) as [o p|? ?| |] eqn:T; try discriminate. apply try_word in T.
    destruct T as [[-> ->]|(k & x & r & -> & K & -> & R & ->)].
    + unfold ret in E. injection E as <- <-. exists []. rewrite app_nil_r. split; [reflexivity|]. split; [cbn; lia|]. left. auto.
    + unfold bind, skip_whitespace in E. rewrite skip_matches_at in E. apply IH in E. destruct E as (ks & -> & L & X).
      exists (k :: ks). rewrite <- app_assoc. split; [reflexivity|]. split; [cbn; lia|]. right.
      destruct X as [[-> ->]|(s & w & r' & S & W & NE & D & ->)].
      * exists (lit x), (take_while is_whitespace r), (drop_while is_whitespace r). split; [exists x; auto|]. split; [apply take_all|]. split; [discriminate|].
        rewrite take_drop. split; [reflexivity|]. rewrite <- app_assoc. reflexivity.
      * exists (lit x ++ take_while is_whitespace r ++ s), w, r'. split; [|split; [exact W|split; [discriminate|split]]].
        -- cbn [spelled]. exists x. split; [exact K|]. destruct ks as [|k' ks]; [contradiction|]. exists (take_while is_whitespace r), s.
           split; [apply take_all|]. split; [|split; [exact S|reflexivity]]. intros Z. pose proof (take_drop is_whitespace r) as TD. rewrite Z, D in TD. cbn [app] in TD. subst r.
           cbn [spelled] in S. destruct S as (y & Y & S). pose proof (step_word k' y Y) as Q. assert (exists z, s = lit y ++ z) as [z ->] by (destruct ks; [exists []; rewrite app_nil_r; exact S|destruct S as (? & ? & _ & _ & _ & ->); eauto]).
           destruct Y as [Y|[Y|[Y|[]]]]; injection Y as <- <-; vm_compute in R; discriminate.
        -- rewrite <- !app_assoc, <- D, take_drop. reflexivity.
        -- rewrite <- !app_assoc. reflexivity.
Qed.
Theorem only_order t v q : parse_string parse_order t = Ok v q ->
  exists s, means white s v /\ padded_any s t.
Proof.
  intros E. apply string_only in E. destruct E as (a & b & -> & A & p & E & R). unfold parse_order in E. unfold bind at 1 in E.
  destruct (ok (try_parse (expect_ident_matching (lit "normal"))) (at_ a b)) as [o p'|? ?| |] eqn:T; try discriminate.
  assert (X : (o = None /\ p' = at_ a b) \/ (exists r, o = Some tt /\ b = lit "normal" ++ r /\ p' = at_ (a ++ lit "normal") r)).
  { unfold ok, try_parse, expect_ident_matching, bind in T. destruct (head_cases b) as [S|(w & r & -> & W & RE)].
    - destruct (ident_stuck a b S) as [(e & z & Z & Q)|(Z & _)]; rewrite Z in T; [|discriminate]. injection T as <- <-. left. split; [reflexivity|]. rewrite Q. reflexivity.
    - rewrite (ident_word a w r W RE) in T. destruct (text_eqb w (lit "normal")) eqn:D.
      + apply text_eqb_spec in D. subst w. unfold ret in T. injection T as <- <-. right. exists r. auto.
      + unfold fail in T. injection T as <- <-. left. split; [reflexivity|]. cbn [at_ p_input p_cursor]. unfold at_. rewrite <- app_assoc. reflexivity. }
  destruct X as [[-> ->]|(r & -> & -> & ->)].
  - unfold bind in E. destruct (words 3 [] (at_ a b)) as [l p'|? ?| |] eqn:W; try discriminate. apply words_only in W. destruct W as (ks & -> & L & X). cbn [app] in E.
    destruct X as [[-> ->]|(s & w & r & S & W & NE & -> & ->)]; [discriminate|]. pose proof (spelled_steps _ ks s S) as F. pose proof (lists_facts ks (in_lists ks NE L F)) as X.
    destruct ks as [|k ks]; [contradiction|]. cbv zeta in E. destruct (nodup_b (k :: ks)) eqn:N.
    + destruct X as (C & T3 & _). rewrite C in T3. rewrite C, T3 in E. unfold ret in E. injection E as <- <-. exists s. split.
      * right. exists (k :: ks). split; [discriminate|]. split; [apply nodup_b_ok, N|]. auto.
      * exists a, (w ++ r). split; [exact A|]. split; [apply Forall_app; split; [exact W|apply (R _ _ eq_refl)]|reflexivity].
    + rewrite X in E. discriminate.
  - unfold ret in E. injection E as <- <-. exists (lit "normal"). split; [left; auto|]. exists a, r. split; [exact A|]. split; [apply (R _ _ eq_refl)|reflexivity].
Qed.
(** ** Writing *)
Theorem order_back v : Permutation v (map fst steps) -> exists t, print_order v = Some t /\ means xml_space t v /\ exists q, parse_string parse_order t = Ok v q.
Proof.
  intros P. assert (N : NoDup v) by (apply (Permutation_NoDup (Permutation_sym P)), nodup_b_ok; reflexivity).
  assert (F : Forall (fun k => In k (map fst steps)) v) by (apply Forall_forall; intros k K; apply (Permutation_in k P K)).
  pose proof (Permutation_length P) as L. cbn in L. destruct v as [|a [|b [|c [|d v]]]]; try discriminate.
  assert (M : forall x y z : string, forall X Y Z : string, In (x, X) steps -> In (y, Y) steps -> In (z, Z) steps -> NoDup [x; y; z] -> means xml_space (lit X ++ [32%N] ++ lit Y ++ [32%N] ++ lit Z) [x; y; z]).
  { intros x y z X Y Z IX IY IZ ND. right. exists [x; y; z]. split; [discriminate|]. split; [exact ND|]. split.
    - exists X. split; [exact IX|]. exists [32%N], (lit Y ++ [32%N] ++ lit Z). split; [repeat constructor|]. split; [discriminate|]. split; [|reflexivity].
      exists Y. split; [exact IY|]. exists [32%N], (lit Z). split; [repeat constructor|]. split; [discriminate|]. split; [|reflexivity]. exists Z. auto.
    - unfold whole. assert (G : forall k, In k (map fst steps) -> existsb (String.eqb k) [x; y; z] = true).
      { intros k K. apply existsb_exists. exists k. split; [|apply String.eqb_refl]. apply (NoDup_length_incl (l' := map fst steps) ND); [cbn; lia| |exact K].
        intros j [<-|[<-|[<-|[]]]]; [apply (in_map fst) in IX; exact IX|apply (in_map fst) in IY; exact IY|apply (in_map fst) in IZ; exact IZ]. }
      cbn [steps map fst filter]. rewrite !G by (cbn; tauto). reflexivity. }
  assert (T : exists t, print_order [a; b; c] = Some t /\ means xml_space t [a; b; c]).
  { inversion F as [|? ? A F1]; subst. inversion F1 as [|? ? B F2]; subst. inversion F2 as [|? ? C _]; subst. apply in_map_iff in A. apply in_map_iff in B. apply in_map_iff in C.
    destruct A as ([a' A] & <- & IA). destruct B as ([b' B] & <- & IB). destruct C as ([c' C] & <- & IC). cbn [fst] in *. unfold print_order.
    destruct (is_normal [a'; b'; c']) eqn:NO.
    - exists (lit "normal"). split; [reflexivity|]. left. split; [reflexivity|]. unfold is_normal in NO. cbn [nth_error] in NO. apply andb_prop in NO. destruct NO as [NO N3]. apply andb_prop in NO. destruct NO as [N1 N2].
      apply String.eqb_eq in N1, N2, N3. subst. reflexivity.
    - rewrite (enum_print _ a' A paint_good (proj1 (steps_table _ _) IA)), (enum_print _ b' B paint_good (proj1 (steps_table _ _) IB)), (enum_print _ c' C paint_good (proj1 (steps_table _ _) IC)).
      eexists. split; [reflexivity|]. apply M; assumption. }
  destruct T as (t & T & ME). exists t. split; [exact T|]. split; [exact ME|]. apply (read_order t _ t ME). exists [], []. split; [constructor|]. split; [constructor|]. rewrite app_nil_r. reflexivity.
Qed.
Theorem order_whole t v q : parse_string parse_order t = Ok v q -> Permutation v (map fst steps) /\ exists u, print_order v = Some u.
Proof.
  intros E. apply only_order in E. destruct E as (s & M & _). apply means_steps in M. split; [exact M|]. destruct (order_back v M) as (u & U & _). eauto.
Qed.
