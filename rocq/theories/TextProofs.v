From Coq Require Import String List NArith Bool Arith Lia.
From Verif Require Import Chars TextModel TextSpec.
Import ListNotations.

(** ** Positions *)
Lemma rposition_spec l : match rposition (fun c => N.eqb c 10) l with
  | Some i => exists a b, l = a ++ 10%N :: b /\ List.length a = i /\ ~ In 10%N b
  | None => ~ In 10%N l end.
Proof.
  induction l as [|c l IH]; cbn [rposition]; [intros []|]. destruct (rposition _ l) as [i|].
  - destruct IH as (a & b & -> & L & N). exists (c :: a), b. simpl. auto.
  - destruct (N.eqb_spec c 10) as [->|D].
    + exists [], l. auto.
    + intros [E|E]; [congruence|auto].
Qed.
Lemma bytecount_occ c l : bytecount c l = count_occ N.eq_dec l c.
Proof.
  induction l as [|x l IH]; [reflexivity|]. cbn [bytecount count_occ]. rewrite IH.
  destruct (N.eq_dec x c) as [->|D]; [rewrite N.eqb_refl; reflexivity|]. apply N.eqb_neq in D. rewrite D. reflexivity.
Qed.

Lemma line_col_position source cursor : cursor <= List.length source ->
  exists line col, to_line_and_col cursor source = Some (line, col) /\ position source cursor line col.
Proof.
  intros L. unfold to_line_and_col. destruct (Nat.ltb_spec (List.length source) cursor) as [X|_]; [lia|].
  pose proof (rposition_spec (firstn cursor source)) as R.
  pose proof (firstn_skipn cursor source) as FS. assert (FL : List.length (firstn cursor source) = cursor) by (apply firstn_length_le; auto).
  set (p := firstn cursor source) in *. set (q := skipn cursor source) in *.
  destruct (rposition _ p) as [i|].
  - destruct R as (a & b & E & LA & NB). exists (bytecount 10 (firstn (i + 1) source)), (cursor - (i + 1)).
    split; [reflexivity|]. exists (a ++ [10%N]), b, q.
    assert (LE : List.length (a ++ [10%N]) = i + 1) by (rewrite app_length; simpl; lia).
    assert (LP : List.length p = i + 1 + List.length b) by (rewrite E, app_length; simpl; lia).
    split; [rewrite <- FS, E, <- !app_assoc; reflexivity|]. split; [rewrite app_length, LE; lia|].
    split; [right; exists a; reflexivity|]. split; [exact NB|]. split; [|lia].
    rewrite bytecount_occ. f_equal. rewrite <- FS, E.
    replace ((a ++ 10%N :: b) ++ q) with ((a ++ [10%N]) ++ b ++ q) by (rewrite <- !app_assoc; reflexivity).
    rewrite firstn_app, <- LE, Nat.sub_diag, firstn_all, firstn_O, app_nil_r. reflexivity.
  - exists (bytecount 10 (firstn 0 source)), (cursor - 0). split; [reflexivity|]. exists [], p, q.
    split; [symmetry; exact FS|]. split; [exact FL|]. split; [left; auto|]. split; [exact R|]. split; [reflexivity|lia].
Qed.

Lemma count_no c (l : list N) : ~ In c l -> count_occ N.eq_dec l c = 0.
Proof. intros H. apply count_occ_not_In. exact H. Qed.

Lemma position_cmp source c1 l1 k1 c2 l2 k2 : position source c1 l1 k1 -> position source c2 l2 k2 -> c1 < c2 ->
  position_lt (l1, k1) (l2, k2).
Proof.
  intros (b1 & s1 & r1 & E1 & C1 & H1 & N1 & L1 & K1) (b2 & s2 & r2 & E2 & C2 & H2 & N2 & L2 & K2) LT.
  unfold position_lt. cbn [fst snd].
  destruct (le_lt_dec (List.length b2) (List.length b1)) as [LE|LE].
  - (* same line *)
    assert (EB : b1 = b2).
    { destruct (le_lt_dec (List.length b1) (List.length b2)) as [LE'|LE'].
      - assert (List.length b1 = List.length b2) by lia.
        rewrite E1 in E2. apply (f_equal (firstn (List.length b1))) in E2.
        rewrite firstn_app, Nat.sub_diag, firstn_all, firstn_O, app_nil_r in E2.
        rewrite H, firstn_app, Nat.sub_diag, firstn_all, firstn_O, app_nil_r in E2. exact E2.
      - exfalso. destruct H1 as [->|(b & ->)]; [simpl in LE'; lia|].
        rewrite app_length in C1, C2. rewrite E1 in E2.
        assert (IN : In 10%N s2); [|contradiction].
        assert (P : exists t, b ++ [10%N] = b2 ++ t /\ t <> []).
        { exists (skipn (List.length b2) (b ++ [10%N])). split.
          - rewrite <- (firstn_skipn (List.length b2) (b ++ [10%N])) at 1. f_equal.
            apply (f_equal (firstn (List.length b2))) in E2. rewrite !firstn_app in E2.
            replace (List.length b2 - List.length (b ++ [10%N])) with 0 in E2 by lia. rewrite firstn_O, app_nil_r in E2.
            rewrite ?Nat.sub_diag, ?firstn_all, ?firstn_O, ?app_nil_r in E2. rewrite ?firstn_app. exact E2.
          - intros X. apply (f_equal (@List.length N)) in X. rewrite skipn_length in X. simpl in X. lia. }
        destruct P as (t & PT & NT). destruct (exists_last NT) as (t' & x & ->).
        rewrite app_assoc in PT. apply app_inj_tail in PT. destruct PT as [-> <-].
        rewrite <- !app_assoc in E2. apply app_inv_head in E2.
        assert (LS : List.length t' < List.length s2). { rewrite !app_length in *. simpl in *. lia. }
        apply (f_equal (fun l => nth_error l (List.length t'))) in E2.
        rewrite nth_error_app2, Nat.sub_diag in E2 by lia. simpl in E2.
        rewrite nth_error_app1 in E2 by exact LS. symmetry in E2. apply nth_error_In in E2. exact E2. }
    subst b2. rewrite app_length in C1, C2. right. lia.
  - left. destruct H2 as [->|(b & ->)]; [simpl in LE; lia|].
    assert (P : exists t, b = b1 ++ t).
    { rewrite E1 in E2. rewrite app_length in LE. simpl in LE. exists (skipn (List.length b1) b).
      rewrite <- (firstn_skipn (List.length b1) b) at 1. f_equal.
      apply (f_equal (firstn (List.length b1))) in E2. rewrite <- app_assoc in E2. rewrite !firstn_app in E2.
      replace (List.length b1 - List.length b) with 0 in E2 by lia. rewrite !firstn_O, app_nil_r in E2.
      rewrite Nat.sub_diag, firstn_all, firstn_O, app_nil_r in E2. symmetry. exact E2. }
    destruct P as (t & ->). rewrite !count_occ_app in L2. cbn in L2. lia.
Qed.

Lemma position_unique source c l1 k1 l2 k2 : position source c l1 k1 -> position source c l2 k2 -> l1 = l2 /\ k1 = k2.
Proof.
  intros (b1 & s1 & r1 & E1 & C1 & H1 & N1 & L1 & K1) (b2 & s2 & r2 & E2 & C2 & H2 & N2 & L2 & K2).
  assert (ES : b1 ++ s1 = b2 ++ s2).
  { rewrite E1 in E2. rewrite !app_assoc in E2. apply (f_equal (firstn c)) in E2.
    assert (H : forall x y : list N, List.length x = c -> firstn c (x ++ y) = x).
    { intros x y <-. rewrite firstn_app, Nat.sub_diag, firstn_all, firstn_O, app_nil_r. reflexivity. }
    rewrite !H in E2 by assumption. exact E2. }
  assert (G : forall b1 s1 b2 s2 : list N, b1 ++ s1 = b2 ++ s2 -> (b1 = [] \/ exists b, b1 = b ++ [10%N]) -> ~ In 10%N s2 -> List.length b1 <= List.length b2).
  { clear. intros b1 s1 b2 s2 E H N. destruct H as [->|(b & ->)]; [simpl; lia|].
    destruct (le_lt_dec (List.length (b ++ [10%N])) (List.length b2)) as [|LT]; [auto|]. exfalso. apply N.
    rewrite <- app_assoc in E. rewrite app_length in LT. simpl in LT.
    apply (f_equal (fun l => nth_error l (List.length b))) in E. rewrite nth_error_app2, Nat.sub_diag in E by lia. simpl in E.
    rewrite nth_error_app2 in E by lia. symmetry in E. apply nth_error_In in E. exact E. }
  assert (LB : List.length b1 = List.length b2) by (apply Nat.le_antisymm; [apply (G b1 s1 b2 s2)|apply (G b2 s2 b1 s1)]; auto).
  assert (b1 = b2) as ->.
  { apply (f_equal (firstn (List.length b1))) in ES. rewrite firstn_app, Nat.sub_diag, firstn_all, firstn_O, app_nil_r in ES.
    rewrite LB, firstn_app, Nat.sub_diag, firstn_all, firstn_O, app_nil_r in ES. exact ES. }
  apply app_inv_head in ES. subst. auto.
Qed.

Lemma line_col_exact source cursor line col :
  to_line_and_col cursor source = Some (line, col) <-> position source cursor line col.
Proof.
  split.
  - intros E. destruct (le_lt_dec cursor (List.length source)) as [L|L].
    + destruct (line_col_position source cursor L) as (l & k & E' & P). rewrite E in E'. injection E' as -> ->. exact P.
    + unfold to_line_and_col in E. destruct (Nat.ltb_spec (List.length source) cursor); [discriminate|lia].
  - intros P. assert (L : cursor <= List.length source).
    { destruct P as (b & s & r & -> & C & _). rewrite !app_length in *. lia. }
    destruct (line_col_position source cursor L) as (l & k & E & P'). rewrite E.
    destruct (position_unique _ _ _ _ _ _ P P') as [-> ->]. reflexivity.
Qed.
Lemma line_col_order source c1 c2 p1 p2 : to_line_and_col c1 source = Some p1 -> to_line_and_col c2 source = Some p2 ->
  c1 < c2 -> position_lt p1 p2.
Proof.
  destruct p1 as [l1 k1], p2 as [l2 k2]. rewrite !line_col_exact. intros. eapply position_cmp; eauto.
Qed.
Lemma line_col_panic source cursor : to_line_and_col cursor source = None <-> List.length source < cursor.
Proof. unfold to_line_and_col. destruct (Nat.ltb_spec (List.length source) cursor); split; auto; try discriminate; lia. Qed.

(** ** Words *)
Lemma words_from_spec s : forall cur, Forall (fun c => ~ white c) cur ->
  match words_from cur s with
  | ws => forall pre, Forall white pre -> words_of (pre ++ rev cur ++ s) ws
  end.
Proof.
  induction s as [|c s IH]; intros cur C; cbn [words_from].
  - intros pre P. rewrite app_nil_r. destruct cur as [|x cur].
    + rewrite app_nil_r. constructor. exact P.
    + constructor; [exact P|]. split; [|apply Forall_rev; exact C].
      intros E. apply (f_equal (@List.length N)) in E. rewrite rev_length in E. discriminate.
  - destruct (is_whitespace c) eqn:W.
    + destruct cur as [|x cur].
      * intros pre P. cbn [rev app]. specialize (IH [] (Forall_nil _)). cbv zeta beta in IH. cbn [rev app] in IH.
        replace (pre ++ c :: s) with ((pre ++ [c]) ++ s) by (rewrite <- app_assoc; reflexivity).
        apply IH. apply Forall_app. split; [exact P|]. constructor; [exact W|constructor].
      * intros pre P. apply words_cons; [exact P| |exact W|].
        -- split; [|apply Forall_rev; exact C]. intros E. apply (f_equal (@List.length N)) in E. rewrite rev_length in E. discriminate.
        -- specialize (IH [] (Forall_nil _) [c]). cbn [rev app] in IH. apply IH. constructor; [exact W|constructor].
    + intros pre P. specialize (IH (c :: cur)).
      replace (pre ++ rev cur ++ c :: s) with (pre ++ rev (c :: cur) ++ s) by (cbn [rev]; rewrite <- app_assoc; reflexivity).
      apply IH; [|exact P]. constructor; [|exact C]. unfold white. rewrite W. discriminate.
Qed.
Lemma split_words s : words_of s (split_whitespace s).
Proof. apply (words_from_spec s [] (Forall_nil _) [] (Forall_nil _)). Qed.

Lemma words_from_white pre s : Forall white pre -> words_from [] (pre ++ s) = words_from [] s.
Proof. induction 1 as [|c pre W F IH]; cbn [app words_from]; [reflexivity|]. unfold white in W. rewrite W. exact IH. Qed.
Lemma words_from_solid w s cur : Forall (fun c => ~ white c) w -> words_from cur (w ++ s) = words_from (rev w ++ cur) s.
Proof.
  revert cur. induction w as [|c w IH]; intros cur F; [reflexivity|]. inversion F as [|? ? C F']; subst. cbn [app words_from rev].
  assert (is_whitespace c = false) as -> by (unfold white in C; destruct (is_whitespace c); congruence).
  rewrite IH by exact F'. rewrite <- app_assoc. reflexivity.
Qed.
Lemma words_of_split s ws : words_of s ws -> split_whitespace s = ws.
Proof.
  unfold split_whitespace. induction 1 as [s W|a w A [NE S]|a w c s ws A [NE S] C H IH].
  - rewrite <- (app_nil_r s). rewrite words_from_white by exact W. reflexivity.
  - rewrite words_from_white by exact A. rewrite <- (app_nil_r w) at 1. rewrite words_from_solid by exact S.
    cbn [words_from]. rewrite app_nil_r. destruct (rev w) eqn:E.
    + apply (f_equal (@rev N)) in E. rewrite rev_involutive in E. contradiction.
    + rewrite <- E, rev_involutive. reflexivity.
  - rewrite words_from_white by exact A. rewrite words_from_solid by exact S. rewrite app_nil_r.
    cbn [words_from] in *. unfold white in C. rewrite C in *. destruct (rev w) eqn:E.
    + apply (f_equal (@rev N)) in E. rewrite rev_involutive in E. contradiction.
    + rewrite <- E, rev_involutive, IH. reflexivity.
Qed.

Lemma words_from_map s : forall cur, words_from cur (replace_newlines s) = words_from cur s.
Proof.
  unfold replace_newlines. induction s as [|c s IH]; intros cur; [reflexivity|]. cbn [map words_from].
  destruct (N.eqb_spec c 10) as [->|D].
  - change (is_whitespace 32) with true. change (is_whitespace 10) with true. cbn iota. rewrite IH. reflexivity.
  - rewrite !IH. reflexivity.
Qed.

Lemma trim_start_app s : exists a, s = a ++ trim_start s /\ Forall white a.
Proof.
  induction s as [|c s (a & E & F)]; [exists []; auto|]. cbn [trim_start]. destruct (is_whitespace c) eqn:W.
  - exists (c :: a). rewrite E at 1. split; [reflexivity|constructor; auto].
  - exists []. auto.
Qed.
Lemma trim_start_head s : match trim_start s with [] => True | c :: _ => is_whitespace c = false end.
Proof. induction s as [|c s IH]; cbn [trim_start]; [exact I|]. destruct (is_whitespace c) eqn:W; auto. Qed.
Lemma trim_str_app s : exists a b, s = a ++ trim_str s ++ b /\ Forall white a /\ Forall white b.
Proof.
  unfold trim_str. destruct (trim_start_app s) as (a & E & F).
  destruct (trim_start_app (rev (trim_start s))) as (b & E' & F').
  exists a, (rev b). split; [|split; [exact F|apply Forall_rev, F']].
  rewrite E at 1. f_equal. apply (f_equal (@rev N)) in E'. rewrite rev_involutive, rev_app_distr in E'. exact E'.
Qed.
Lemma trim_str_last s c t : trim_str s = t ++ [c] -> is_whitespace c = false.
Proof.
  unfold trim_str. intros E. apply (f_equal (@rev N)) in E. rewrite rev_involutive, rev_app_distr in E. cbn [rev app] in E.
  pose proof (trim_start_head (rev (trim_start s))) as H. rewrite E in H. exact H.
Qed.
Lemma trim_str_head s c t : trim_str s = c :: t -> is_whitespace c = false.
Proof.
  intros E. unfold trim_str in E. pose proof (trim_start_head s) as H.
  destruct (trim_start_app (rev (trim_start s))) as (b & E' & F').
  apply (f_equal (@rev N)) in E'. rewrite rev_involutive, rev_app_distr in E'. rewrite E in E'. rewrite E' in H. exact H.
Qed.

Lemma words_from_tail b : Forall white b -> forall s cur, words_from cur (s ++ b) = words_from cur s.
Proof.
  intros B. induction s as [|c s IH]; intros cur.
  - cbn [app]. destruct b as [|c b]; [reflexivity|]. inversion B as [|? ? W B']; subst. cbn [words_from]. unfold white in W. rewrite W.
    assert (E : words_from [] b = []). { rewrite <- (app_nil_r b). rewrite words_from_white by exact B'. reflexivity. }
    rewrite E. destruct cur; reflexivity.
  - cbn [app words_from]. rewrite !IH. reflexivity.
Qed.
Lemma words_trim s : split_whitespace (trim_str s) = split_whitespace s.
Proof.
  destruct (trim_str_app s) as (a & b & E & A & B). unfold split_whitespace. rewrite E at 2.
  rewrite words_from_white by exact A. rewrite words_from_tail by exact B. reflexivity.
Qed.

Lemma words_of_solid s ws : words_of s ws -> Forall solid ws.
Proof. induction 1; constructor; auto. Qed.
Lemma join_words ws : Forall solid ws -> words_of (join_space ws) ws.
Proof.
  induction ws as [|w ws IH]; intros F; [constructor; constructor|]. inversion F as [|? ? S F']; subst.
  destruct ws as [|w' ws]; [apply (words_last [] w); [constructor|exact S]|].
  cbn [join_space]. apply (words_cons [] w); [constructor|exact S|reflexivity|].
  assert (G : forall t l, words_of t l -> words_of (32%N :: t) l).
  { clear. intros t l H. inversion H as [s A|a x A S|a x c s l' A S C H']; subst.
    - constructor. constructor; [reflexivity|exact A].
    - change (32%N :: a ++ x) with ((32%N :: a) ++ x). constructor; [|exact S]. constructor; [reflexivity|exact A].
    - change (32%N :: a ++ x ++ c :: s) with ((32%N :: a) ++ x ++ c :: s). constructor; auto. constructor; [reflexivity|exact A]. }
  apply G, IH, F'.
Qed.
Lemma split_join s : split_whitespace (join_space (split_whitespace s)) = split_whitespace s.
Proof. apply words_of_split, join_words. eapply words_of_solid, split_words. Qed.

Lemma clean_split o s : split_whitespace (clean_value o s) = split_whitespace s.
Proof.
  unfold clean_value. set (s1 := if newlines o then replace_newlines s else s).
  assert (E1 : split_whitespace s1 = split_whitespace s) by (unfold s1; destruct (newlines o); [apply words_from_map|reflexivity]).
  set (s2 := if trim o then trim_str s1 else s1).
  assert (E2 : split_whitespace s2 = split_whitespace s) by (unfold s2; destruct (trim o); [rewrite words_trim|]; exact E1).
  destruct (spaces o); [rewrite split_join|]; exact E2.
Qed.
Lemma clean_words o s ws : words_of s ws <-> words_of (clean_value o s) ws.
Proof.
  split; intros H; apply words_of_split in H.
  - rewrite <- H, <- (clean_split o s). apply split_words.
  - rewrite clean_split in H. rewrite <- H. apply split_words.
Qed.

Lemma replace_idem s : replace_newlines (replace_newlines s) = replace_newlines s.
Proof.
  unfold replace_newlines. rewrite map_map. apply map_ext. intros c. destruct (N.eqb_spec c 10) as [->|D]; [reflexivity|].
  apply N.eqb_neq in D. rewrite D. reflexivity.
Qed.
Lemma replace_none s : ~ In 10%N s -> replace_newlines s = s.
Proof.
  unfold replace_newlines. intros H. rewrite <- map_id. apply map_ext_in. intros c C. destruct (N.eqb_spec c 10) as [->|]; [contradiction|reflexivity].
Qed.
Lemma replace_no_newline s : ~ In 10%N (replace_newlines s).
Proof. unfold replace_newlines. rewrite in_map_iff. intros (c & E & _). destruct (N.eqb_spec c 10); [discriminate|congruence]. Qed.
Lemma trim_sub s c : In c (trim_str s) -> In c s.
Proof. destruct (trim_str_app s) as (a & b & E & _). intros H. rewrite E, !in_app_iff. auto. Qed.

Definition ends_ok (s : text) : Prop :=
  (forall c t, s = c :: t -> is_whitespace c = false) /\ (forall c t, s = t ++ [c] -> is_whitespace c = false).
Lemma trim_id s : ends_ok s -> trim_str s = s.
Proof.
  intros [H L]. unfold trim_str. assert (E : trim_start s = s). { destruct s as [|c s]; [reflexivity|]. cbn [trim_start]. rewrite (H c s eq_refl). reflexivity. }
  rewrite E. assert (E' : trim_start (rev s) = rev s).
  { destruct (rev s) as [|c r] eqn:R; [reflexivity|]. cbn [trim_start]. apply (f_equal (@rev N)) in R. rewrite rev_involutive in R. cbn [rev] in R.
    rewrite (L c (rev r) R). reflexivity. }
  rewrite E'. apply rev_involutive.
Qed.
Lemma trim_ends s : ends_ok (trim_str s).
Proof. split; intros c t E; [eapply trim_str_head|eapply trim_str_last]; eauto. Qed.

Lemma join_cons w w' ws : join_space (w :: w' :: ws) = w ++ 32%N :: join_space (w' :: ws).
Proof. reflexivity. Qed.
Lemma not_white c : ~ white c -> is_whitespace c = false.
Proof. unfold white. destruct (is_whitespace c); congruence. Qed.
Lemma join_chars ws c : In c (join_space ws) -> c = 32%N \/ exists w, In w ws /\ In c w.
Proof.
  induction ws as [|w ws IH]; intros H; [destruct H|]. destruct ws as [|w' ws].
  - right. exists w. split; [left; auto|exact H].
  - cbn [join_space] in H. rewrite in_app_iff in H. destruct H as [H|[<-|H]]; [right; exists w; split; [left; auto|exact H]|auto|].
    destruct (IH H) as [E|(x & X & C)]; [auto|]. right. exists x. split; [right; exact X|exact C].
Qed.
Lemma join_chars_white ws c : Forall solid ws -> In c (join_space ws) -> white c -> c = 32%N.
Proof.
  intros F H W. destruct (join_chars ws c H) as [E|(w & I & C)]; [exact E|]. exfalso.
  rewrite Forall_forall in F. destruct (F w I) as [_ S]. rewrite Forall_forall in S. exact (S c C W).
Qed.
Lemma join_ends ws : Forall solid ws -> ends_ok (join_space ws).
Proof.
  induction ws as [|w ws IH]; intros F; [split; intros c t E; destruct t; discriminate|].
  inversion F as [|? ? [NE S] F']; subst. specialize (IH F'). rewrite Forall_forall in S.
  assert (W1 : forall c t, w = c :: t -> is_whitespace c = false) by (intros c t ->; apply not_white, S; left; auto).
  assert (W2 : forall c t, w = t ++ [c] -> is_whitespace c = false) by (intros c t ->; apply not_white, S; apply in_app_iff; right; left; auto).
  destruct ws as [|w' ws]; [split; auto|]. rewrite join_cons. split; intros c t E.
  - destruct w as [|x w]; [contradiction|]. injection E as <- _. eapply W1. reflexivity.
  - set (j := join_space (w' :: ws)) in *.
    assert (NJ : j <> []).
    { unfold j. inversion F' as [|? ? [NE' _] _]; subst. destruct ws; cbn [join_space]; [exact NE'|]. destruct w'; [contradiction|discriminate]. }
    destruct (exists_last NJ) as (j' & x & EJ). rewrite EJ in E.
    replace (w ++ 32%N :: j' ++ [x]) with ((w ++ 32%N :: j') ++ [x]) in E by (rewrite <- app_assoc; reflexivity).
    apply app_inj_tail in E. destruct E as [_ <-]. destruct IH as [_ IH]. eapply IH. exact EJ.
Qed.

Lemma clean_idempotent o s : clean_value o (clean_value o s) = clean_value o s.
Proof.
  destruct (spaces o) eqn:SP.
  - assert (E : clean_value o s = join_space (split_whitespace s)).
    { pose proof (clean_split (CleanupAttrs (newlines o) (trim o) false) s) as C. unfold clean_value in *. cbn [newlines trim spaces] in C. rewrite SP, C. reflexivity. }
    assert (E2 : clean_value o (clean_value o s) = join_space (split_whitespace (clean_value o s))).
    { pose proof (clean_split (CleanupAttrs (newlines o) (trim o) false) (clean_value o s)) as C. unfold clean_value at 1. unfold clean_value at 1 in C. cbn [newlines trim spaces] in C. rewrite SP, C. reflexivity. }
    rewrite E2, clean_split, E. reflexivity.
  - unfold clean_value. rewrite SP. destruct (newlines o), (trim o).
    + rewrite (replace_none (trim_str (replace_newlines s))).
      * apply trim_id, trim_ends.
      * intros H. apply trim_sub in H. eapply replace_no_newline; eauto.
    + apply replace_idem.
    + apply trim_id, trim_ends.
    + reflexivity.
Qed.

Lemma clean_no_newline o s : newlines o = true -> ~ In 10%N (clean_value o s).
Proof.
  intros NL. unfold clean_value. rewrite NL. destruct (spaces o).
  - intros H. apply join_chars_white in H; [discriminate| |reflexivity]. eapply words_of_solid, split_words.
  - destruct (trim o); [|apply replace_no_newline]. intros H. apply trim_sub in H. eapply replace_no_newline; eauto.
Qed.
Lemma clean_ends o s : trim o = true \/ spaces o = true -> ends_ok (clean_value o s).
Proof.
  intros T. unfold clean_value. destruct (spaces o); [apply join_ends; eapply words_of_solid, split_words|].
  destruct T as [->|T]; [apply trim_ends|discriminate].
Qed.
Lemma join_single ws a b c d : Forall solid ws -> join_space ws = a ++ c :: d :: b -> white c -> white d -> False.
Proof.
  revert a. induction ws as [|w ws IH]; intros a F E WC WD.
  - destruct a; discriminate.
  - inversion F as [|? ? [NE S] F']; subst. rewrite Forall_forall in S. destruct ws as [|w' ws].
    + cbn [join_space] in E. apply (S c); [|exact WC]. rewrite E. apply in_app_iff. right; left; auto.
    + rewrite join_cons in E. set (j := join_space (w' :: ws)) in *.
      destruct (join_ends (w' :: ws) F') as [JH _].
      assert (NJ : j <> []).
      { unfold j. inversion F' as [|? ? [NE' _] _]; subst. destruct ws; cbn [join_space]; [exact NE'|]. destruct w'; [contradiction|discriminate]. }
      (* where does the pair start? *)
      destruct (le_lt_dec (List.length w) (List.length a)) as [L|L].
      * assert (P : exists a', a = w ++ a' /\ 32%N :: j = a' ++ c :: d :: b).
        { exists (skipn (List.length w) a). apply (f_equal (skipn (List.length w))) in E as E2.
          rewrite !skipn_app, skipn_all, Nat.sub_diag in E2. cbn [skipn app] in E2.
          replace (List.length w - List.length a) with 0 in E2 by lia. cbn [skipn] in E2. split; [|exact E2].
          apply (f_equal (firstn (List.length w))) in E. rewrite !firstn_app, firstn_all, Nat.sub_diag, firstn_O, app_nil_r in E.
          replace (List.length w - List.length a) with 0 in E by lia. rewrite firstn_O, app_nil_r in E.
          rewrite E at 1. symmetry. apply (firstn_skipn (List.length w) a). }
        destruct P as (a' & -> & E'). destruct a' as [|x a'].
        -- injection E' as <- E'. specialize (JH _ _ E'). unfold white in WD. congruence.
        -- injection E' as _ E'. exact (IH a' F' E' WC WD).
      * assert (P : In c w).
        { apply (f_equal (fun l => nth_error l (List.length a))) in E. rewrite nth_error_app1 in E by exact L.
          rewrite nth_error_app2, Nat.sub_diag in E by lia. apply nth_error_In in E. exact E. }
        exact (S c P WC).
Qed.
Lemma clean_single o s a b c d : spaces o = true -> clean_value o s = a ++ c :: d :: b -> white c -> white d -> False.
Proof.
  intros SP E. unfold clean_value in E. rewrite SP in E. eapply join_single; [|exact E]. eapply words_of_solid, split_words.
Qed.
Lemma clean_only_spaces o s c : spaces o = true -> In c (clean_value o s) -> white c -> c = 32%N.
Proof. intros SP H. unfold clean_value in H. rewrite SP in H. apply (join_chars_white _ _ (words_of_solid _ _ (split_words _)) H). Qed.
Lemma words_exist s : exists ws, words_of s ws /\ forall ws', words_of s ws' -> ws' = ws.
Proof. exists (split_whitespace s). split; [apply split_words|]. intros ws' H. symmetry. apply words_of_split, H. Qed.
Lemma words_of_lit s : words_of (lit s) (split_whitespace (lit s)).
Proof. apply split_words. Qed.
Lemma clean_ends_white o s c t : trim o = true \/ spaces o = true ->
  clean_value o s = c :: t \/ clean_value o s = t ++ [c] -> ~ white c.
Proof.
  intros T E W. destruct (clean_ends o s T) as [H L]. unfold white in W.
  destruct E as [E|E]; [rewrite (H _ _ E) in W|rewrite (L _ _ E) in W]; discriminate.
Qed.
Lemma clean_spaces o s : spaces o = true ->
  (forall c, In c (clean_value o s) -> white c -> c = 32%N) /\
  (forall a b c d, clean_value o s = a ++ c :: d :: b -> white c -> white d -> False).
Proof. intros SP. split; intros; [eapply clean_only_spaces|eapply clean_single]; eauto. Qed.
Lemma clean_off o s : newlines o = false -> trim o = false -> spaces o = false -> clean_value o s = s.
Proof. intros A B C. unfold clean_value. rewrite A, B, C. reflexivity. Qed.
Lemma clean_inner o s : spaces o = false -> exists a b,
  map (fun c => if N.eqb c 10 then 32%N else c) s
    = a ++ map (fun c => if N.eqb c 10 then 32%N else c) (clean_value o s) ++ b /\ Forall white a /\ Forall white b /\
  (trim o = false -> a = [] /\ b = []).
Proof.
  intros SP. unfold clean_value. rewrite SP. fold (replace_newlines s).
  set (s1 := if newlines o then replace_newlines s else s).
  assert (E1 : map (fun c => if N.eqb c 10 then 32%N else c) s1 = replace_newlines s).
  { unfold s1. destruct (newlines o); [apply replace_idem|reflexivity]. }
  destruct (trim o).
  - destruct (trim_str_app s1) as (a & b & E & A & B).
    exists (replace_newlines a), (replace_newlines b). rewrite <- E1. rewrite E at 1. rewrite !map_app.
    split; [reflexivity|]. split; [|split; [|discriminate]].
    + unfold replace_newlines. apply Forall_map. revert A. apply Forall_impl. intros c W. destruct (N.eqb_spec c 10); [reflexivity|exact W].
    + unfold replace_newlines. apply Forall_map. revert B. apply Forall_impl. intros c W. destruct (N.eqb_spec c 10); [reflexivity|exact W].
  - exists [], []. rewrite E1, app_nil_r. cbn [app]. auto.
Qed.
