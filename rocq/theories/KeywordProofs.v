From Coq Require Import String List NArith ZArith Bool Arith Lia.
From Verif Require Import Chars ParseModel ParseSpec ParseProofs ParseProofs2 ParseProofs3 ParseProofs4 ListProofs ClockModel ClockSpec ClockProofs OnsetModel OnsetSpec OnsetProofs OnsetProofs2
  KeywordTable KeywordModel KeywordSpec.
Import ListNotations.

(** ** Tables *)
Definition keyword_b (t : text) : bool :=
  let l c := (((65 <=? c) && (c <=? 90)) || ((97 <=? c) && (c <=? 122)) || (c =? 95))%N in
  match t with [] => false | c :: r => l c && forallb (fun c => l c || ((48 <=? c) && (c <=? 57)) || (c =? 45))%N r end.
Lemma letter_b c : (((65 <=? c) && (c <=? 90)) || ((97 <=? c) && (c <=? 122)) || (c =? 95))%N = true -> letter c.
Proof.
  intros H. apply orb_prop in H. destruct H as [H|H]; [apply orb_prop in H; destruct H as [H|H]; apply andb_prop in H; destruct H as [A B]; apply N.leb_le in A, B|apply N.eqb_eq in H];
    unfold letter; lia.
Qed.
Lemma keyword_b_ok t : keyword_b t = true -> keyword t.
Proof.
  destruct t as [|c r]; [discriminate|]. cbn [keyword_b keyword]. intros H. apply andb_prop in H. destruct H as [A B].
  split; [apply letter_b, A|]. rewrite forallb_forall in B. apply Forall_forall. intros x X. specialize (B x X).
  apply orb_prop in B. destruct B as [B|B]; [apply orb_prop in B; destruct B as [B|B]|].
  - left. apply letter_b, B.
  - right. left. apply andb_prop in B. destruct B as [P Q]. apply N.leb_le in P, Q. unfold digit. lia.
  - right. right. apply N.eqb_eq, B.
Qed.

Definition good_b (vs : list (string * string)) : bool :=
  forallb (fun p =>
    match find (fun v => text_eqb (lit (snd p)) (lit (snd v))) vs with Some q => String.eqb (fst q) (fst p) | None => false end &&
    match find (fun v => String.eqb (fst v) (fst p)) vs with Some q => String.eqb (snd q) (snd p) | None => false end) vs.
Definition good (vs : list (string * string)) : Prop :=
  forall v k, In (v, k) vs ->
    (exists k', find (fun x => text_eqb (lit k) (lit (snd x))) vs = Some (v, k')) /\ find (fun x => String.eqb (fst x) v) vs = Some (v, k).
Lemma good_b_ok vs : good_b vs = true -> good vs.
Proof.
  unfold good_b, good. intros H v k I. rewrite forallb_forall in H. specialize (H _ I). cbn [fst snd] in H. apply andb_prop in H. destruct H as [A B]. split.
  - destruct (find _ _) as [[v' k']|]; [|discriminate]. cbn [fst] in A. apply String.eqb_eq in A. subst. eauto.
  - destruct (find (fun x => String.eqb (fst x) v) vs) as [[v' k']|] eqn:F; [|discriminate]. cbn [snd] in B. apply String.eqb_eq in B. subst.
    apply find_some in F. destruct F as [_ F]. apply String.eqb_eq in F. cbn [fst] in F. subst. reflexivity.
Qed.
Lemma enums_good : forallb (fun e => good_b (snd e)) enums = true.
Proof. vm_compute. reflexivity. Qed.
Lemma enum_good n vs : In (n, vs) enums -> good vs.
Proof. intros I. apply good_b_ok. pose proof (proj1 (forallb_forall _ _) enums_good _ I) as H. exact H. Qed.
Lemma enums_keyword : forallb (fun e => forallb (fun p => keyword_b (lit (snd p)) || String.eqb (fst p) "AdditionsText") (snd e)) enums = true.
Proof. vm_compute. reflexivity. Qed.
Lemma enum_keyword n vs v k : In (n, vs) enums -> In (v, k) vs -> v <> "AdditionsText"%string -> keyword (lit k).
Proof.
  intros I J NE. pose proof (proj1 (forallb_forall _ _) enums_keyword _ I) as H. cbn [snd] in H. rewrite forallb_forall in H. specialize (H _ J). cbn [fst snd] in H.
  apply orb_prop in H. destruct H as [H|H]; [apply keyword_b_ok, H|]. apply String.eqb_eq in H. contradiction.
Qed.

(** ** Names *)
Lemma letter_start c : letter c -> plain_start c.
Proof. unfold letter, plain_start. tauto. Qed.
Lemma keyword_names c r : keyword (c :: r) -> plain_start c /\ Forall (fun c => is_name_char c = true) r.
Proof.
  intros [L F]. split; [apply letter_start, L|]. revert F. apply Forall_impl. intros x [X|[X| ->]].
  - unfold is_name_char. rewrite (start_name x (letter_start x X)). reflexivity.
  - unfold is_name_char. destruct (digit_facts x X) as [-> _]. rewrite orb_true_r. reflexivity.
  - reflexivity.
Qed.
Definition name_end (r : text) : Prop := match r with [] => True | c :: _ => is_name_char c = false end.
Lemma ident_at a k r : keyword k -> name_end r -> expect_ident (at_ a (k ++ r)) = Ok k (at_ (a ++ k) r).
Proof.
  intros K R. destruct k as [|c k]; [destruct K|]. destruct (keyword_names c k K) as [S F]. cbn [app].
  rewrite expect_ident_at; [|apply start_ascii, S|apply start_name, S].
  destruct (take_while_app is_name_char k r F R) as [-> ->]. reflexivity.
Qed.
Lemma spaces_end w : spaces w -> name_end w.
Proof. intros W. destruct w as [|c w]; [exact I|]. inversion W as [|? ? X _]; subst. cbn. apply space_not_name, X. Qed.
Lemma spaces_end' w r : spaces w -> w <> [] -> name_end (w ++ r).
Proof. intros W NE. destruct w as [|c w]; [contradiction|]. inversion W as [|? ? X _]; subst. cbn. apply space_not_name, X. Qed.
Lemma enum_at a vs v k r : good vs -> In (v, k) vs -> keyword (lit k) -> name_end r -> parse_enum vs (at_ a (lit k ++ r)) = Ok v (at_ (a ++ lit k) r).
Proof.
  intros G J K R. unfold parse_enum, bind. rewrite (ident_at a _ r K R). destruct (G v k J) as [(k' & ->) _]. reflexivity.
Qed.
Lemma enum_print vs v k : good vs -> In (v, k) vs -> print_enum vs v = Some (lit k).
Proof. intros G J. unfold print_enum. destruct (G v k J) as [_ ->]. reflexivity. Qed.
Lemma keyword_head k r : keyword k -> match k ++ r with [] => False | c :: _ => is_whitespace c = false end.
Proof. intros K. destruct k as [|c k]; [destruct K|]. cbn. apply start_not_ws, letter_start, K. Qed.

(** ** Whole texts *)
Lemma string_padded {A} (f : parser -> out A) (x : A) v t w : spaces v -> spaces w -> match t with [] => False | c :: _ => is_whitespace c = false end ->
  f (at_ v (t ++ w)) = Ok x (at_ (v ++ t) w) -> exists q, parse_string f (v ++ t ++ w) = Ok x q.
Proof.
  intros V W H E. unfold parse_string, bind. change (new (v ++ t ++ w)) with (at_ [] (v ++ t ++ w)).
  rewrite skip_spaces; [|exact V|destruct t; [destruct H|exact H]]. cbn [app]. rewrite E.
  pose proof (skip_spaces (v ++ t) w [] W I) as S. rewrite app_nil_r in S. rewrite S.
  unfold expect_done. cbn [at_ p_cursor p_input]. rewrite app_nil_r, Nat.ltb_irrefl. eexists. reflexivity.
Qed.
Lemma read_enum n vs v k t : In (n, vs) enums -> In (v, k) vs -> v <> "AdditionsText"%string -> padded (lit k) t -> exists q, parse_string (parse_enum vs) t = Ok v q.
Proof.
  intros I J NE (a & w & V & W & ->). pose proof (enum_keyword n vs v k I J NE) as K. apply string_padded; auto.
  - pose proof (keyword_head _ [] K) as H. rewrite app_nil_r in H. exact H.
  - apply enum_at; [apply (enum_good n vs I)|exact J|exact K|apply spaces_end, W].
Qed.

(** ** Only keywords *)
Lemma drop_bytes_app n a b : drop_bytes (blen a + n) (a ++ b) = drop_bytes n b.
Proof.
  induction a as [|c a IH]; [reflexivity|]. cbn [blen app]. pose proof (width_pos c) as W.
  destruct (width c + blen a + n) as [|m] eqn:E; [lia|]. cbn [drop_bytes]. rewrite <- E. clear E m.
  destruct (Nat.leb_spec (width c) (width c + blen a + n)); [|lia]. replace (width c + blen a + n - width c) with (blen a + n) by lia. apply IH.
Qed.
Lemma width_wide c : (128 <= c)%N -> 2 <= width c.
Proof. intros H. unfold width. destruct (N.ltb_spec c 128); [lia|]. destruct (c <? 2048)%N; [lia|]. destruct (c <? 65536)%N; lia. Qed.
Lemma ident_only a b i q : expect_ident (at_ a b) = Ok i q -> exists r, b = i ++ r /\ q = at_ (a ++ i) r.
Proof.
  destruct b as [|c b]; [unfold expect_ident, bind, cursor; rewrite read_end; discriminate|].
  destruct (N.lt_ge_cases c 128) as [L|L].
  - destruct (is_name_start_char c) eqn:S.
    + rewrite expect_ident_at by assumption. intros E. injection E as <- <-. exists (drop_while is_name_char b). split; [cbn; rewrite take_drop; reflexivity|reflexivity].
    + unfold expect_ident, bind, cursor. rewrite read_at by exact L. rewrite S. destruct (slice_from _ _); discriminate.
  - unfold expect_ident, bind, cursor, read, bind. rewrite current_at. unfold advance, ret. cbn [at_ p_input p_cursor].
    pose proof (width_wide c L) as W. pose proof (width_pos c) as W1.
    destruct (is_name_start_char c).
    + unfold skip_matches, bind, slice. cbn [p_cursor p_input]. rewrite drop_bytes_app. cbn [drop_bytes]. destruct (Nat.leb_spec (width c) 1); [lia|discriminate].
    + unfold slice_from. cbn [p_cursor p_input]. rewrite blen_app. cbn [blen]. rewrite Nat.min_l by lia.
      destruct (Nat.leb_spec (blen a) (blen a + 1)); [|lia]. rewrite drop_bytes_at. replace (blen a + 1 - blen a) with 1 by lia.
      cbn [take_bytes]. destruct (Nat.leb_spec (width c) 1); [lia|discriminate].
Qed.
Lemma string_only {A} (f : parser -> out A) t x q : parse_string f t = Ok x q ->
  exists v b, t = v ++ b /\ Forall (fun c => is_whitespace c = true) v /\ exists p, f (at_ v b) = Ok x p /\
  (forall a r, p = at_ a r -> Forall (fun c => is_whitespace c = true) r).
Proof.
  unfold parse_string, bind. change (new t) with (at_ [] t). unfold skip_whitespace at 1. rewrite skip_matches_at. cbn [app]. intros E.
  exists (take_while is_whitespace t), (drop_while is_whitespace t). split; [symmetry; apply take_drop|]. split; [apply take_while_all|].
  destruct (f _) as [y p|? ?| |]; try discriminate. exists p. split.
  - revert E. destruct (skip_whitespace p) as [? p1|? ?| |]; try discriminate. destruct (expect_done p1); try discriminate. intros E. injection E as -> _. reflexivity.
  - intros a r ->. revert E. unfold skip_whitespace. rewrite skip_matches_at. unfold expect_done. cbn [at_ p_cursor p_input]. 
    destruct (drop_while is_whitespace r) as [|c r'] eqn:D; [intros _; apply drop_while_nil, D|].
    rewrite (blen_app (a ++ _)). cbn [blen]. pose proof (width_pos c). destruct (Nat.ltb_spec (blen (a ++ take_while is_whitespace r)) (blen (a ++ take_while is_whitespace r) + (width c + blen r'))); [discriminate|lia].
Qed.
Lemma only_enum vs t v q : parse_string (parse_enum vs) t = Ok v q -> exists k, In (v, k) vs /\ padded_any (lit k) t.
Proof.
  intros E. apply string_only in E. destruct E as (a & b & -> & F & p & E & R). unfold parse_enum, bind in E.
  destruct (expect_ident (at_ a b)) as [i p'|? ?| |] eqn:X; try discriminate. apply ident_only in X. destruct X as (r & -> & ->).
  destruct (find _ vs) as [[v' k]|] eqn:D; [|discriminate]. cbn [fst] in E. unfold ret in E. injection E as -> <-.
  apply find_some in D. destruct D as [I D]. cbn [snd] in D. apply text_eqb_spec in D. subst i. exists k. split; [exact I|].
  exists a, r. split; [exact F|]. split; [apply (R _ _ eq_refl)|reflexivity].
Qed.

(** ** The specification's tables *)
Definition same_b (n : string) (ks : list string) : bool :=
  forallb (fun k => existsb (fun p => String.eqb (snd p) k) (table n)) ks && forallb (fun p => existsb (String.eqb (snd p)) ks) (table n).
Lemma keywords_same : forallb (fun e => same_b (fst e) (snd e) && negb (String.eqb (fst e) "AriaRelevant")) keywords_of = true.
Proof. vm_compute. reflexivity. Qed.
Lemma existsb_In ks k : existsb (String.eqb k) ks = true <-> In k ks.
Proof.
  rewrite existsb_exists. split; [intros (x & I & E); apply String.eqb_eq in E; subst; exact I|]. intros I. exists k. split; [exact I|apply String.eqb_refl].
Qed.
Lemma table_in n : table n <> [] -> In (n, table n) enums.
Proof.
  unfold table. destruct (find _ enums) as [[n' vs]|] eqn:F; [|contradiction]. intros _. apply find_some in F. destruct F as [I E]. cbn [fst] in E. apply String.eqb_eq in E. subst. exact I.
Qed.
Lemma additions_only : forallb (fun e => String.eqb (fst e) "AriaRelevant" || forallb (fun p => negb (String.eqb (fst p) "AdditionsText")) (snd e)) enums = true.
Proof. vm_compute. reflexivity. Qed.
Lemma keywords_read n ks k t : In (n, ks) keywords_of -> In k ks -> padded (lit k) t -> exists v q, parse_string (parse_enum (table n)) t = Ok v q /\ print_enum (table n) v = Some (lit k).
Proof.
  intros I J T. pose proof (proj1 (forallb_forall _ _) keywords_same _ I) as H. cbn [fst snd] in H. apply andb_prop in H. destruct H as [H NR].
  unfold same_b in H. apply andb_prop in H. destruct H as [H _]. rewrite forallb_forall in H. specialize (H k J). apply existsb_exists in H. destruct H as ([v k'] & M & E).
  cbn [snd] in E. apply String.eqb_eq in E. subst k'.
  assert (TI : In (n, table n) enums) by (apply table_in; intros X; rewrite X in M; destruct M).
  assert (NA : v <> "AdditionsText"%string).
  { pose proof (proj1 (forallb_forall _ _) additions_only _ TI) as A. cbn [fst snd] in A. apply orb_prop in A. destruct A as [A|A]; [rewrite A in NR; discriminate|].
    rewrite forallb_forall in A. specialize (A _ M). cbn [fst] in A. intros ->. discriminate A. }
  destruct (read_enum n (table n) v k t TI M NA T) as (q & Q). exists v, q. split; [exact Q|]. apply enum_print; [apply (enum_good n _ TI)|exact M].
Qed.
Lemma keywords_only n ks t v q : In (n, ks) keywords_of -> parse_string (parse_enum (table n)) t = Ok v q -> exists k, In k ks /\ padded_any (lit k) t.
Proof.
  intros I E. apply only_enum in E. destruct E as (k & M & P). exists k. split; [|exact P].
  pose proof (proj1 (forallb_forall _ _) keywords_same _ I) as H. cbn [fst snd] in H. apply andb_prop in H. destruct H as [H _]. apply andb_prop in H. destruct H as [_ H].
  rewrite forallb_forall in H. specialize (H _ M). cbn [snd] in H. apply existsb_In in H. exact H.
Qed.
