From Coq Require Import String List NArith ZArith Bool Arith Lia.
From Verif Require Import Chars ParseModel ParseSpec.
Import ListNotations.

Lemma width_pos c : 1 <= width c.
Proof. unfold width. repeat match goal with |- context [if ?b then _ else _] => destruct b end; lia. Qed.
Lemma width_ascii c : (c < 128)%N -> width c = 1.
Proof. intros H. unfold width. apply N.ltb_lt in H. rewrite H. reflexivity. Qed.

Lemma blen_app a b : blen (a ++ b) = blen a + blen b.
Proof. induction a; simpl; lia. Qed.
Lemma blen_ascii a : ascii a -> blen a = List.length a.
Proof. induction 1 as [|c l C L IH]; simpl; [reflexivity|]. rewrite width_ascii by exact C. rewrite IH. reflexivity. Qed.
Lemma blen_0 a : blen a = 0 -> a = [].
Proof. destruct a as [|c a]; auto. simpl. pose proof (width_pos c). lia. Qed.

Lemma drop_bytes_at a b : drop_bytes (blen a) (a ++ b) = Some b.
Proof.
  induction a as [|c a IH]; [destruct b; reflexivity|].
  simpl. pose proof (width_pos c). destruct (width c + blen a) eqn:E; [lia|]. rewrite <- E.
  destruct (Nat.leb_spec (width c) (width c + blen a)); [|lia].
  replace (width c + blen a - width c) with (blen a) by lia. exact IH.
Qed.
Lemma take_bytes_at a b : take_bytes (blen a) (a ++ b) = Some a.
Proof.
  induction a as [|c a IH]; [destruct b; reflexivity|].
  simpl. pose proof (width_pos c). destruct (width c + blen a) eqn:E; [lia|]. rewrite <- E.
  destruct (Nat.leb_spec (width c) (width c + blen a)); [|lia].
  replace (width c + blen a - width c) with (blen a) by lia. rewrite IH. reflexivity.
Qed.

(** ** Splitting at the first character outside a class *)
Fixpoint take_while (f : N -> bool) (s : text) : text :=
  match s with [] => [] | c :: s => if f c then c :: take_while f s else [] end.
Lemma take_drop f s : take_while f s ++ drop_while f s = s.
Proof. induction s as [|c s IH]; simpl; auto. destruct (f c); simpl; congruence. Qed.
Lemma take_while_all f s : Forall (fun c => f c = true) (take_while f s).
Proof. induction s as [|c s IH]; simpl; auto. destruct (f c) eqn:E; auto. Qed.
Lemma drop_while_head f s : match drop_while f s with [] => True | c :: _ => f c = false end.
Proof. induction s as [|c s IH]; simpl; auto. destruct (f c) eqn:E; auto. Qed.
Lemma drop_while_idem f s : drop_while f (drop_while f s) = drop_while f s.
Proof. pose proof (drop_while_head f s). destruct (drop_while f s); simpl; auto. rewrite H. reflexivity. Qed.
Lemma span_take f s : span f s (take_while f s) (drop_while f s).
Proof. split; [symmetry; apply take_drop|split; [apply take_while_all|apply drop_while_head]]. Qed.
Lemma span_unique f b t r : span f b t r -> t = take_while f b /\ r = drop_while f b.
Proof.
  intros (-> & A & H). induction A as [|c t C A IH]; simpl.
  - destruct r as [|c r]; simpl; auto. rewrite H. auto.
  - rewrite C. destruct IH as [E1 E2]. split; congruence.
Qed.
Lemma drop_while_suffix f s : exists t, s = t ++ drop_while f s.
Proof. exists (take_while f s). symmetry. apply take_drop. Qed.

(** ** Each primitive at a position *)
Lemma at_move a t r : P (a ++ t ++ r) (blen a + blen t) = at_ (a ++ t) r.
Proof. unfold at_. rewrite blen_app, <- app_assoc. reflexivity. Qed.

Lemma slice_at a b : slice (at_ a b) = Ok b (at_ a b).
Proof. unfold slice, at_. simpl. rewrite drop_bytes_at. reflexivity. Qed.
Lemma len_at a b : len (at_ a b) = Ok (blen b) (at_ a b).
Proof.
  unfold len, at_. simpl. rewrite blen_app. destruct (Nat.leb_spec (blen a) (blen a + blen b)); [|lia].
  f_equal. lia.
Qed.
Lemma is_empty_at a b : is_empty (at_ a b) = Ok (match b with [] => true | _ => false end) (at_ a b).
Proof.
  unfold is_empty, bind. rewrite len_at. unfold ret. f_equal.
  destruct b as [|c b]; auto. simpl. pose proof (width_pos c). destruct (width c + blen b) eqn:E; [lia|reflexivity].
Qed.
Lemma skip_internal_at a t r : skip_internal (blen r) (at_ a (t ++ r)) = Ok tt (at_ (a ++ t) r).
Proof.
  unfold skip_internal, bind. rewrite len_at, blen_app.
  destruct (Nat.leb_spec (blen r) (blen t + blen r)); [|lia].
  replace (blen t + blen r - blen r) with (blen t) by lia. simpl. rewrite at_move. reflexivity.
Qed.
Lemma skip_matches_at f a b :
  skip_matches f (at_ a b) = Ok tt (at_ (a ++ take_while f b) (drop_while f b)).
Proof.
  unfold skip_matches, bind. rewrite slice_at. rewrite <- (take_drop f b) at 2. apply skip_internal_at.
Qed.
Lemma slice_from_at a t r : slice_from (blen a) (at_ (a ++ t) r) = Ok t (at_ (a ++ t) r).
Proof.
  unfold slice_from, at_. cbn [p_input p_cursor].
  rewrite !blen_app. rewrite Nat.min_l by lia.
  destruct (Nat.leb_spec (blen a) (blen a + blen t)); [|lia].
  rewrite <- app_assoc, drop_bytes_at. replace (blen a + blen t - blen a) with (blen t) by lia.
  rewrite take_bytes_at. reflexivity.
Qed.
Lemma take_matches_at f a b :
  take_matches f (at_ a b) = Ok (take_while f b) (at_ (a ++ take_while f b) (drop_while f b)).
Proof.
  unfold take_matches, bind, cursor. rewrite skip_matches_at.
  replace (p_cursor (at_ a b)) with (blen a) by reflexivity. apply slice_from_at.
Qed.
Lemma current_at a b : current (at_ a b) = match b with [] => Fail EndOfInput (at_ a b) | c :: _ => Ok c (at_ a b) end.
Proof. unfold current, bind. rewrite slice_at. destruct b; reflexivity. Qed.
Lemma peek_at a b : peek (at_ a b) = Ok (hd_error b) (at_ a b).
Proof. unfold peek. rewrite current_at. destruct b; reflexivity. Qed.
Lemma advance_at a c b : width c = 1 -> advance (at_ a (c :: b)) = Ok tt (at_ (a ++ [c]) b).
Proof.
  intros W. unfold advance, at_. cbn [p_input p_cursor]. rewrite blen_app, <- app_assoc. simpl. rewrite W.
  repeat f_equal; lia.
Qed.
Lemma read_at a c b : (c < 128)%N -> read (at_ a (c :: b)) = Ok c (at_ (a ++ [c]) b).
Proof.
  intros W. unfold read, bind. rewrite current_at, advance_at; auto. apply width_ascii, W.
Qed.
Lemma read_end a : read (at_ a []) = Fail EndOfInput (at_ a []).
Proof. unfold read, bind. rewrite current_at. reflexivity. Qed.
Lemma rewind_at a c b : width c = 1 -> rewind 1 (at_ (a ++ [c]) b) = Ok tt (at_ a (c :: b)).
Proof.
  intros W. unfold rewind, at_. cbn [p_input p_cursor]. rewrite blen_app. simpl. rewrite W.
  destruct (blen a + (1 + 0)) eqn:E; [lia|]. rewrite <- app_assoc. simpl. repeat f_equal. lia.
Qed.

(** ** [skip_char] *)
Lemma ends_cons c x s : s <> [] -> ends_in c (x :: s) -> ends_in c s.
Proof. intros N0 (t & E). destruct t as [|y t]; inversion E; subst; [contradiction|]. exists t. reflexivity. Qed.
Lemma ends_app c a b : b <> [] -> ends_in c (a ++ b) <-> ends_in c b.
Proof.
  intros N0. split.
  - induction a as [|x a IH]; simpl; auto. intros E. apply IH. eapply ends_cons; [|exact E].
    destruct a; simpl; [auto|discriminate].
  - intros (t & ->). exists (a ++ t). rewrite app_assoc. reflexivity.
Qed.
Lemma ends_suffix c a b : ends_in c b -> ends_in c (a ++ b).
Proof. intros (t & ->). exists (a ++ t). rewrite app_assoc. reflexivity. Qed.

Lemma drop_while_nil f s : drop_while f s = [] -> Forall (fun c => f c = true) s.
Proof. intros E. rewrite <- (take_drop f s), E, app_nil_r. apply take_while_all. Qed.

Lemma trim_both_not_end c s : ~ ends_in c (drop_while (N.eqb c) s) -> trim_both c s = drop_while (N.eqb c) s.
Proof.
  intros H. unfold trim_both. destruct (rev (drop_while (N.eqb c) s)) as [|x r] eqn:E.
  - apply (f_equal (@rev N)) in E. rewrite rev_involutive in E. rewrite E. reflexivity.
  - simpl. destruct (N.eqb_spec c x) as [<-|D].
    + exfalso. apply H. exists (rev r). apply (f_equal (@rev N)) in E. rewrite rev_involutive in E. exact E.
    + rewrite <- E, rev_involutive. reflexivity.
Qed.
(** [skip_char] is right when the rest of the input does not end in that character *)
Lemma skip_char_at c a b : ~ ends_in c (drop_while (N.eqb c) b) ->
  skip_char c (at_ a b) = Ok tt (at_ (a ++ take_while (N.eqb c) b) (drop_while (N.eqb c) b)).
Proof.
  intros H. unfold skip_char, bind. rewrite slice_at, trim_both_not_end by exact H.
  rewrite <- (take_drop (N.eqb c) b) at 2. apply skip_internal_at.
Qed.
Lemma not_ends_drop c f s : ~ ends_in c s -> ~ ends_in c (drop_while f s).
Proof. intros H E. apply H. rewrite <- (take_drop f s). apply ends_suffix, E. Qed.

Lemma trim_both_sub c s : exists x y, s = x ++ trim_both c s ++ y.
Proof.
  unfold trim_both. set (d := drop_while (N.eqb c) s).
  exists (take_while (N.eqb c) s), (rev (take_while (N.eqb c) (rev d))).
  rewrite <- rev_app_distr, take_drop, rev_involutive. symmetry. apply take_drop.
Qed.
Lemma ascii_app a b : ascii (a ++ b) <-> ascii a /\ ascii b.
Proof. apply Forall_app. Qed.
(** on ASCII text [skip_char] at least stays on character boundaries *)
Lemma skip_char_ascii c a b : ascii b -> exists t r, b = t ++ r /\ skip_char c (at_ a b) = Ok tt (at_ (a ++ t) r).
Proof.
  intros A. destruct (trim_both_sub c b) as (x & y & E).
  assert (L : List.length (trim_both c b) <= List.length b) by (rewrite E at 2; rewrite !app_length; lia).
  exists (firstn (List.length b - List.length (trim_both c b)) b),
         (skipn (List.length b - List.length (trim_both c b)) b).
  split; [symmetry; apply firstn_skipn|].
  unfold skip_char, bind. rewrite slice_at.
  assert (blen (trim_both c b) = blen (skipn (List.length b - List.length (trim_both c b)) b)) as ->.
  { rewrite !blen_ascii.
    - rewrite skipn_length. lia.
    - rewrite <- (firstn_skipn (List.length b - List.length (trim_both c b)) b) in A. apply ascii_app in A. tauto.
    - rewrite E in A. apply ascii_app in A. destruct A as [_ A]. apply ascii_app in A. tauto. }
  set (k := List.length b - List.length (trim_both c b)).
  replace (at_ a b) with (at_ a (firstn k b ++ skipn k b)) by (rewrite firstn_skipn; reflexivity).
  apply skip_internal_at.
Qed.

Lemma try_parse_restores {A} (f : parser -> out A) p e q :
  try_parse f p = Fail e q -> p_cursor q = p_cursor p.
Proof. unfold try_parse. destruct (f p); intros E; inversion E; subst; reflexivity. Qed.

Lemma expect_char_at c a b : (c < 128)%N ->
  match b with
  | x :: r => (x < 128)%N -> expect_char c (at_ a b) = (if N.eqb x c then Ok tt (at_ (a ++ [x]) r) else Fail ExpectedChar (at_ (a ++ [x]) r))
  | [] => expect_char c (at_ a []) = Fail EndOfInput (at_ a [])
  end.
Proof.
  intros C. destruct b as [|x r].
  - unfold expect_char, bind. rewrite read_end. reflexivity.
  - intros X. unfold expect_char, bind. rewrite read_at by exact X. destruct (N.eqb x c); reflexivity.
Qed.

Lemma expect_str_at e a r : expect_str e (at_ a (e ++ r)) = Ok tt (at_ (a ++ e) r).
Proof.
  unfold expect_str, bind, cursor. cbn [p_cursor at_].
  replace (p_cursor (at_ a (e ++ r))) with (blen a) by reflexivity.
  replace (P (p_input (at_ a (e ++ r))) (blen a + blen e)) with (at_ (a ++ e) r) by (symmetry; apply at_move).
  rewrite slice_from_at, text_eqb_refl. reflexivity.
Qed.

Lemma expect_matches_at f a b :
  expect_matches f (at_ a b) =
  match take_while f b with
  | [] => Fail ExpectedMatch (at_ a b)
  | t => Ok t (at_ (a ++ t) (drop_while f b))
  end.
Proof.
  unfold expect_matches, bind, cursor. rewrite skip_matches_at.
  replace (p_cursor (at_ a b)) with (blen a) by reflexivity. rewrite slice_from_at.
  destruct (take_while f b) eqn:E; [|reflexivity].
  unfold fail. rewrite app_nil_r. rewrite <- (take_drop f b) at 2. rewrite E. reflexivity.
Qed.
