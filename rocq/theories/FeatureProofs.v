From Coq Require Import String List NArith Bool Arith Lia Permutation.
From Verif Require Import Chars ParseModel ParseSpec ParseProofs ParseProofs2 ParseProofs3 ParseProofs4 ListProofs OnsetSpec OnsetProofs ClockProofs KeywordProofs FeatureModel FeatureSpec.
Import ListNotations.
Open Scope list_scope.

(** ** White space and words *)
Definition solid (w : text) : Prop := Forall (fun c => is_whitespace c = false) w.
Definition gap (r : text) : Prop := match r with [] => True | c :: _ => is_whitespace c = true end.
Lemma split_app acc w r : solid w -> split acc (w ++ r) = split (rev w ++ acc) r.
Proof.
  intros W. revert acc. induction W as [|c w C W IH]; intros acc; [reflexivity|]. cbn [app split]. rewrite C, IH. cbn [rev]. rewrite <- app_assoc. reflexivity.
Qed.
Lemma words_app w r : solid w -> w <> [] -> gap r -> words (w ++ r) = w :: words r.
Proof.
  intros W NE G. unfold words. rewrite split_app by exact W. rewrite app_nil_r.
  assert (R : rev w <> []) by (intros E; apply NE; rewrite <- (rev_involutive w), E; reflexivity).
  destruct (rev w) as [|x y] eqn:E; [contradiction|]. rewrite <- E. destruct r as [|c r]; cbn [split].
  - rewrite E, <- E, rev_involutive. reflexivity.
  - cbn in G. rewrite G. rewrite E, <- E, rev_involutive. reflexivity.
Qed.
Lemma words_skip t : words (drop_while is_whitespace t) = words t.
Proof.
  induction t as [|c t IH]; [reflexivity|]. cbn [drop_while]. destruct (is_whitespace c) eqn:C; [|reflexivity].
  rewrite IH. unfold words. cbn [split]. rewrite C. reflexivity.
Qed.
Lemma drop_head f t : match drop_while f t with [] => True | c :: _ => f c = false end.
Proof. induction t as [|c t IH]; [exact I|]. cbn [drop_while]. destruct (f c) eqn:C; [exact IH|exact C]. Qed.
Lemma take_all f t : Forall (fun c => f c = true) (take_while f t).
Proof. induction t as [|c t IH]; [constructor|]. cbn [take_while]. destruct (f c) eqn:C; constructor; assumption. Qed.
Lemma words_first t w ws : words t = w :: ws -> exists r, drop_while is_whitespace t = w ++ r /\ gap r /\ solid w /\ w <> [] /\ words r = ws.
Proof.
  intros E. rewrite <- words_skip in E. pose proof (drop_head is_whitespace t) as H. set (b := drop_while is_whitespace t) in *.
  destruct b as [|c b]; [discriminate|]. set (f := fun c => negb (is_whitespace c)).
  pose proof (take_drop f (c :: b)) as TD. pose proof (take_all f (c :: b)) as TA. pose proof (drop_head f (c :: b)) as DH.
  set (w0 := take_while f (c :: b)) in *. set (r := drop_while f (c :: b)) in *.
  assert (S0 : solid w0). { revert TA. apply Forall_impl. intros x X. unfold f in X. apply negb_true_iff in X. exact X. }
  assert (N0 : w0 <> []). { unfold w0. cbn [take_while]. unfold f. rewrite H. discriminate. }
  assert (G : gap r). { destruct r as [|x r]; [exact I|]. unfold f in DH. apply negb_false_iff in DH. exact DH. }
  rewrite <- TD in E. rewrite (words_app w0 r S0 N0 G) in E. injection E as -> <-. exists r.
  split; [symmetry; exact TD|]. split; [exact G|]. split; [exact S0|]. split; [exact N0|]. reflexivity.
Qed.
Lemma words_nil t : words t = [] -> drop_while is_whitespace t = [].
Proof.
  intros E. rewrite <- words_skip in E. pose proof (drop_head is_whitespace t) as H. destruct (drop_while is_whitespace t) as [|c b]; [reflexivity|].
  exfalso. unfold words in E. cbn [split] in E. rewrite H in E. revert E. generalize (@nil N). generalize c. clear. induction b as [|x b IH]; intros c l; [discriminate|].
  cbn [split]. destruct (is_whitespace x); [discriminate|]. apply IH.
Qed.

(** ** The head of what is left *)
Definition a_word (w : text) : Prop := match w with [] => False | c :: k => (c < 128)%N /\ is_name_start_char c = true /\ Forall (fun c => is_name_char c = true) k end.
Definition stuck (b : text) : Prop := match b with [] => True | c :: _ => is_name_start_char c = false \/ (128 <= c)%N end.
Definition safe (b : text) : Prop := match b with [] => True | c :: _ => (c < 128)%N end.
Lemma head_cases b : stuck b \/ exists w r, b = w ++ r /\ a_word w /\ name_end r.
Proof.
  destruct b as [|c b]; [left; exact I|]. cbn. destruct (is_name_start_char c) eqn:S; [|left; left; reflexivity].
  destruct (N.lt_ge_cases c 128) as [L|L]; [|left; right; exact L]. right.
  exists (c :: take_while is_name_char b), (drop_while is_name_char b). cbn [app]. rewrite take_drop. split; [reflexivity|]. split.
  - cbn. split; [exact L|]. split; [exact S|apply take_all].
  - pose proof (drop_head is_name_char b) as H. destruct (drop_while is_name_char b); exact H.
Qed.
Lemma name_end_stuck r : name_end r -> stuck r.
Proof.
  destruct r as [|c r]; [intros _; exact I|]. cbn. unfold is_name_char. intros H. left. destruct (is_name_start_char c); [discriminate|reflexivity].
Qed.
Lemma ident_word a w r : a_word w -> name_end r -> expect_ident (at_ a (w ++ r)) = Ok w (at_ (a ++ w) r).
Proof.
  destruct w as [|c w]; [intros []|]. intros (L & S & F) R. cbn [app]. rewrite expect_ident_at by assumption.
  destruct (take_while_app is_name_char w r F R) as [-> ->]. reflexivity.
Qed.
Lemma ident_stuck a b : stuck b -> (exists e q, expect_ident (at_ a b) = Fail e q /\ p_input q = a ++ b) \/ (expect_ident (at_ a b) = Panic /\ ~ safe b).
Proof.
  destruct b as [|c b]; intros S.
  - left. unfold expect_ident, bind, cursor. rewrite read_end. eexists; eexists. split; reflexivity.
  - destruct (N.lt_ge_cases c 128) as [L|L].
    + destruct S as [S|S]; [|lia]. left. unfold expect_ident, bind, cursor. rewrite read_at by exact L. rewrite S. change (p_cursor (at_ a (c :: b))) with (blen a).
      rewrite (slice_from_at a [c] b). unfold fail. eexists; eexists. split; [reflexivity|]. cbn [at_ p_input]. rewrite <- app_assoc. reflexivity.
    + right. split; [|cbn; lia]. unfold expect_ident, bind, cursor, read, bind. rewrite current_at. unfold advance, ret. cbn [at_ p_input p_cursor].
      pose proof (width_wide c L) as W. pose proof (width_pos c) as W1.
      destruct (is_name_start_char c).
      * unfold skip_matches, bind, slice. cbn [p_cursor p_input]. rewrite drop_bytes_app. cbn [drop_bytes]. destruct (Nat.leb_spec (width c) 1); [lia|reflexivity].
      * unfold slice_from. cbn [p_cursor p_input]. rewrite blen_app. cbn [blen]. rewrite Nat.min_l by lia.
        destruct (Nat.leb_spec (blen a) (blen a + 1)); [|lia]. rewrite drop_bytes_at. replace (blen a + 1 - blen a) with 1 by lia.
        cbn [take_bytes]. destruct (Nat.leb_spec (width c) 1); [lia|reflexivity].
Qed.
Lemma start_black c : (c < 128)%N -> is_name_start_char c = true -> is_whitespace c = false.
Proof.
  intros L. assert (X : forallb (fun k => implb (is_name_start_char (N.of_nat k)) (negb (is_whitespace (N.of_nat k)))) (seq 0 128) = true) by (vm_compute; reflexivity).
  rewrite forallb_forall in X. specialize (X (N.to_nat c)). rewrite N2Nat.id in X. intros S. rewrite S in X. cbn [implb] in X. apply negb_true_iff, X, in_seq. lia.
Qed.
Lemma white_end c : (c < 128)%N -> is_whitespace c = true -> is_name_char c = false.
Proof.
  intros L. assert (X : forallb (fun k => implb (is_whitespace (N.of_nat k)) (negb (is_name_char (N.of_nat k)))) (seq 0 128) = true) by (vm_compute; reflexivity).
  rewrite forallb_forall in X. specialize (X (N.to_nat c)). rewrite N2Nat.id in X. intros S. rewrite S in X. cbn [implb] in X. apply negb_true_iff, X, in_seq. lia.
Qed.

(** ** One word *)
Definition memb (w : text) (ks : list text) : bool := existsb (text_eqb w) ks.
Lemma memb_in w ks : memb w ks = true -> In w ks.
Proof. intros H. apply existsb_exists in H. destruct H as (x & X & E). apply text_eqb_spec in E. subst. exact X. Qed.
Lemma one_word ks a w r : a_word w -> name_end r ->
  try_parse (one_of ks) (at_ a (w ++ r)) = if memb w ks then Ok w (at_ (a ++ w) r) else Fail ExpectedIdent (at_ a (w ++ r)).
Proof.
  intros W R. unfold try_parse, one_of, bind. rewrite (ident_word a w r W R). fold (memb w ks). destruct (memb w ks); [reflexivity|].
  unfold fail. cbn [at_ p_input p_cursor]. unfold at_. rewrite <- app_assoc. reflexivity.
Qed.
Lemma one_stuck ks a b : stuck b -> (exists e, try_parse (one_of ks) (at_ a b) = Fail e (at_ a b)) \/ (try_parse (one_of ks) (at_ a b) = Panic /\ ~ safe b).
Proof.
  intros S. unfold try_parse, one_of, bind. destruct (ident_stuck a b S) as [(e & q & -> & Q)|(-> & NS)]; [left|right; auto].
  exists e. rewrite Q. reflexivity.
Qed.

(** ** A group *)
Fixpoint place (ks : list (list text)) (w : text) : option (list (option text)) :=
  match ks with
  | [] => None
  | k :: ks => if memb w k then Some (Some w :: nothing ks) else option_map (cons None) (place ks w)
  end.
Lemma round_group_word ks a w r : a_word w -> name_end r ->
  group_round ks (nothing ks) (at_ a (w ++ r)) =
  match place ks w with Some vs => Ok (Some vs) (at_ (a ++ w) r) | None => Ok None (at_ a (w ++ r)) end.
Proof.
  intros W R. induction ks as [|k ks IH]; [reflexivity|]. cbn [nothing map group_round place]. unfold attempt. rewrite (one_word k a w r W R).
  destruct (memb w k); [reflexivity|]. unfold bind. change (map (fun _ : list text => @None text) ks) with (nothing ks). rewrite IH. destruct (place ks w); reflexivity.
Qed.
Lemma round_group_stuck ks : forall vs a b, stuck b ->
  group_round ks vs (at_ a b) = Ok None (at_ a b) \/ (group_round ks vs (at_ a b) = Panic /\ ~ safe b).
Proof.
  induction ks as [|k ks IH]; intros vs a b S; [left; reflexivity|]. destruct vs as [|v vs]; [left; reflexivity|]. cbn [group_round]. unfold attempt.
  assert (X : bind (group_round ks vs) (fun r => ret (option_map (cons v) r)) (at_ a b) = Ok None (at_ a b) \/ (bind (group_round ks vs) (fun r => ret (option_map (cons v) r)) (at_ a b) = Panic /\ ~ safe b)).
  { unfold bind. destruct (IH vs a b S) as [-> | [-> NS]]; [left; reflexivity|right; auto]. }
  destruct v as [w|]; [exact X|]. destruct (one_stuck k a b S) as [(e & ->)|(-> & NS)]; [exact X|right; auto].
Qed.
Lemma loop_stuck n ks vs a b : stuck b -> group_loop (S n) ks vs (at_ a b) = Ok vs (at_ a b) \/ (group_loop (S n) ks vs (at_ a b) = Panic /\ ~ safe b).
Proof. intros S. cbn [group_loop]. unfold bind. destruct (round_group_stuck ks vs a b S) as [-> | [-> NS]]; [left; reflexivity|right; auto]. Qed.
Lemma group_stuck ks a b : stuck b -> group ks (at_ a b) = Ok (nothing ks) (at_ a b) \/ (group ks (at_ a b) = Panic /\ ~ safe b).
Proof. apply loop_stuck. Qed.
Lemma place_some ks w vs : place ks w = Some vs -> ks <> [].
Proof. destruct ks; discriminate. Qed.
Lemma group_word ks a w r : a_word w -> name_end r ->
  let x := match place ks w with Some vs => Ok vs (at_ (a ++ w) r) | None => Ok (nothing ks) (at_ a (w ++ r)) end in
  group ks (at_ a (w ++ r)) = x \/ (group ks (at_ a (w ++ r)) = Panic /\ ~ safe r).
Proof.
  intros W R. cbv zeta. unfold group. destruct ks as [|k ks]; [left; reflexivity|]. cbn [List.length].
  change (group_loop (S (S (List.length ks))) (k :: ks) (nothing (k :: ks)) (at_ a (w ++ r))) with
    (bind (group_round (k :: ks) (nothing (k :: ks))) (fun r => match r with Some vs => group_loop (S (List.length ks)) (k :: ks) vs | None => ret (nothing (k :: ks)) end) (at_ a (w ++ r))).
  unfold bind. rewrite (round_group_word (k :: ks) a w r W R). destruct (place (k :: ks) w) as [vs|]; [|left; reflexivity].
  apply loop_stuck, name_end_stuck, R.
Qed.
(** A group never fails, so trying it is running it. *)
Lemma try_group_word ks a w r : a_word w -> name_end r ->
  let x := match place ks w with Some vs => Ok vs (at_ (a ++ w) r) | None => Ok (nothing ks) (at_ a (w ++ r)) end in
  try_parse (group ks) (at_ a (w ++ r)) = x \/ (try_parse (group ks) (at_ a (w ++ r)) = Panic /\ ~ safe r).
Proof.
  intros W R. cbv zeta. unfold try_parse. destruct (group_word ks a w r W R) as [-> | [-> NS]]; [left; destruct (place ks w); reflexivity|right; auto].
Qed.
Lemma try_group_stuck ks a b : stuck b -> try_parse (group ks) (at_ a b) = Ok (nothing ks) (at_ a b) \/ (try_parse (group ks) (at_ a b) = Panic /\ ~ safe b).
Proof. intros S. unfold try_parse. destruct (group_stuck ks a b S) as [-> | [-> NS]]; [left; reflexivity|right; auto]. Qed.

(** ** A round *)
Definition set_ligatures (s : parts) v := Parts (Some v) (caps s) (numeric s) (east_asian s) (position s) (emoji s).
Definition set_caps (s : parts) v := Parts (ligatures s) (Some v) (numeric s) (east_asian s) (position s) (emoji s).
Definition set_numeric (s : parts) v := Parts (ligatures s) (caps s) (Some v) (east_asian s) (position s) (emoji s).
Definition set_east_asian (s : parts) v := Parts (ligatures s) (caps s) (numeric s) (Some v) (position s) (emoji s).
Definition set_position (s : parts) v := Parts (ligatures s) (caps s) (numeric s) (east_asian s) (Some v) (emoji s).
Definition set_emoji (s : parts) v := Parts (ligatures s) (caps s) (numeric s) (east_asian s) (position s) (Some v).
Definition gstep (ks : list (list text)) (w : text) (set : list (option text) -> parts) : option (parts * bool) :=
  match place ks w with Some v => Some (set v, true) | None => Some (set (nothing ks), false) end.
Definition none {A} (o : option A) : bool := match o with None => true | Some _ => false end.
Definition wround (s : parts) (w : text) : option (parts * bool) :=
  if none (ligatures s) then gstep ligature_words w (set_ligatures s)
  else if none (caps s) && memb w caps_words then Some (set_caps s w, true)
  else if none (numeric s) then gstep numeric_words w (set_numeric s)
  else if none (east_asian s) then gstep east_asian_words w (set_east_asian s)
  else if none (position s) && memb w position_words then Some (set_position s w, true)
  else if none (emoji s) && memb w emoji_words then Some (set_emoji s w, true)
  else None.
Definition sround (s : parts) : option parts :=
  if none (ligatures s) then Some (set_ligatures s (nothing ligature_words))
  else if none (numeric s) then Some (set_numeric s (nothing numeric_words))
  else if none (east_asian s) then Some (set_east_asian s (nothing east_asian_words))
  else None.
Lemma skip_none a b : match b with [] => True | c :: _ => is_whitespace c = false end -> skip_whitespace (at_ a b) = Ok tt (at_ a b).
Proof.
  intros H. unfold skip_whitespace. rewrite skip_matches_at. destruct b as [|c b]; cbn [take_while drop_while]; [|rewrite H]; rewrite app_nil_r; reflexivity.
Qed.
Lemma round_skip s a b : round s (at_ a b) = round s (at_ (a ++ take_while is_whitespace b) (drop_while is_whitespace b)).
Proof.
  unfold round, bind. rewrite (skip_none _ (drop_while is_whitespace b)); [|apply drop_head]. unfold skip_whitespace. rewrite skip_matches_at. reflexivity.
Qed.
Lemma word_black w r : a_word w -> match w ++ r with [] => False | c :: _ => is_whitespace c = false end.
Proof. destruct w as [|c w]; [intros []|]. intros (L & S & _). apply start_black; assumption. Qed.
Lemma round_word s a w r : a_word w -> name_end r ->
  let x := match wround s w with
           | Some (s', true) => Ok (Some s') (at_ (a ++ w) r)
           | Some (s', false) => Ok (Some s') (at_ a (w ++ r))
           | None => Ok None (at_ a (w ++ r)) end in
  round s (at_ a (w ++ r)) = x \/ (round s (at_ a (w ++ r)) = Panic /\ ~ safe r).
Proof.
  intros W R. cbv zeta. unfold round, bind. rewrite skip_none; [|pose proof (word_black w r W) as H; destruct (w ++ r); [destruct H|exact H]].
  unfold wround, gstep. destruct s as [l c n e p m]. cbn [ligatures caps numeric east_asian position emoji]. unfold attempt.
  destruct l as [l|]; cbn [none].
  2:{ destruct (try_group_word ligature_words a w r W R) as [-> | [-> NS]]; [left; destruct (place ligature_words w); reflexivity|right; auto]. }
  assert (E : forall (p m : option text),
    let rest := match p with Some _ => match m with Some _ => ret None (at_ a (w ++ r)) | None => match try_parse (one_of emoji_words) (at_ a (w ++ r)) with Ok v q => Ok (Some (Parts (Some l) c n e p (Some v))) q | Fail _ q => ret None q | Panic => Panic | Loop => Loop end end
     | None => match try_parse (one_of position_words) (at_ a (w ++ r)) with Ok v q => Ok (Some (Parts (Some l) c n e (Some v) m)) q
        | Fail _ q => match m with Some _ => ret None q | None => match try_parse (one_of emoji_words) q with Ok v q => Ok (Some (Parts (Some l) c n e p (Some v))) q | Fail _ q => ret None q | Panic => Panic | Loop => Loop end end
        | Panic => Panic | Loop => Loop end end in
    rest = match (if none p && memb w position_words then Some (Parts (Some l) c n e (Some w) m, true) else if none m && memb w emoji_words then Some (Parts (Some l) c n e p (Some w), true) else None) with
       | Some (s', true) => Ok (Some s') (at_ (a ++ w) r) | Some (s', false) => Ok (Some s') (at_ a (w ++ r)) | None => Ok None (at_ a (w ++ r)) end).
  { intros p0 m0. cbv zeta. destruct p0, m0; cbn [none andb]; rewrite ?(one_word position_words a w r W R), ?(one_word emoji_words a w r W R);
      destruct (memb w position_words); rewrite ?(one_word emoji_words a w r W R); destruct (memb w emoji_words); reflexivity. }
  cbv zeta in E. specialize (E p m).
  assert (G : forall (c' : option text), c' = c ->
    let rest := match n with Some _ => match e with Some _ => match (if none p && memb w position_words then Some (Parts (Some l) c n e (Some w) m, true) else if none m && memb w emoji_words then Some (Parts (Some l) c n e p (Some w), true) else None) with
       | Some (s', true) => Ok (Some s') (at_ (a ++ w) r) | Some (s', false) => Ok (Some s') (at_ a (w ++ r)) | None => Ok None (at_ a (w ++ r)) end
        | None => match try_parse (group east_asian_words) (at_ a (w ++ r)) with Ok v q => Ok (Some (Parts (Some l) c n (Some v) p m)) q | Fail _ q => Loop | Panic => Panic | Loop => Loop end end
     | None => match try_parse (group numeric_words) (at_ a (w ++ r)) with Ok v q => Ok (Some (Parts (Some l) c (Some v) e p m)) q | Fail _ q => Loop | Panic => Panic | Loop => Loop end end in
    rest = match (if none n then match place numeric_words w with Some v => Some (Parts (Some l) c (Some v) e p m, true) | None => Some (Parts (Some l) c (Some (nothing numeric_words)) e p m, false) end
                  else if none e then match place east_asian_words w with Some v => Some (Parts (Some l) c n (Some v) p m, true) | None => Some (Parts (Some l) c n (Some (nothing east_asian_words)) p m, false) end
                  else if none p && memb w position_words then Some (Parts (Some l) c n e (Some w) m, true) else if none m && memb w emoji_words then Some (Parts (Some l) c n e p (Some w), true) else None) with
       | Some (s', true) => Ok (Some s') (at_ (a ++ w) r) | Some (s', false) => Ok (Some s') (at_ a (w ++ r)) | None => Ok None (at_ a (w ++ r)) end \/ (rest = Panic /\ ~ safe r)).
  { intros c' _. cbv zeta. destruct n as [n|]; cbn [none].
    - destruct e as [e|]; cbn [none]; [left; reflexivity|].
      destruct (try_group_word east_asian_words a w r W R) as [-> | [-> NS]]; [left; destruct (place east_asian_words w); reflexivity|right; auto].
    - destruct (try_group_word numeric_words a w r W R) as [-> | [-> NS]]; [left; destruct (place numeric_words w); reflexivity|right; auto]. }
  specialize (G c eq_refl). cbv zeta in G.
  assert (NF : forall ks e q, try_parse (group ks) (at_ a (w ++ r)) <> Fail e q).
  { intros ks e0 q0 X. destruct (try_group_word ks a w r W R) as [Y|[Y _]]; rewrite Y in X; [destruct (place ks w)|]; discriminate. }
  destruct c as [c|]; cbn [none andb].
  - destruct n as [n|]; [destruct e as [e|]|]; cbn [none] in *.
    + rewrite E. exact G.
    + destruct (try_parse (group east_asian_words) (at_ a (w ++ r))) eqn:X; try exact G. destruct (NF _ _ _ X).
    + destruct (try_parse (group numeric_words) (at_ a (w ++ r))) eqn:X; try exact G. destruct (NF _ _ _ X).
  - rewrite (one_word caps_words a w r W R). destruct (memb w caps_words); [left; reflexivity|].
    destruct n as [n|]; [destruct e as [e|]|]; cbn [none] in *.
    + rewrite E. exact G.
    + destruct (try_parse (group east_asian_words) (at_ a (w ++ r))) eqn:X; try exact G. destruct (NF _ _ _ X).
    + destruct (try_parse (group numeric_words) (at_ a (w ++ r))) eqn:X; try exact G. destruct (NF _ _ _ X).
Qed.
Lemma round_stuck s a b : stuck b -> match b with [] => True | c :: _ => is_whitespace c = false end ->
  let x := match sround s with Some s' => Ok (Some s') (at_ a b) | None => Ok None (at_ a b) end in
  round s (at_ a b) = x \/ (round s (at_ a b) = Panic /\ ~ safe b).
Proof.
  intros S H. cbv zeta. unfold round, bind. rewrite skip_none by exact H. unfold sround. destruct s as [l c n e p m]. cbn [ligatures caps numeric east_asian position emoji]. unfold attempt.
  destruct l as [l|]; cbn [none].
  2:{ destruct (try_group_stuck ligature_words a b S) as [-> | [-> NS]]; [left; reflexivity|right; auto]. }
  assert (CA : (exists e, try_parse (one_of caps_words) (at_ a b) = Fail e (at_ a b)) \/ (try_parse (one_of caps_words) (at_ a b) = Panic /\ ~ safe b)) by apply one_stuck, S.
  assert (PO : (exists e, try_parse (one_of position_words) (at_ a b) = Fail e (at_ a b)) \/ (try_parse (one_of position_words) (at_ a b) = Panic /\ ~ safe b)) by apply one_stuck, S.
  assert (EM : (exists e, try_parse (one_of emoji_words) (at_ a b) = Fail e (at_ a b)) \/ (try_parse (one_of emoji_words) (at_ a b) = Panic /\ ~ safe b)) by apply one_stuck, S.
  pose proof (try_group_stuck numeric_words a b S) as NU. pose proof (try_group_stuck east_asian_words a b S) as EA.
  destruct CA as [(e1 & CA)|(CA & NS)]; rewrite ?CA; [|destruct c as [c|]; [|right; auto]].
  all: destruct NU as [NU|(NU & NS1)]; [|destruct n as [n|]; [|destruct c; rewrite ?CA, ?NU; right; auto]].
  all: destruct EA as [EA|(EA & NS2)]; [|destruct e as [e|]; [|destruct c; destruct n; rewrite ?CA, ?NU, ?EA; try (right; auto; fail); left; reflexivity]].
  all: destruct PO as [(e2 & PO)|(PO & NS3)]; destruct EM as [(e3 & EM)|(EM & NS4)].
  all: try destruct c; try destruct n; try destruct e; try destruct p; try destruct m; cbn [none]; rewrite ?CA, ?NU, ?EA, ?PO, ?EM; try (left; reflexivity); right; auto.
Qed.
