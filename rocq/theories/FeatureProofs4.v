From Coq Require Import String List NArith Bool Arith Lia Permutation.
From Verif Require Import Chars ParseModel ParseSpec ParseProofs ParseProofs2 ParseProofs3 ClockProofs KeywordProofs FeatureModel FeatureSpec FeatureProofs FeatureProofs2 FeatureProofs3.
Import ListNotations.
Open Scope list_scope.

(** ** Whole texts *)
Definition shorthand : parser -> out variant :=
  bind expect_ident (fun i => if text_eqb i (lit "normal") then ret Normal else if text_eqb i (lit "none") then ret NoLigatures else fail ExpectedIdent).
Lemma parse_variant_eq p : parse_variant p =
  match try_parse shorthand p with Ok v q => Ok v q | Fail _ q => bind (rounds 7 start) (fun s => ret (build s)) q | Panic => Panic | Loop => Loop end.
Proof. reflexivity. Qed.
Lemma try_short_word a w r : a_word w -> name_end r -> try_parse shorthand (at_ a (w ++ r)) =
  if text_eqb w (lit "normal") then Ok Normal (at_ (a ++ w) r) else if text_eqb w (lit "none") then Ok NoLigatures (at_ (a ++ w) r) else Fail ExpectedIdent (at_ a (w ++ r)).
Proof.
  intros W R. unfold try_parse, shorthand, bind. rewrite (ident_word a w r W R). destruct (text_eqb w (lit "normal")); [reflexivity|]. destruct (text_eqb w (lit "none")); [reflexivity|].
  unfold fail. cbn [at_ p_input p_cursor]. unfold at_. rewrite <- app_assoc. reflexivity.
Qed.
Lemma try_short_stuck a b : stuck b -> (exists e, try_parse shorthand (at_ a b) = Fail e (at_ a b)) \/ (try_parse shorthand (at_ a b) = Panic /\ ~ safe b).
Proof.
  intros S. unfold try_parse, shorthand, bind. destruct (ident_stuck a b S) as [(e & q & -> & Q)|(-> & NS)]; [left|right; auto]. exists e. rewrite Q. reflexivity.
Qed.
Lemma ends (v : variant) a r q : (skip_whitespace ;;; expect_done ;;; ret v)%parse (at_ a r) = Ok v q -> drop_while is_whitespace r = [].
Proof.
  unfold bind, skip_whitespace. rewrite skip_matches_at. unfold expect_done. cbn [at_ p_cursor p_input].
  destruct (drop_while is_whitespace r) as [|c x]; [reflexivity|]. rewrite !blen_app. cbn [blen]. pose proof (width_pos c) as W.
  destruct (Nat.ltb_spec (blen a + blen (take_while is_whitespace r)) (blen a + blen (take_while is_whitespace r) + (width c + blen x))); [discriminate|lia].
Qed.
Lemma finish (v : variant) a r : drop_while is_whitespace r = [] -> exists q, (skip_whitespace ;;; expect_done ;;; ret v)%parse (at_ a r) = Ok v q.
Proof.
  intros D. unfold bind, skip_whitespace. rewrite skip_matches_at, D. unfold expect_done. cbn [at_ p_cursor p_input]. rewrite app_nil_r, Nat.ltb_irrefl. eexists. reflexivity.
Qed.
Lemma gap_of r : drop_while is_whitespace r = [] -> gap r.
Proof. destruct r as [|c r]; [intros _; exact I|]. cbn [drop_while gap]. destruct (is_whitespace c); [reflexivity|discriminate]. Qed.
Lemma words_none r : drop_while is_whitespace r = [] -> words r = [].
Proof. intros D. rewrite <- words_skip, D. reflexivity. Qed.
Lemma start_valid : valid start.
Proof. constructor; exact I. Qed.
Inductive holds : variant -> list text -> Prop :=
| holds_normal : holds Normal [lit "normal"]
| holds_none : holds NoLigatures [lit "none"]
| holds_parts s : valid s -> holds (build s) (flat s).
Lemma read_holds t v q : read_variant t = Ok v q -> exists ws, holds v ws /\ Permutation (words t) ws.
Proof.
  unfold read_variant, parse_string. change (new t) with (at_ [] t). unfold bind at 1. unfold skip_whitespace at 1. rewrite skip_matches_at. cbn [app].
  pose proof (words_skip t) as WS. pose proof (drop_head is_whitespace t) as BH. set (b := drop_while is_whitespace t) in *. set (a := take_while is_whitespace t).
  unfold bind at 1. rewrite parse_variant_eq.
  assert (BODY : forall r0, bind (rounds 7 start) (fun s => ret (build s)) (at_ a b) = r0 -> match r0 with Ok v' p => (skip_whitespace ;;; expect_done ;;; ret v')%parse p | Fail e p => Fail e p | Panic => Panic | Loop => Loop end = Ok v q ->
     exists ws, holds v ws /\ Permutation (words t) ws).
  { intros r0 E F. unfold bind in E. destruct (rounds 7 start (at_ a b)) as [s p|e p| |] eqn:R; subst r0; try discriminate. unfold ret at 1 in F.
    destruct (sound 7 start a b s p R start_valid) as (V & x & r & EB & EP & PE & _). subst p.
    assert (v = build s) as -> by (revert F; unfold bind; destruct (skip_whitespace (at_ (a ++ x) r)); try discriminate; destruct (expect_done _); try discriminate; unfold ret; intros F; injection F; auto).
    apply ends in F. exists (flat s). split; [constructor; exact V|]. rewrite <- WS. symmetry. exact (PE F). }
  destruct (head_cases b) as [S|(w & r & EB & W & R)].
  - destruct (try_short_stuck a b S) as [(e & ->)|(-> & _)]; [|discriminate]. apply BODY. reflexivity.
  - rewrite EB. rewrite (try_short_word a w r W R).
    assert (ONE : forall k u, w = lit k -> solid (lit k) -> lit k <> [] -> (skip_whitespace ;;; expect_done ;;; ret u)%parse (at_ (a ++ w) r) = Ok v q -> v = u /\ words t = [lit k]).
    { intros k u -> SO NE F. assert (v = u) as -> by (revert F; unfold bind; destruct (skip_whitespace (at_ (a ++ lit k) r)); try discriminate; destruct (expect_done _); try discriminate; unfold ret; intros F; injection F; auto).
      apply ends in F. split; [reflexivity|]. rewrite <- WS, EB, (words_app (lit k) r SO NE (gap_of r F)), (words_none r F). reflexivity. }
    destruct (text_eqb w (lit "normal")) eqn:E1; [|destruct (text_eqb w (lit "none")) eqn:E2].
    + intros F. apply text_eqb_spec in E1. destruct (ONE _ _ E1 ltac:(repeat constructor) ltac:(discriminate) F) as [-> ->]. eexists. split; [constructor|reflexivity].
    + intros F. apply text_eqb_spec in E2. destruct (ONE _ _ E2 ltac:(repeat constructor) ltac:(discriminate) F) as [-> ->]. eexists. split; [constructor|reflexivity].
    + rewrite <- EB. apply BODY. reflexivity.
Qed.
Lemma can_read t s : Forall (fun w => In w all_words) (words t) -> ascii t -> wrounds 7 start (words t) = Some s -> reads t (build s).
Proof.
  intros F A E. unfold reads, read_variant, parse_string. change (new t) with (at_ [] t). unfold bind at 1. unfold skip_whitespace at 1. rewrite skip_matches_at. cbn [app].
  pose proof (words_skip t) as WS. pose proof (take_drop is_whitespace t) as TD.
  assert (SH : exists e, try_parse shorthand (at_ (take_while is_whitespace t) (drop_while is_whitespace t)) = Fail e (at_ (take_while is_whitespace t) (drop_while is_whitespace t))).
  { destruct (words t) as [|w ws] eqn:WT.
    - rewrite (words_nil t WT). destruct (try_short_stuck (take_while is_whitespace t) [] I) as [X|[_ X]]; [exact X|destruct X; exact I].
    - destruct (words_first t w ws WT) as (r & D & G & _ & _ & _). pose proof (Forall_inv F) as J. destruct (plain_ok w J) as (W & _ & _ & _ & N1 & N2).
      assert (AR : ascii r). { unfold ascii in *. rewrite <- TD, D in A. apply Forall_app in A. destruct A as [_ A]. apply Forall_app in A. apply A. }
      rewrite D, (try_short_word _ w r W (gap_end r AR G)), N1, N2. eauto. }
  set (a := take_while is_whitespace t) in *. set (b := drop_while is_whitespace t) in *.
  unfold bind at 1. rewrite parse_variant_eq. destruct SH as [e ->].
  assert (AB : ascii b). { unfold ascii in *. rewrite <- TD in A. apply Forall_app in A. apply A. }
  destruct (complete 7 start a b s) as (x & r & EX & ER & DR); [rewrite WS; exact F|exact AB|rewrite WS; exact E|]. unfold bind at 1. rewrite ER. unfold ret at 1. apply finish, DR.
Qed.

(** ** Writing *)
Lemma write_words : forall ps after, Forall (fun o => match o with Some w => solid w /\ w <> [] /\ ascii w | None => True end) ps ->
  forall pre, (after = true -> solid pre /\ pre <> []) -> (after = false -> pre = []) ->
  words (pre ++ write_parts after ps) = (if after then [pre] else []) ++ flat_map oword ps.
Proof.
  induction ps as [|o ps IH]; intros after F pre T N; cbn [write_parts flat_map].
  - rewrite !app_nil_r. destruct after.
    + destruct (T eq_refl) as [S NE]. rewrite <- (app_nil_r pre) at 1. rewrite (words_app pre [] S NE I). reflexivity.
    + rewrite (N eq_refl). reflexivity.
  - pose proof (Forall_inv F) as FO. pose proof (Forall_inv_tail F) as FT. cbn beta in FO. destruct o as [w|]; cbn [write_part later oword app].
    + destruct FO as (S & NE & _). specialize (IH true FT w (fun _ => conj S NE) ltac:(discriminate)). destruct after.
      * destruct (T eq_refl) as [SP NP]. change (([32%N] ++ w) ++ write_parts true ps) with (32%N :: (w ++ write_parts true ps)).
        rewrite (words_app pre (32%N :: (w ++ write_parts true ps)) SP NP eq_refl). unfold words at 1. cbn [split]. change (is_whitespace 32) with true. cbv iota. fold (words (w ++ write_parts true ps)).
        rewrite IH. reflexivity.
      * rewrite (N eq_refl). cbn [app]. exact IH.
    + apply IH; assumption.
Qed.
Lemma write_ascii : forall ps after, Forall (fun o => match o with Some w => solid w /\ w <> [] /\ ascii w | None => True end) ps -> ascii (write_parts after ps).
Proof.
  induction ps as [|o ps IH]; intros after F; cbn [write_parts]; [constructor|]. pose proof (Forall_inv F) as FO. pose proof (Forall_inv_tail F) as FT.
  apply Forall_app. split; [|apply IH, FT]. destruct o as [w|]; [|constructor]. cbn [write_part]. apply Forall_app. destruct FO as (_ & _ & A). split; [|exact A].
  destruct after; [constructor; [reflexivity|constructor]|constructor].
Qed.
Lemma nothing_present ks : present (nothing ks) = false.
Proof. induction ks as [|k ks IH]; [reflexivity|exact IH]. Qed.
Lemma nothing_write ks : write_group (nothing ks) = [].
Proof. induction ks as [|k ks IH]; [reflexivity|exact IH]. Qed.
Lemma place_part ks w vs : place ks w = Some vs -> group_part vs = Some w.
Proof.
  revert vs. induction ks as [|k ks IH]; intros vs; [discriminate|]. cbn [place]. destruct (memb w k).
  - intros E. injection E as <-. unfold group_part. cbn [present existsb orb]. unfold write_group. cbn [flat_map]. fold (write_group (nothing ks)). rewrite nothing_write, app_nil_r. reflexivity.
  - destruct (place ks w) as [v|]; [|discriminate]. intros E. injection E as <-. exact (IH v eq_refl).
Qed.
Lemma group_placed ks o : gvalid ks o -> exists x, placed ks x (unwrap ks o) /\ group_part (unwrap ks o) = x /\ ogroup o = oword x /\ (forall w, x = Some w -> In w (concat ks)).
Proof.
  assert (NO : placed ks None (nothing ks) /\ group_part (nothing ks) = None /\ flat_map oword (nothing ks) = [] /\ (forall w, @None text = Some w -> In w (concat ks))).
  { split; [reflexivity|]. split; [unfold group_part; rewrite nothing_present; reflexivity|]. split; [apply flat_nothing|discriminate]. }
  destruct o as [vs|]; cbn [gvalid unwrap ogroup].
  - intros [-> |(w & P)]; [exists None; exact NO|]. exists (Some w). destruct (place_flat _ _ _ P) as [FL J]. split; [exact P|]. split; [apply (place_part _ _ _ P)|]. split; [exact FL|].
    intros w' E. injection E as <-. exact J.
  - intros _. exists None. destruct NO as (A & B & _ & C). split; [exact A|]. split; [exact B|]. split; [reflexivity|exact C].
Qed.
Lemma oall ks o : ovalid ks o -> forall w, o = Some w -> In w ks.
Proof. intros V w ->. apply memb_in, V. Qed.
Lemma holds_written v ws : holds v ws -> words (write_variant v) = ws /\ reads (write_variant v) v.
Proof.
  intros H. destruct H as [| |s V].
  - split; [vm_compute; reflexivity|]. eexists. vm_compute. reflexivity.
  - split; [vm_compute; reflexivity|]. eexists. vm_compute. reflexivity.
  - destruct V as [Vl Vc Vn Ve Vp Vm].
    destruct (group_placed _ _ Vl) as (l & L & Lp & Lf & La). destruct (group_placed _ _ Vn) as (n & NU & Np & Nf & Na). destruct (group_placed _ _ Ve) as (e & E & Ep & Ef & Ea).
    destruct (in_line_read l (caps s) n e (position s) (emoji s) _ _ _ L Vc NU E Vp Vm) as (s' & W & B).
    assert (ALL : Forall (fun w => In w all_words) (in_line l (caps s) n e (position s) (emoji s))).
    { unfold in_line, all_words. apply Forall_forall. intros w J. pose proof (oall _ _ Vc) as Ca. pose proof (oall _ _ Vp) as Pa. pose proof (oall _ _ Vm) as Ma.
      assert (OW : forall o : option text, In w (oword o) -> o = Some w) by (intros [x|]; [intros [-> |[]]; reflexivity|intros []]).
      repeat (apply in_app_or in J; destruct J as [J|J]); apply OW in J.
      - apply in_or_app. left. apply La, J.
      - apply in_or_app. right. apply in_or_app. left. apply Ca, J.
      - do 2 (apply in_or_app; right). apply in_or_app. left. apply Na, J.
      - do 3 (apply in_or_app; right). apply in_or_app. left. apply Ea, J.
      - do 4 (apply in_or_app; right). apply in_or_app. left. apply Pa, J.
      - do 5 (apply in_or_app; right). apply Ma, J. }
    assert (WV : write_variant (build s) = write_parts false [l; caps s; n; e; position s; emoji s]) by (unfold build, write_variant; rewrite Lp, Np, Ep; reflexivity).
    assert (PS : Forall (fun o => match o with Some w => solid w /\ w <> [] /\ ascii w | None => True end) [l; caps s; n; e; position s; emoji s]).
    { rewrite Forall_forall in ALL. apply Forall_forall. intros o J. destruct o as [w|]; [|exact I].
      destruct (plain_ok w) as (_ & A1 & A2 & A3 & _); [|split; [exact A1|split; [exact A2|exact A3]]]. apply ALL. unfold in_line.
      assert (X : flat_map oword [l; caps s; n; e; position s; emoji s] = oword l ++ oword (caps s) ++ oword n ++ oword e ++ oword (position s) ++ oword (emoji s)) by (cbn [flat_map]; rewrite app_nil_r; reflexivity).
      rewrite <- X. apply in_flat_map. exists (Some w). split; [exact J|left; reflexivity]. }
    assert (WW : words (write_variant (build s)) = in_line l (caps s) n e (position s) (emoji s)).
    { rewrite WV. pose proof (write_words _ false PS [] ltac:(discriminate) (fun _ => eq_refl)) as X. cbn [app] in X. rewrite X. unfold in_line. cbn [flat_map]. rewrite app_nil_r. reflexivity. }
    split; [rewrite WW; unfold in_line, flat; rewrite Lf, Nf, Ef; reflexivity|].
    assert (BB : build s' = build s) by (rewrite B; reflexivity).
    assert (R : reads (write_variant (build s)) (build s')).
    { apply can_read; [rewrite WW; exact ALL|rewrite WV; apply write_ascii, PS|rewrite WW; exact W]. }
    rewrite BB in R. exact R.
Qed.
Lemma written_again t v : reads t v -> same_words t (write_variant v) /\ reads (write_variant v) v.
Proof.
  intros (q & E). destruct (read_holds t v q E) as (ws & H & P). destruct (holds_written v ws H) as [W R]. split; [|exact R]. unfold same_words. rewrite W. exact P.
Qed.

(** ** In turn *)
Definition family_words : list (list text) := [concat ligature_words; caps_words; concat numeric_words; concat east_asian_words; position_words; emoji_words].
Definition family_b (i : nat) : bool :=
  match nth_error families i, nth_error family_words i with
  | Some fam, Some ks => forallb (fun f => match nth_error features f with Some ws => forallb (fun w => memb (lit w) ks) ws | None => true end) fam
  | _, _ => false
  end.
Lemma family_in i fam ks : nth_error families i = Some fam -> nth_error family_words i = Some ks -> family_b i = true -> forall w, (exists f, In f fam /\ choice f w) -> In w ks.
Proof.
  intros A B C w (f & F & (ws & E & J)). unfold family_b in C. rewrite A, B in C. pose proof (proj1 (forallb_forall _ _) C f F) as D. cbn beta in D. rewrite E in D.
  apply in_map_iff in J. destruct J as (x & <- & X). apply memb_in. exact (proj1 (forallb_forall _ _) D x X).
Qed.
Lemma memb_of w ks : In w ks -> memb w ks = true.
Proof. intros J. apply existsb_exists. exists w. split; [exact J|apply text_eqb_refl]. Qed.
Lemma placed_of ks w : In w (concat ks) -> exists vs, place ks w = Some vs.
Proof.
  induction ks as [|k ks IH]; cbn [concat place]; [intros []|]. intros J. destruct (memb w k) eqn:M; [eauto|]. apply in_app_or in J.
  destruct J as [J|J]; [rewrite (memb_of w k J) in M; discriminate|]. destruct (IH J) as [vs ->]. cbn. eauto.
Qed.
Lemma take_turn fam fams ws ks : in_turn (fam :: fams) ws -> (forall w, (exists f, In f fam /\ choice f w) -> In w ks) ->
  exists o ws', ws = oword o ++ ws' /\ in_turn fams ws' /\ (forall w, o = Some w -> In w ks).
Proof.
  intros [T|(w & ws' & -> & C & T)] K.
  - exists None, ws. split; [reflexivity|]. split; [exact T|discriminate].
  - exists (Some w), ws'. split; [reflexivity|]. split; [exact T|]. intros x E. injection E as <-. apply K, C.
Qed.
Lemma turn_read t : ascii t -> in_turn families (words t) -> exists v, reads t v.
Proof.
  intros A T. unfold families in T.
  destruct (take_turn _ _ _ _ T (family_in 0 _ _ eq_refl eq_refl ltac:(vm_compute; reflexivity))) as (l & w1 & E1 & T1 & K1).
  destruct (take_turn _ _ _ _ T1 (family_in 1 _ _ eq_refl eq_refl ltac:(vm_compute; reflexivity))) as (c & w2 & E2 & T2 & K2).
  destruct (take_turn _ _ _ _ T2 (family_in 2 _ _ eq_refl eq_refl ltac:(vm_compute; reflexivity))) as (n & w3 & E3 & T3 & K3).
  destruct (take_turn _ _ _ _ T3 (family_in 3 _ _ eq_refl eq_refl ltac:(vm_compute; reflexivity))) as (e & w4 & E4 & T4 & K4).
  destruct (take_turn _ _ _ _ T4 (family_in 4 _ _ eq_refl eq_refl ltac:(vm_compute; reflexivity))) as (p & w5 & E5 & T5 & K5).
  destruct (take_turn _ _ _ _ T5 (family_in 5 _ _ eq_refl eq_refl ltac:(vm_compute; reflexivity))) as (m & w6 & E6 & T6 & K6).
  cbn [in_turn] in T6. subst w6.
  assert (W : words t = in_line l c n e p m) by (rewrite E1, E2, E3, E4, E5, E6, app_nil_r; reflexivity).
  assert (PL : forall ks o, (forall w, o = Some w -> In w (concat ks)) -> exists vs, placed ks o vs).
  { intros ks [w|] K; [|exists (nothing ks); reflexivity]. apply placed_of, K. reflexivity. }
  assert (OV : forall ks o, (forall w, o = Some w -> In w ks) -> ovalid ks o) by (intros ks [w|] K; [apply memb_of, K; reflexivity|exact I]).
  destruct (PL ligature_words l K1) as [vl L]. destruct (PL numeric_words n K3) as [vn NU]. destruct (PL east_asian_words e K4) as [ve E].
  destruct (in_line_read l c n e p m vl vn ve L (OV _ _ K2) NU E (OV _ _ K5) (OV _ _ K6)) as (s & WR & B).
  exists (build s). apply can_read; [|exact A|rewrite W; exact WR]. rewrite W. apply Forall_forall. intros w J. unfold in_line, all_words in *.
  assert (OW : forall o : option text, In w (oword o) -> o = Some w) by (intros [x|]; [intros [-> |[]]; reflexivity|intros []]).
  repeat (apply in_app_or in J; destruct J as [J|J]); apply OW in J.
  - apply in_or_app. left. apply K1, J.
  - apply in_or_app. right. apply in_or_app. left. apply K2, J.
  - do 2 (apply in_or_app; right). apply in_or_app. left. apply K3, J.
  - do 3 (apply in_or_app; right). apply in_or_app. left. apply K4, J.
  - do 4 (apply in_or_app; right). apply in_or_app. left. apply K5, J.
  - do 5 (apply in_or_app; right). apply K6, J.
Qed.
