From Coq Require Import String List NArith Bool Arith Lia Permutation.
From Verif Require Import Chars ParseModel ParseSpec ParseProofs ParseProofs2 ParseProofs3 ClockProofs KeywordProofs FeatureModel FeatureSpec FeatureProofs.
Import ListNotations.
Open Scope list_scope.

(** ** What the variables hold *)
Definition oword (o : option text) : list text := match o with Some w => [w] | None => [] end.
Definition ogroup (o : option (list (option text))) : list text := match o with Some vs => flat_map oword vs | None => [] end.
Definition flat (s : parts) : list text :=
  ogroup (ligatures s) ++ oword (caps s) ++ ogroup (numeric s) ++ ogroup (east_asian s) ++ oword (position s) ++ oword (emoji s).
Definition gvalid (ks : list (list text)) (o : option (list (option text))) : Prop :=
  match o with None => True | Some vs => vs = nothing ks \/ exists w, place ks w = Some vs end.
Definition ovalid (ks : list text) (o : option text) : Prop := match o with None => True | Some w => memb w ks = true end.
Record valid (s : parts) : Prop := {
  v_l : gvalid ligature_words (ligatures s);
  v_c : ovalid caps_words (caps s);
  v_n : gvalid numeric_words (numeric s);
  v_e : gvalid east_asian_words (east_asian s);
  v_p : ovalid position_words (position s);
  v_m : ovalid emoji_words (emoji s) }.
Lemma flat_nothing ks : flat_map oword (nothing ks) = [].
Proof. induction ks as [|k ks IH]; [reflexivity|exact IH]. Qed.
Lemma place_flat ks w vs : place ks w = Some vs -> flat_map oword vs = [w] /\ In w (concat ks).
Proof.
  revert vs. induction ks as [|k ks IH]; intros vs; [discriminate|]. cbn [place concat]. destruct (memb w k) eqn:M.
  - intros E. injection E as <-. cbn [flat_map oword]. rewrite flat_nothing. split; [reflexivity|]. apply in_or_app. left. apply memb_in, M.
  - destruct (place ks w) as [v|]; [|discriminate]. intros E. injection E as <-. destruct (IH v eq_refl) as [A B]. split; [exact A|]. apply in_or_app. right. exact B.
Qed.
Definition all_words : list text := concat ligature_words ++ caps_words ++ concat numeric_words ++ concat east_asian_words ++ position_words ++ emoji_words.

Lemma mid {A} (w : A) (x y : list A) : Permutation (x ++ [w] ++ y) (w :: x ++ y).
Proof. symmetry. apply (Permutation_middle x y w). Qed.
Lemma wround_facts s w s' t : wround s w = Some (s', t) -> valid s ->
  valid s' /\ (if t then Permutation (flat s') (w :: flat s) /\ In w all_words else flat s' = flat s).
Proof.
  intros E V. destruct V as [Vl Vc Vn Ve Vp Vm]. unfold wround, gstep in E. destruct s as [l c n e p m]. cbn [ligatures caps numeric east_asian position emoji] in *.
  unfold all_words. destruct l as [l|]; cbn [none] in E.
  2:{ destruct (place ligature_words w) as [v|] eqn:P; injection E as <- <-; (split; [constructor; cbn [gvalid ovalid ligatures caps numeric east_asian position emoji set_ligatures set_caps set_numeric set_east_asian set_position set_emoji]; eauto|]).
      - destruct (place_flat _ _ _ P) as [F J]. cbv iota. split; [|apply in_or_app; left; exact J]. unfold flat, set_ligatures. cbn [ligatures caps numeric east_asian position emoji ogroup]. rewrite F. reflexivity.
      - reflexivity. }
  destruct (none c && memb w caps_words) eqn:C.
  { apply andb_prop in C. destruct C as [C1 C2]. destruct c as [c|]; [discriminate|]. injection E as <- <-. split; [constructor; cbn [gvalid ovalid ligatures caps numeric east_asian position emoji set_ligatures set_caps set_numeric set_east_asian set_position set_emoji]; eauto|]. cbv iota.
    split; [|apply in_or_app; right; apply in_or_app; left; apply memb_in, C2]. unfold flat, set_caps. cbn [ligatures caps numeric east_asian position emoji ogroup oword]. apply mid. }
  clear C. destruct n as [n|]; cbn [none] in E.
  2:{ destruct (place numeric_words w) as [v|] eqn:P; injection E as <- <-; (split; [constructor; cbn [gvalid ovalid ligatures caps numeric east_asian position emoji set_ligatures set_caps set_numeric set_east_asian set_position set_emoji]; eauto|]).
      - destruct (place_flat _ _ _ P) as [F J]. cbv iota. split; [|apply in_or_app; right; apply in_or_app; right; apply in_or_app; left; exact J].
        unfold flat, set_numeric. cbn [ligatures caps numeric east_asian position emoji ogroup]. rewrite F. rewrite (app_assoc (flat_map oword l)), (app_assoc (flat_map oword l) (oword c)). apply mid.
      - reflexivity. }
  destruct e as [e|]; cbn [none] in E.
  2:{ destruct (place east_asian_words w) as [v|] eqn:P; injection E as <- <-; (split; [constructor; cbn [gvalid ovalid ligatures caps numeric east_asian position emoji set_ligatures set_caps set_numeric set_east_asian set_position set_emoji]; eauto|]).
      - destruct (place_flat _ _ _ P) as [F J]. cbv iota. split; [|do 3 (apply in_or_app; right); apply in_or_app; left; exact J].
        unfold flat, set_east_asian. cbn [ligatures caps numeric east_asian position emoji ogroup]. rewrite F. cbn [app]. rewrite !app_assoc. rewrite <- !(app_assoc _ (oword p)). apply mid.
      - reflexivity. }
  destruct (none p && memb w position_words) eqn:C.
  { apply andb_prop in C. destruct C as [C1 C2]. destruct p as [p|]; [discriminate|]. injection E as <- <-. split; [constructor; cbn [gvalid ovalid ligatures caps numeric east_asian position emoji set_ligatures set_caps set_numeric set_east_asian set_position set_emoji]; eauto|]. cbv iota.
    split; [|do 4 (apply in_or_app; right); apply in_or_app; left; apply memb_in, C2].
    unfold flat, set_position. cbn [ligatures caps numeric east_asian position emoji ogroup oword]. cbn [app]. rewrite !app_assoc. apply mid. }
  clear C. destruct (none m && memb w emoji_words) eqn:C; [|discriminate].
  apply andb_prop in C. destruct C as [C1 C2]. destruct m as [m|]; [discriminate|]. injection E as <- <-. split; [constructor; cbn [gvalid ovalid ligatures caps numeric east_asian position emoji set_ligatures set_caps set_numeric set_east_asian set_position set_emoji]; eauto|]. cbv iota.
  split; [|do 5 (apply in_or_app; right); apply memb_in, C2].
  unfold flat, set_emoji. cbn [ligatures caps numeric east_asian position emoji ogroup oword]. rewrite !app_assoc, app_nil_r. symmetry. apply Permutation_cons_append.
Qed.
Lemma sround_facts s s' : sround s = Some s' -> valid s -> valid s' /\ flat s' = flat s.
Proof.
  intros E V. destruct V as [Vl Vc Vn Ve Vp Vm]. unfold sround in E. destruct s as [l c n e p m]. cbn [ligatures caps numeric east_asian position emoji] in *.
  destruct l as [l|]; cbn [none] in E; [destruct n as [n|]; cbn [none] in E; [destruct e as [e|]; cbn [none] in E; [discriminate|]|]|];
    injection E as <-; (split; [constructor; cbn [gvalid ovalid ligatures caps numeric east_asian position emoji set_ligatures set_caps set_numeric set_east_asian set_position set_emoji]; eauto|reflexivity]).
Qed.

(** The words of the language *)
Definition plain_word (w : text) : bool :=
  match w with [] => false | c :: k => (c <? 128)%N && is_name_start_char c && forallb is_name_char k && forallb (fun c => negb (is_whitespace c)) w &&
    forallb (fun c => (c <? 128)%N) w && negb (text_eqb w (lit "normal")) && negb (text_eqb w (lit "none")) end.
Lemma all_plain : forallb plain_word all_words = true.
Proof. vm_compute. reflexivity. Qed.
Lemma plain_ok w : In w all_words -> a_word w /\ solid w /\ w <> [] /\ Forall (fun c => (c < 128)%N) w /\ text_eqb w (lit "normal") = false /\ text_eqb w (lit "none") = false.
Proof.
  intros I. pose proof (proj1 (forallb_forall _ _) all_plain w I) as H. unfold plain_word in H. destruct w as [|c k]; [discriminate|].
  repeat match goal with H : (_ && _)%bool = true |- _ => apply andb_prop in H; destruct H end.
  split; [|split; [|split; [|split; [|split]]]].
  - cbn. split; [apply N.ltb_lt; assumption|]. split; [assumption|]. apply Forall_forall. intros x X. rewrite forallb_forall in *. auto.
  - apply Forall_forall. intros x X. match goal with H : forallb (fun c => negb (is_whitespace c)) _ = true |- _ => rewrite forallb_forall in H; specialize (H x X); apply negb_true_iff in H; exact H end.
  - discriminate.
  - apply Forall_forall. intros x X. match goal with H : forallb (fun c => (c <? 128)%N) _ = true |- _ => rewrite forallb_forall in H; specialize (H x X); apply N.ltb_lt in H; exact H end.
  - apply negb_true_iff. assumption.
  - apply negb_true_iff. assumption.
Qed.

(** ** What is read *)
Lemma rounds_S n s p : rounds (S n) s p = match round s p with Ok (Some s') q => rounds n s' q | Ok None q => Ok s q | Fail e q => Fail e q | Panic => Panic | Loop => Loop end.
Proof. cbn [rounds]. unfold bind. destruct (round s p) as [[s'|] q|e q| |]; reflexivity. Qed.
Lemma sound n : forall s a b s' q, rounds n s (at_ a b) = Ok s' q -> valid s ->
  valid s' /\ exists x r, b = x ++ r /\ q = at_ (a ++ x) r /\
    (drop_while is_whitespace r = [] -> Permutation (flat s') (flat s ++ words b)) /\
    (stuck b -> match b with [] => False | c :: _ => is_whitespace c = false end -> r = b).
Proof.
  induction n as [|n IH]; intros s a b s' q E V; [discriminate|]. rewrite rounds_S, round_skip in E.
  pose proof (drop_head is_whitespace b) as BH. pose proof (take_drop is_whitespace b) as TD. pose proof (words_skip b) as WS.
  assert (SB : match b with [] => False | c :: _ => is_whitespace c = false end -> take_while is_whitespace b = [] /\ drop_while is_whitespace b = b).
  { destruct b as [|c b']; [intros []|]. intros H. cbn [take_while drop_while]. rewrite H. split; reflexivity. }
  set (v := take_while is_whitespace b) in *. set (b' := drop_while is_whitespace b) in *.
  assert (DONE : drop_while is_whitespace b' = b'). { destruct b' as [|c b'']; [reflexivity|]. cbn [drop_while]. rewrite BH. reflexivity. }
  destruct (head_cases b') as [S|(w & r1 & EB & W & R)].
  - destruct (round_stuck s (a ++ v) b' S BH) as [X|[X _]]; rewrite X in E; [|discriminate]. destruct (sround s) as [s1|] eqn:SR.
    + destruct (sround_facts s s1 SR V) as [V1 F1]. destruct (IH s1 (a ++ v) b' s' q E V1) as (V' & x & r & EX & EQ & PE & ST). split; [exact V'|].
      exists (v ++ x), r. split; [rewrite <- app_assoc, <- EX, TD; reflexivity|]. split; [rewrite EQ, <- app_assoc; reflexivity|]. split.
      * intros D. rewrite <- F1, <- WS. apply PE, D.
      * intros SS NB. destruct (SB NB) as [Ev Eb]. rewrite <- Eb. apply ST; [exact S|]. rewrite Eb. exact NB.
    + injection E as <- <-. split; [exact V|]. exists v, b'. split; [symmetry; exact TD|]. split; [reflexivity|]. split.
      * intros D. rewrite DONE in D. rewrite <- WS, D. cbn. rewrite app_nil_r. reflexivity.
      * intros _ NB. apply SB, NB.
  - assert (NST : ~ (stuck b /\ match b with [] => False | c :: _ => is_whitespace c = false end)).
    { intros [SS NB]. destruct (SB NB) as [_ Eb]. rewrite <- Eb, EB in SS. destruct w as [|c w]; [destruct W|]. destruct W as (L & ST & _). cbn in SS. destruct SS as [SS|SS]; [congruence|lia]. }
    rewrite EB in E. destruct (round_word s (a ++ v) w r1 W R) as [X|[X _]]; rewrite X in E; [|discriminate]. destruct (wround s w) as [[s1 [|]]|] eqn:WR.
    + destruct (wround_facts s w s1 true WR V) as [V1 [P1 J1]]. destruct (IH s1 ((a ++ v) ++ w) r1 s' q E V1) as (V' & x & r & EX & EQ & PE & ST). split; [exact V'|].
      exists ((v ++ w) ++ x), r. split; [rewrite <- TD, EB, EX, <- !app_assoc; reflexivity|]. split; [rewrite EQ, <- !app_assoc; reflexivity|]. split; [|intros SS NB; destruct NST; auto].
      intros D. assert (G : gap r1).
      { destruct r1 as [|c r1]; [exact I|]. cbn. destruct (is_whitespace c) eqn:C; [reflexivity|]. exfalso.
        assert (r = c :: r1) as -> by (apply ST; [apply name_end_stuck, R|reflexivity]). cbn [drop_while] in D. rewrite C in D. discriminate. }
      destruct (plain_ok w J1) as (_ & SO & NE & _). rewrite <- WS, EB, (words_app w r1 SO NE G).
      eapply Permutation_trans; [apply PE, D|]. eapply Permutation_trans; [apply Permutation_app_tail, P1|]. cbn [app]. apply Permutation_middle.
    + destruct (wround_facts s w s1 false WR V) as [V1 F1]. rewrite <- EB in E. destruct (IH s1 (a ++ v) b' s' q E V1) as (V' & x & r & EX & EQ & PE & ST). split; [exact V'|].
      exists (v ++ x), r. split; [rewrite <- app_assoc, <- EX, TD; reflexivity|]. split; [rewrite EQ, <- app_assoc; reflexivity|]. split; [|intros SS NB; destruct NST; auto].
      intros D. rewrite <- F1, <- WS. apply PE, D.
    + injection E as <- <-. split; [exact V|]. rewrite <- EB. exists v, b'. split; [symmetry; exact TD|]. split; [reflexivity|]. split; [|intros SS NB; destruct NST; auto].
      intros D. rewrite DONE in D. rewrite EB in D. destruct w as [|c w]; [destruct W|discriminate].
Qed.

(** ** What can be read *)
Fixpoint wrounds (n : nat) (s : parts) (ws : list text) {struct n} : option parts :=
  match n with
  | O => None
  | S n =>
      match ws with
      | [] => match sround s with Some s' => wrounds n s' [] | None => Some s end
      | w :: ws' => match wround s w with Some (s', true) => wrounds n s' ws' | Some (s', false) => wrounds n s' ws | None => None end
      end
  end.
Lemma ascii_safe t : ascii t -> safe t.
Proof. intros A. destruct t as [|c t]; [exact I|]. inversion A; assumption. Qed.
Lemma gap_end r : ascii r -> gap r -> name_end r.
Proof. intros A G. destruct r as [|c r]; [exact I|]. inversion A; subst. cbn in G |- *. apply white_end; assumption. Qed.
Lemma complete n : forall s a b s', Forall (fun w => In w all_words) (words b) -> ascii b -> wrounds n s (words b) = Some s' ->
  exists x r, b = x ++ r /\ rounds n s (at_ a b) = Ok s' (at_ (a ++ x) r) /\ drop_while is_whitespace r = [].
Proof.
  induction n as [|n IH]; intros s a b s' F A E; [discriminate|]. rewrite rounds_S, round_skip.
  pose proof (take_drop is_whitespace b) as TD. pose proof (words_skip b) as WS.
  assert (AD : ascii (drop_while is_whitespace b)). { unfold ascii in *. rewrite <- TD in A. apply Forall_app in A. apply A. }
  cbn [wrounds] in E. destruct (words b) as [|w ws] eqn:WB.
  - pose proof (words_nil b WB) as D. rewrite D in *. set (v := take_while is_whitespace b) in *.
    destruct (round_stuck s (a ++ v) [] I I) as [X|[_ X]]; [|destruct X; exact I]. rewrite X. destruct (sround s) as [s1|] eqn:SR.
    + destruct (IH s1 (a ++ v) [] s') as (x & r & EX & ER & DR); [constructor|constructor|exact E|]. exists (v ++ x), r.
      split; [rewrite <- app_assoc, <- EX; symmetry; exact TD|]. split; [rewrite ER, <- app_assoc; reflexivity|exact DR].
    + injection E as <-. exists v, []. split; [symmetry; exact TD|]. split; reflexivity.
  - destruct (words_first b w ws WB) as (r1 & D & G & SO & NE & WR1). rewrite D in *. set (v := take_while is_whitespace b) in *.
    pose proof (Forall_inv F) as FW. pose proof (Forall_inv_tail F) as FT. cbn beta in FW.
    destruct (plain_ok w FW) as (W & _ & _ & _ & _ & _). unfold ascii in AD. apply Forall_app in AD. destruct AD as [_ AR].
    destruct (round_word s (a ++ v) w r1 W (gap_end r1 AR G)) as [X|[_ X]]; [|destruct (X (ascii_safe r1 AR))]. rewrite X.
    destruct (wround s w) as [[s1 [|]]|] eqn:WR; [| |discriminate].
    + destruct (IH s1 ((a ++ v) ++ w) r1 s') as (x & r & EX & ER & DR); [rewrite WR1; exact FT|exact AR|rewrite WR1; exact E|].
      exists ((v ++ w) ++ x), r. split; [rewrite <- TD, EX, <- !app_assoc; reflexivity|]. split; [rewrite ER, <- !app_assoc; reflexivity|exact DR].
    + destruct (IH s1 (a ++ v) (w ++ r1) s') as (x & r & EX & ER & DR).
      { rewrite WS. constructor; assumption. } { apply Forall_app. split; [|exact AR]. apply plain_ok, FW. } { rewrite WS. exact E. }
      exists (v ++ x), r. split; [rewrite <- app_assoc, <- EX; symmetry; exact TD|]. split; [rewrite ER, <- app_assoc; reflexivity|exact DR].
Qed.
