(** Proofs about the options of convertPathData. *)
From Coq Require Import List NArith Bool Lia.
From Verif Require Import OptionsModel OptionsSpec.
Import ListNotations.

Lemma has_keep : forall o m b f, has (keep o m b) f = has o f && (negb (has m f) || b).
Proof.
  intros o m b f. unfold has, keep. rewrite N.land_spec, N.lor_spec, N.ldiff_spec.
  assert (A : N.testbit all_flags (bit f) = true) by (destruct f; reflexivity). rewrite A.
  assert (B : N.testbit (if b then N.ones 16 else 0%N) (bit f) = b) by (destruct b, f; reflexivity). rewrite B.
  destruct (N.testbit o (bit f)), (N.testbit m (bit f)), b; reflexivity.
Qed.
Definition flag_eqb (f g : flag) : bool := N.eqb (bit f) (bit g).
Lemma has_just : forall f g, has (just f) g = flag_eqb f g.
Proof. intros f g. destruct f, g; reflexivity. Qed.
Lemma has_set : forall o g b f, has (set o g b) f = if flag_eqb g f then b else has o f.
Proof.
  intros o g b f. unfold set. destruct b; unfold has; [rewrite N.lor_spec|rewrite N.ldiff_spec]; fold (has (just g) f); rewrite has_just;
  destruct (flag_eqb g f); cbn; rewrite ?orb_true_r, ?orb_false_r, ?andb_true_r, ?andb_false_r; reflexivity.
Qed.
Lemma has_land : forall o p f, has (N.land o p) f = has o f && has p f.
Proof. intros. unfold has. apply N.land_spec. Qed.
Lemma has_all : forall f, has all_flags f = true.
Proof. destruct f; reflexivity. Qed.
Lemma has_config : forall c f, has (of_config c) f = asked c f.
Proof. intros c f. unfold of_config. rewrite !has_set. destruct f; reflexivity. Qed.

(** Each flag of the gathered options. *)
Definition want (s : styles) (f : flag) : bool :=
  match f with
  | CloseSegments => safe_to_close s && negb (maybe_mid s) && negb (maybe_end s)
  | UniteSegments => negb (maybe_has_stroke s) && negb (maybe_start s) && negb (maybe_mid s) && negb (maybe_end s)
      && match entry (st_rule s) with None => true | Some _ => xorb (maybe_has_evenodd s) (maybe_has_nonzero s) end
  | JoinNodes => negb (maybe_mid s)
  | RemoveEmptySegments => negb (maybe_start s) && negb (maybe_mid s) && negb (maybe_end s)
  | RemoveNoopCommands => negb (maybe_has_stroke s && maybe_has_linecap s)
  | RemoveCloseLine => negb (maybe_has_stroke s) && negb (maybe_mid s) && negb (maybe_end s)
  | _ => true
  end.
Lemma has_gather : forall s f, has (snd (gather s)) f = want s f.
Proof.
  intros s f. unfold gather, want. cbn [snd].
  generalize (maybe_has_stroke s) (safe_to_close s) (maybe_has_linecap s) (maybe_start s) (maybe_mid s) (maybe_end s)
    (match entry (st_rule s) with None => true | Some _ => xorb (maybe_has_evenodd s) (maybe_has_nonzero s) end).
  intros a b c d e g h. destruct a, b, c, d, e, g, h, f; reflexivity.
Qed.
Lemma has_options : forall c s f, has (options c s) f = want s f && asked c f.
Proof. intros. unfold options. rewrite has_land, has_gather, has_config. reflexivity. Qed.

(** What the tests say about the styles that are possible. *)
Lemma no_stroke : forall s l, drawn s l -> maybe_has_stroke s = false -> stroke l = NoPaint.
Proof.
  intros s l (D & _) H. unfold maybe_has_stroke in H. destruct (st_stroke s) as [[|[]] [|]| |]; cbn in *; congruence.
Qed.
Lemma no_marker : forall c k, may NoMarker c k -> maybe_marker c = false -> k = NoMarker.
Proof. intros c k M H. unfold maybe_marker in H. destruct c as [[|[]] [|]| |]; cbn in *; congruence. Qed.
Lemma no_markers : forall a b k, may_marker a b k -> maybe_marker a || maybe_marker b = false -> k = NoMarker.
Proof. intros a b k [M|M] H; apply orb_false_iff in H; destruct H as [H H']; eapply no_marker; eassumption. Qed.
Lemma no_cap : forall s l, static_cap s -> drawn s l -> maybe_has_linecap s = false -> cap l = Butt.
Proof.
  intros s l S (_ & D & _) H. unfold maybe_has_linecap in H. unfold static_cap in S.
  destruct (st_cap s) as [[|[]] [|]| |]; cbn in *; try congruence; exfalso; eapply S; reflexivity.
Qed.
Ltac bools := repeat match goal with
  | H : _ && _ = true |- _ => apply andb_true_iff in H; destruct H
  | H : negb _ = true |- _ => apply negb_true_iff in H
  end.
Lemma safe : forall c s l f, static_cap s -> f <> UniteSegments -> drawn s l -> has (options c s) f = true -> documented f l.
Proof.
  intros c s l f S N D H. rewrite has_options in H. pose proof D as (D1 & D2 & D3 & D4 & D5 & D6 & D7).
  destruct f; cbn [want] in H; bools; cbn [documented]; unfold maybe_start, maybe_mid, maybe_end, has_stroke in *;
    try exact Logic.I; try congruence; repeat split;
    try (eapply no_markers; eassumption); try (intros X; apply X; eapply no_stroke; eassumption).
  - unfold safe_to_close in *. match goal with H : _ || _ = true |- _ => apply orb_true_iff in H; destruct H as [U|U] end.
    + apply negb_true_iff in U. exfalso. match goal with H : stroke l <> NoPaint |- _ => apply H end. eapply no_stroke; eassumption.
    + apply andb_true_iff in U. destruct U as [U _]. unfold some_and in U. destruct (st_cap s) as [[|[]] [|]| |]; cbn in *; try discriminate. left. assumption.
  - unfold safe_to_close in *. match goal with H : _ || _ = true |- _ => apply orb_true_iff in H; destruct H as [U|U] end.
    + apply negb_true_iff in U. exfalso. match goal with H : stroke l <> NoPaint |- _ => apply H end. eapply no_stroke; eassumption.
    + apply andb_true_iff in U. destruct U as [_ U]. unfold some_and in U. destruct (st_join s) as [[|[]] [|]| |]; cbn in *; try discriminate. assumption.
  - intros [X Y]. apply andb_false_iff in H. destruct H as [H|H]; [apply X; eapply no_stroke; eassumption|apply Y; eapply no_cap; eassumption].
Qed.
Lemma unite : forall c s l, drawn s l -> has (options c s) UniteSegments = true ->
  rule l = fst (gather s) /\ ~ has_stroke l /\ m_start l = NoMarker /\ m_mid l = NoMarker /\ m_end l = NoMarker.
Proof.
  intros c s l D H. rewrite has_options in H. pose proof D as (D1 & D2 & D3 & D4 & D5 & D6 & D7). cbn [want] in H. bools.
  unfold maybe_start, maybe_mid, maybe_end, has_stroke in *.
  repeat split; try (eapply no_markers; eassumption); try (intros X; apply X; eapply no_stroke; eassumption).
  cbn [gather fst]. unfold overlay_fill_rule. unfold maybe_has_evenodd, maybe_has_nonzero in *.
  destruct (st_rule s) as [[|[]] [|]| |]; cbn in *; congruence.
Qed.
Lemma asked_for : forall c s f, has (options c s) f = true -> asked c f = true.
Proof. intros c s f H. rewrite has_options in H. bools. assumption. Qed.

(** A look for every choice of values. *)
Lemma could_stroke : forall s, maybe_has_stroke s = true -> exists p, p <> NoPaint /\ may NoPaint (st_stroke s) p.
Proof.
  intros s H. unfold maybe_has_stroke in H. destruct (st_stroke s) as [[|[|n]] [|]| |]; cbn in *; try discriminate;
  first [exists (Paint n); split; [discriminate|reflexivity]|exists (Paint 0); split; [discriminate|exact Logic.I]].
Qed.
Lemma could_cap : forall s, maybe_has_linecap s = true -> exists p, p <> Butt /\ may Butt (st_cap s) p.
Proof.
  intros s H. unfold maybe_has_linecap in H. destruct (st_cap s) as [[|[]] [|]| |]; cbn in *; try discriminate;
  first [exists RoundCap; split; [discriminate|first [exact Logic.I|reflexivity]]|exists Square; split; [discriminate|reflexivity]].
Qed.
Lemma could_marker : forall c, maybe_marker c = true -> exists k, k <> NoMarker /\ may NoMarker c k.
Proof.
  intros c H. unfold maybe_marker in H. destruct c as [[|[|n]] [|]| |]; cbn in *; try discriminate;
  first [exists (MarkerUrl n); split; [discriminate|reflexivity]|exists (MarkerUrl 0); split; [discriminate|exact Logic.I]].
Qed.
Lemma could_markers : forall a b, maybe_marker a || maybe_marker b = true -> exists k, k <> NoMarker /\ may_marker a b k.
Proof.
  intros a b H. apply orb_true_iff in H. destruct H as [H|H]; apply could_marker in H; destruct H as (k & N & M); exists k; split; try assumption; [left|right]; assumption.
Qed.
Lemma any : forall A (i : A) c, exists a, may i c a.
Proof. intros A i c. destruct c as [[|b] [|]| |]; cbn; try (exists i; exact Logic.I); [exists b|exists i]; reflexivity. Qed.
Lemma any_marker : forall a b, exists k, may_marker a b k.
Proof. intros a b. destruct (any marker NoMarker a) as [k K]. exists k. left. exact K. Qed.
Lemma used : forall c s f, f <> CloseSegments -> f <> UniteSegments -> (forall l, drawn s l -> documented f l) -> has (options c s) f = asked c f.
Proof.
  intros c s f N N' H. rewrite has_options. enough (W : want s f = true) by (rewrite W; reflexivity).
  destruct (any _ NoPaint (st_stroke s)) as [p P], (any _ Butt (st_cap s)) as [q Q], (any _ Miter (st_join s)) as [j J], (any _ Nonzero (st_rule s)) as [r R],
    (any_marker (st_marker s) (st_start s)) as [a A], (any_marker (st_marker s) (st_mid s)) as [b B], (any_marker (st_marker s) (st_end s)) as [e E].
  assert (M1 : forall b', may_marker (st_marker s) (st_start s) b' -> documented f (mkLook p q j r b' b e)) by (intros; apply H; repeat split; assumption).
  assert (M2 : forall b', may_marker (st_marker s) (st_mid s) b' -> documented f (mkLook p q j r a b' e)) by (intros; apply H; repeat split; assumption).
  assert (M3 : forall b', may_marker (st_marker s) (st_end s) b' -> documented f (mkLook p q j r a b b')) by (intros; apply H; repeat split; assumption).
  assert (M4 : forall p', may NoPaint (st_stroke s) p' -> documented f (mkLook p' q j r a b e)) by (intros; apply H; repeat split; assumption).
  assert (M5 : forall p' q', may NoPaint (st_stroke s) p' -> may Butt (st_cap s) q' -> documented f (mkLook p' q' j r a b e)) by (intros; apply H; repeat split; assumption).
  clear H. destruct f; try congruence; cbn [documented m_start m_mid m_end stroke cap] in *; cbn [want]; try reflexivity.
  - unfold maybe_mid. destruct (_ || _) eqn:X; [|reflexivity]. apply could_markers in X. destruct X as (k & K & L). exfalso. apply K, M2, L.
  - unfold maybe_start, maybe_mid, maybe_end.
    destruct (maybe_marker (st_marker s) || maybe_marker (st_start s)) eqn:X; [apply could_markers in X; destruct X as (k & K & L); exfalso; apply K, (M1 k), L|].
    destruct (maybe_marker (st_marker s) || maybe_marker (st_mid s)) eqn:Y; [apply could_markers in Y; destruct Y as (k & K & L); exfalso; apply K, (M2 k), L|].
    destruct (maybe_marker (st_marker s) || maybe_marker (st_end s)) eqn:Z; [apply could_markers in Z; destruct Z as (k & K & L); exfalso; apply K, (M3 k), L|].
    reflexivity.
  - destruct (maybe_has_stroke s) eqn:X; [|reflexivity]. destruct (maybe_has_linecap s) eqn:Y; [|reflexivity].
    apply could_stroke in X. apply could_cap in Y. destruct X as (p' & U & V), Y as (q' & U' & V'). exfalso. apply (M5 p' q' V V'). split; assumption.
  - destruct (maybe_has_stroke s) eqn:X; [apply could_stroke in X; destruct X as (p' & U & V); exfalso; apply (proj1 (M4 p' V)); exact U|].
    unfold maybe_mid, maybe_end.
    destruct (maybe_marker (st_marker s) || maybe_marker (st_mid s)) eqn:Y; [apply could_markers in Y; destruct Y as (k & K & L); exfalso; apply K, (M2 k), L|].
    destruct (maybe_marker (st_marker s) || maybe_marker (st_end s)) eqn:Z; [apply could_markers in Z; destruct Z as (k & K & L); exfalso; apply K, (M3 k), L|].
    reflexivity.
Qed.
