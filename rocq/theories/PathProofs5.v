(** Arc flags written without separators. *)
From Coq Require Import String List NArith ZArith Bool Arith Lia.
From Verif Require Import Chars ParseModel ParseSpec ParseProofs ParseProofs2 ParseProofs3 ParseProofs4 PathModel PathSpec PathProofs PathProofs2 PathProofs3 PathProofs4.
Import ListNotations.

Definition flag_of (b : bool) : dec := if b then Dec false [1%N] 0 else Dec false [] 0.
Lemma flag_text b : T (flag_of b) = [if b then 49%N else 48%N].
Proof. destruct b; vm_compute; reflexivity. Qed.
Lemma flag_cp b : cp (flag_of b).
Proof. destruct b; (split; [cbn; try reflexivity; repeat split; try discriminate; repeat constructor|]); unfold plain; cbn; [right; lia|left; reflexivity]. Qed.

Section Glued.
  Variable finite : dec -> bool.
  Hypothesis finite_zero : finite (Dec false [] 0) = true.
  Variables rx ry rot x y : dec.
  Variables f g : bool.
  Hypothesis H1 : arg_ok finite rx.
  Hypothesis H2 : arg_ok finite ry.
  Hypothesis H3 : arg_ok finite rot.
  Hypothesis H4 : arg_ok finite x.
  Hypothesis H5 : arg_ok finite y.

  Let e5 := T y.
  Let e4 := T x ++ [32%N] ++ e5.
  Let e3g := T (flag_of g) ++ [] ++ e4.
  Let e3 := T (flag_of f) ++ [] ++ e3g.
  Let e2 := T rot ++ [32%N] ++ e3.
  Let e1 := T ry ++ [32%N] ++ e2.
  Let e0 := T rx ++ [32%N] ++ e1.
  Definition glued : text :=
    T rx ++ [32%N] ++ T ry ++ [32%N] ++ T rot ++ [32%N] ++ [if f then 49%N else 48%N] ++ [if g then 49%N else 48%N] ++ T x ++ [32%N] ++ T y.
  Lemma glued_eq : glued = e0.
  Proof. unfold glued, e0, e1, e2, e3, e3g, e4, e5. rewrite !flag_text. reflexivity. Qed.

  Lemma sp1 : is_sp [32%N]. Proof. right. reflexivity. Qed.
  Lemma sp0 : is_sp []. Proof. left. reflexivity. Qed.
  Lemma nt5 : not_trailing e5.
  Proof. unfold e5. rewrite <- (app_nil_r (T y)). apply nt_T; [apply H5|apply not_trailing_nil]. Qed.
  Lemma nt4 : not_trailing e4. Proof. apply nt_T; [apply H4|]. apply nt_sp; [apply sp1|apply nt5]. Qed.
  Lemma nt3g : not_trailing e3g. Proof. apply nt_T; [apply flag_cp|]. apply nt4. Qed.
  Lemma nt3 : not_trailing e3. Proof. apply nt_T; [apply flag_cp|]. apply nt3g. Qed.
  Lemma nt2 : not_trailing e2. Proof. apply nt_T; [apply H3|]. apply nt_sp; [apply sp1|apply nt3]. Qed.
  Lemma nt1 : not_trailing e1. Proof. apply nt_T; [apply H2|]. apply nt_sp; [apply sp1|apply nt2]. Qed.
  Lemma nt0 : not_trailing e0. Proof. apply nt_T; [apply H1|]. apply nt_sp; [apply sp1|apply nt1]. Qed.
  Lemma ho e d r : e = T d ++ r -> cp d -> head_ok e.
  Proof. intros -> C. apply T_head_ok. exact C. Qed.

  Lemma arc_args a : exists a', parse_args finite (slots ArcTo) (at_ a glued) =
    Ok (map norm0 [rx; ry; rot; flag_of f; flag_of g; x; y]) (at_ a' []).
  Proof.
    rewrite glued_eq. cbn [slots parse_args]. unfold bind. unfold e0.
    rewrite (number_at finite a rx [32%N] e1 H1 sp1 (stops_space _ _) (ho _ ry _ eq_refl (proj1 H2)) nt1). unfold e1 at 1.
    rewrite (number_at finite _ ry [32%N] e2 H2 sp1 (stops_space _ _) (ho _ rot _ eq_refl (proj1 H3)) nt2). unfold e2 at 1.
    rewrite (number_at finite _ rot [32%N] e3 H3 sp1 (stops_space _ _) (ho _ (flag_of f) _ eq_refl (flag_cp f)) nt3). unfold e3 at 1.
    rewrite (flag_at _ (flag_of f) [] e3g); [|destruct f; [right|left]; reflexivity|apply sp0|exact (ho _ (flag_of g) _ eq_refl (flag_cp g))|apply nt3g]. unfold e3g at 1.
    rewrite (flag_at _ (flag_of g) [] e4); [|destruct g; [right|left]; reflexivity|apply sp0|exact (ho _ x _ eq_refl (proj1 H4))|apply nt4]. unfold e4 at 1.
    rewrite (number_at finite _ x [32%N] e5 H4 sp1 (stops_space _ _)); [|unfold e5; rewrite <- (app_nil_r (T y)); apply T_head_ok; apply H5|apply nt5].
    assert (LAST : forall b, parse_number finite (at_ b e5) = Ok (norm0 y) (at_ (b ++ T y) [])).
    { intros b. pose proof (number_at finite b y [] [] H5 sp0 Logic.I Logic.I not_trailing_nil) as R. cbn [app] in R. rewrite !app_nil_r in R. exact R. }
    rewrite LAST.
    eexists. reflexivity.
  Qed.

  Definition glued_path : text := lit "M0 0A" ++ glued.
  Lemma glued_read fuel : 2 <= fuel ->
    exists q, parse_path finite fuel glued_path =
      Ok [D false MoveTo [Dec false [] 0; Dec false [] 0]; D false ArcTo (map norm0 [rx; ry; rot; flag_of f; flag_of g; x; y])] q.
  Proof.
    intros LE. destruct fuel as [|[|fuel]]; [lia|lia|].
    assert (Z0 : arg_ok finite (Dec false [] 0)) by (split; [exact (flag_cp false)|exact finite_zero]).
    set (z := Dec false [] 0) in *.
    assert (NA : not_trailing (65%N :: glued)).
    { apply nt_char; [discriminate|discriminate|]. rewrite glued_eq. apply nt0. }
    assert (HA : head_ok (65%N :: glued)) by (split; [reflexivity|discriminate]).
    unfold parse_path, parse_string. unfold glued_path. change (new (lit "M0 0A" ++ glued)) with (at_ [] (77%N :: T z ++ [32%N] ++ T z ++ [] ++ 65%N :: glued)).
    assert (HM : head_ok (77%N :: T z ++ [32%N] ++ T z ++ [] ++ 65%N :: glued)) by (split; [reflexivity|discriminate]).
    set (rest := T z ++ [32%N] ++ T z ++ [] ++ 65%N :: glued) in *.
    assert (D1 : exists a', parse_data finite false MoveTo (at_ [77%N] rest) = Ok (D false MoveTo [z; z]) (at_ a' (65%N :: glued))).
    { unfold parse_data, bind. cbn [slots parse_args]. unfold bind. unfold rest.
      rewrite (number_at finite _ z [32%N] _ Z0 sp1 (stops_space _ _)); [|apply T_head_ok, Z0|apply nt_T; [apply Z0|exact NA]].
      rewrite (number_at finite _ z [] (65%N :: glued) Z0 sp0); [|apply (stops_letter _ ArcTo)|exact HA|exact NA].
      eexists. reflexivity. }
    destruct D1 as (a1 & D1).
    destruct (arc_args (a1 ++ [65%N])) as (a2 & D2).
    set (ad := D false ArcTo (map norm0 [rx; ry; rot; flag_of f; flag_of g; x; y])).
    assert (PE : parse_extend finite (S (S fuel)) false [] (at_ [] (77%N :: rest)) = Ok [D false MoveTo [z; z]; ad] (at_ a2 [])).
    { cbn [parse_extend]. unfold bind at 1. rewrite is_empty_at.
      unfold bind at 1. rewrite parse_one_eq. unfold bind at 1. unfold pre at 1, bind at 1. rewrite (skip_ws_none [] _ HM). unfold ret at 1.
      assert (ST : PathProofs.step finite [] (at_ [] (77%N :: rest)) = Ok (D false MoveTo [z; z]) (at_ a1 (65%N :: glued))).
      { unfold PathProofs.step. cbn [hd_error]. pose proof (parse_id_at [] (77%N :: rest)) as PI. cbn iota beta in PI. change (id_of_char 77) with (Some MoveTo) in PI.
        assert (NX : next_command false None (at_ [] (77%N :: rest)) = Ok (false, MoveTo) (at_ [77%N] rest)).
        { unfold next_command, bind. erewrite or_remaining_ok by (rewrite PI; reflexivity). reflexivity. }
        unfold bind. rewrite NX. cbn [fst snd]. apply or_remaining_ok. unfold try_parse. rewrite D1. reflexivity. }
      rewrite ST. unfold bind at 1. rewrite is_empty_at. unfold bind at 1. rewrite parse_one_eq. unfold bind at 1.
      rewrite (pre_at (D false MoveTo [z; z]) [] a1 _ HA NA).
      assert (ST2 : PathProofs.step finite [D false MoveTo [z; z]] (at_ a1 (65%N :: glued)) = Ok ad (at_ a2 [])).
      { unfold PathProofs.step. cbn [hd_error]. pose proof (parse_id_at a1 (65%N :: glued)) as PI. cbn iota beta in PI. change (id_of_char 65) with (Some ArcTo) in PI.
        assert (NX : next_command false (Some (D false MoveTo [z; z])) (at_ a1 (65%N :: glued)) = Ok (false, ArcTo) (at_ (a1 ++ [65%N]) glued)).
        { unfold next_command, bind. erewrite or_remaining_ok by (rewrite PI; reflexivity). reflexivity. }
        unfold bind. rewrite NX. cbn [fst snd]. apply or_remaining_ok. unfold try_parse, parse_data, bind. rewrite D2. reflexivity. }
      rewrite ST2. destruct fuel; cbn [parse_extend]; unfold bind; rewrite is_empty_at; reflexivity. }
    unfold bind. rewrite (skip_ws_none [] _ HM). rewrite PE. rewrite (skip_ws_none a2 [] I). unfold expect_done, done. unfold bind.
    eexists. unfold at_. cbn [p_cursor p_input]. rewrite app_nil_r, Nat.ltb_irrefl. reflexivity.
  Qed.
End Glued.

Lemma glued_flags finite rx ry rot x y (f g : bool) :
  Forall (fun d => canonical d /\ plain d /\ finite d = true) [rx; ry; rot; x; y] -> finite (Dec false [] 0) = true ->
  forall fuel, 2 <= fuel ->
  exists l q, parse_path finite fuel (lit "M0 0A" ++ T rx ++ lit " " ++ T ry ++ lit " " ++ T rot ++ lit " " ++
    [if f then 49%N else 48%N; if g then 49%N else 48%N] ++ T x ++ lit " " ++ T y) = Ok l q /\
    same_path [D false MoveTo [zero; zero]; D false ArcTo [rx; ry; rot; flag_of f; flag_of g; x; y]] l.
Proof.
  intros F Z fuel LE.
  assert (K : forall d, In d [rx; ry; rot; x; y] -> arg_ok finite d).
  { intros d I0. rewrite Forall_forall in F. destruct (F d I0) as (A & B & C). split; [split; assumption|]. unfold norm0. destruct (dig d); auto. }
  destruct (glued_read finite Z rx ry rot x y f g) with (fuel := fuel) as (q & E); try (apply K; cbn; tauto); [exact LE|].
  eexists. exists q. split; [exact E|]. constructor; [|constructor; [|constructor]].
  - split; [reflexivity|]. constructor; [left; reflexivity|]. constructor; [left; reflexivity|constructor].
  - split; [reflexivity|]. apply norm0_args.
Qed.
