(** No panic while reading transforms and clock values from ASCII text. *)
From Coq Require Import String List NArith ZArith Bool Arith Lia.
From Verif Require Import Chars ParseModel ParseSpec ParseProofs ParseProofs2 ParseProofs3 ParseProofs4 PathModel PathSpec PathProofs PathProofs2
  ListProofs ClockModel ClockProofs TransformTextModel.
Import ListNotations.
Open Scope nat_scope.

Lemma ascii_suf t r : ascii (t ++ r) -> ascii r.
Proof. intros H. apply ascii_app in H. tauto. Qed.
Lemma ok_f64_ascii finite a b : ascii b -> ok_at (parse_f64 finite) (fun _ t _ => t <> []) a b.
Proof. apply (ok_f64 finite ascii); [exact ascii_suf|exact fine_ascii_skip]. Qed.
Lemma ok_char_ascii c a b : ascii b -> ok_at (skip_char c) (fun _ _ _ => True) a b.
Proof. intros A. destruct (skip_char_ascii c a b A) as (t & r & E & E'). left. exists tt, t, r. auto. Qed.
Lemma ok_ws a b : ok_at skip_whitespace (fun _ _ _ => True) a b.
Proof. eapply ok_weaken; [apply ok_skip|auto]. Qed.
Lemma ok_read a b : ascii b -> ok_at read (fun _ t _ => t <> []) a b.
Proof.
  intros A. destruct b as [|c b]; [right; exists EndOfInput, (at_ a []); rewrite read_end; auto|].
  left. exists c, [c], b. split; [reflexivity|]. inversion A. rewrite read_at by assumption. split; [reflexivity|discriminate].
Qed.
Lemma ok_expect c a b : ascii b -> ok_at (expect_char c) (fun _ t _ => t <> []) a b.
Proof.
  intros A. unfold expect_char. eapply ok_bind; [apply ok_read, A|]. intros v t r -> T.
  destruct (N.eqb v c); [apply ok_ret|apply ok_fail]. rewrite app_nil_r. exact T.
Qed.
Lemma ok_ident a b : ascii b -> ok_at expect_ident (fun _ t _ => t <> []) a b.
Proof.
  intros A. destruct b as [|c b].
  - right. exists EndOfInput, (at_ a []). unfold expect_ident, bind, cursor. rewrite read_end. auto.
  - inversion A as [|? ? L A']. destruct (is_name_start_char c) eqn:S.
    + left. exists (c :: take_while is_name_char b), (c :: take_while is_name_char b), (drop_while is_name_char b).
      split; [cbn [app]; rewrite take_drop; reflexivity|]. split; [apply expect_ident_at; assumption|discriminate].
    + right. exists ExpectedIdent, (at_ (a ++ [c]) b). split; [|cbn [at_ p_input]; rewrite <- app_assoc; reflexivity].
      unfold expect_ident, bind, cursor. rewrite read_at by exact L. rewrite S. change (p_cursor (at_ a (c :: b))) with (blen a). rewrite slice_from_at. reflexivity.
Qed.
Lemma ok_or_else {A} (f g : parser -> out A) Q a b : ok_at f Q a b -> ok_at g Q a b -> ok_at (or_else f g) Q a b.
Proof.
  intros F G. unfold ok_at, or_else. destruct (ok_try f Q a b F) as [(v & t & r & -> & E & HQ)|(e & E)].
  - left. exists v, t, r. rewrite E. auto.
  - rewrite E. exact G.
Qed.

Section Values.
  Variable finite : dec -> bool.
  Variable f32 : dec -> dec.
  Lemma ok_f32 a b : ascii b -> ok_at (parse_f32 finite f32) (fun _ t _ => t <> []) a b.
  Proof.
    intros A. unfold parse_f32. eapply ok_bind; [apply ok_f64_ascii, A|]. intros v t r -> T. apply ok_ret. rewrite app_nil_r. exact T.
  Qed.

  (** Running a chain of steps on ASCII text. *)
  Ltac next := intros ? ? ? -> ?; match goal with H : ascii (_ ++ _) |- _ => apply ascii_suf in H end.
  Lemma some_text (t u : text) : t <> [] -> t ++ u <> [].
  Proof. intros T X. apply app_eq_nil in X. tauto. Qed.
  Lemma text_some (t u : text) : u <> [] -> t ++ u <> [].
  Proof. intros T X. apply app_eq_nil in X. tauto. Qed.

  Section Transforms.
    Variable C : Type.
    Variable css : text -> option C.
    Lemma ok_comma a b : ascii b -> ok_at skip_comma_and_whitespace (fun _ _ _ => True) a b.
    Proof.
      intros A. unfold skip_comma_and_whitespace. eapply ok_bind; [apply ok_ws|]. next.
      eapply ok_bind; [apply ok_char_ascii; assumption|]. next. apply ok_ws.
    Qed.
    Lemma ok_close a b : ascii b -> ok_at close (fun _ _ _ => True) a b.
    Proof.
      intros A. unfold close. eapply ok_bind; [apply ok_ws|]. next. eapply ok_weaken; [apply ok_expect; assumption|auto].
    Qed.
    Lemma ok_maybe a b : ascii b -> ok_at (maybe_number finite f32) (fun _ _ _ => True) a b.
    Proof.
      intros A. unfold maybe_number, ok_at. destruct (ok_try _ _ a b (ok_f32 a b A)) as [(v & t & r & -> & E & _)|(e & E)]; rewrite E.
      - left. exists (Some v), t, r. auto.
      - left. exists None, [], b. rewrite app_nil_r. auto.
    Qed.
    Ltac step := first [apply ok_comma; assumption | apply ok_close; assumption | apply ok_maybe; assumption
      | eapply ok_weaken; [apply ok_f32; assumption|intros; exact I]].
    Lemma ok_arguments name a b : ascii b -> ok_at (arguments finite f32 C name) (fun _ _ _ => True) a b.
    Proof.
      intros A. unfold arguments.
      repeat match goal with |- ok_at (if ?c then _ else _) _ _ _ => destruct c end; [| | | | | |apply ok_fail];
        repeat first [ (eapply (ok_bind _ _ (fun _ _ _ => True)); [step|next])
                     | match goal with |- ok_at (match ?v with Some _ => _ | None => _ end) _ _ _ => destruct v end
                     | (apply ok_ret; exact I) ].
    Qed.
    Lemma ok_function a b : ascii b -> ok_at (parse_function finite f32 C) (fun _ t _ => t <> []) a b.
    Proof.
      intros A. unfold parse_function. eapply ok_bind; [apply ok_ident, A|]. next. rename H into T.
      eapply ok_weaken with (Q := fun _ _ _ => True); [|intros; apply some_text, T].
      eapply ok_bind; [apply ok_ws|]. next. eapply ok_bind; [apply ok_expect; assumption|]. next.
      apply ok_arguments. assumption.
    Qed.
    (** The CSS reader takes the rest of the text, or fails. *)
    Lemma css_at a b : (exists c, b = b /\ parse_css C css (at_ a b) = Ok (TCss c) (P (a ++ b) (blen (a ++ b))) /\ css b = Some c) \/
      (exists q, parse_css C css (at_ a b) = Fail ExpectedIdent q /\ p_input q = a ++ b).
    Proof.
      unfold parse_css, take_slice, bind. rewrite slice_at. unfold done, ret. cbn [at_ p_input].
      destruct (css b) as [c|]; [left; exists c; auto|right; eexists; split; [reflexivity|reflexivity]].
    Qed.
    Lemma ok_css a b : ok_at (parse_css C css) (fun _ t r => r = []) a b.
    Proof.
      destruct (css_at a b) as [(c & _ & E & _)|(q & E & I)]; [left|right; eauto].
      exists (TCss c), b, []. split; [rewrite app_nil_r; reflexivity|]. split; [|reflexivity]. rewrite E. unfold at_. rewrite app_nil_r. reflexivity.
    Qed.
    Lemma ok_transform a b : ascii b -> ok_at (parse_transform finite f32 C css) (fun _ t r => t <> [] \/ r = []) a b.
    Proof.
      intros A. apply ok_or_else; [eapply ok_weaken; [apply ok_function, A|auto]|eapply ok_weaken; [apply ok_css|auto]].
    Qed.
    (** After at most as many items as there are characters the text is used up; then the loop goes on only as long as the
        empty text is a CSS transform. *)
    Lemma items_no_panic : css [] = None -> forall n a b, ascii b -> List.length b < n ->
      ok_at (parse_items finite f32 C css n) (fun _ _ _ => True) a b.
    Proof.
      intros NC. induction n as [|n IH]; intros a b A L; [lia|]. cbn [parse_items].
      eapply ok_bind; [apply ok_comma, A|]. intros v t r -> _. apply ascii_suf in A.
      unfold ok_at. destruct (ok_try _ _ (a ++ t) r (ok_transform (a ++ t) r A)) as [(x & u & s & -> & E & Q)|(e & E)]; rewrite E.
      2:{ left. exists [], [], r. rewrite app_nil_r. auto. }
      assert (U : u <> []).
      { destruct Q as [Q|Q]; [exact Q|]. subst s. intros ->. cbn [app] in E.
        unfold try_parse, parse_transform, or_else, try_parse in E.
        destruct (ok_function (a ++ t) [] (Forall_nil _)) as [(v' & t' & r' & E1 & E2 & T)|(e & q & E2 & I)].
        { symmetry in E1. apply app_eq_nil in E1. tauto. }
        rewrite E2 in E. rewrite I in E. cbn [p_cursor at_] in E. change (P ((a ++ t) ++ []) (blen (a ++ t))) with (at_ (a ++ t) []) in E.
        destruct (css_at (a ++ t) []) as [(c & _ & _ & X)|(q' & E3 & _)]; [congruence|]. rewrite E3 in E. discriminate. }
      destruct (IH ((a ++ t) ++ u) s) as [(l & w & z & -> & E' & _)|(e & q & E' & I)].
      - apply ascii_suf in A. exact A.
      - rewrite !app_length in L. destruct u; [contradiction|]. cbn in L. lia.
      - rewrite E'. left. exists (x :: l), (u ++ w), z. rewrite <- !app_assoc. auto.
      - rewrite E'. right. exists e, q. split; [reflexivity|]. rewrite I, <- !app_assoc. reflexivity.
    Qed.
    Lemma parse_string_no_panic {A} (f : parser -> out A) s :
      (forall a b, s = a ++ b -> ok_at f (fun _ _ _ => True) a b) -> parse_string f s <> Panic /\ parse_string f s <> Loop.
    Proof.
      intros F. unfold parse_string. change (new s) with (at_ [] s).
      assert (O : ok_at (bind skip_whitespace (fun _ => bind f (fun r => bind skip_whitespace (fun _ => bind expect_done (fun _ => ret r))))) (fun _ _ _ => True) [] s).
      { eapply ok_bind; [apply ok_ws|]. intros v t r -> _. eapply ok_bind; [apply F; reflexivity|]. intros x t' r' -> _.
        eapply ok_bind; [apply ok_ws|]. intros y t'' r'' -> _. eapply (ok_bind _ _ (fun _ _ _ => True)).
        - unfold ok_at, expect_done. destruct (_ <? _); [right; eexists _, _; split; [reflexivity|]|left; exists tt, [], r''; rewrite app_nil_r; auto]. reflexivity.
        - intros z t3 r3 -> _. apply ok_ret. exact I. }
      destruct O as [(v & t & r & _ & -> & _)|(e & q & -> & _)]; split; discriminate.
    Qed.
    Lemma transforms_no_panic s : css [] = None -> ascii s -> List.length s < 2048 ->
      parse_string (parse_transforms finite f32 C css) s <> Panic.
    Proof.
      intros NC A L. apply parse_string_no_panic. intros a b ->. apply items_no_panic; [exact NC|eapply ascii_suf, A|].
      rewrite app_length in L. lia.
    Qed.
  End Transforms.

  Section Clocks.
    Lemma ok_metric a b : ascii b -> ok_at parse_metric (fun _ _ _ => True) a b.
    Proof.
      intros A. apply ok_or_else; [|apply ok_ret; exact I]. eapply ok_bind; [apply ok_ident, A|]. intros v t r -> _.
      repeat match goal with |- ok_at (if ?c then _ else _) _ _ _ => destruct c end; first [apply ok_ret; exact I|apply ok_fail].
    Qed.
    Lemma ident_ascii a b v q : ascii b -> expect_ident (at_ a b) = Ok v q -> ascii v.
    Proof.
      intros A E. destruct b as [|c b]; [unfold expect_ident, bind, cursor in E; rewrite read_end in E; discriminate|].
      inversion A as [|? ? L A']. destruct (is_name_start_char c) eqn:S.
      - rewrite expect_ident_at in E by assumption. injection E as <- _. constructor; [exact L|].
        rewrite <- (take_drop is_name_char b) in A'. apply ascii_app in A'. tauto.
      - unfold expect_ident, bind, cursor in E. rewrite read_at in E by exact L. rewrite S in E. change (p_cursor (at_ a (c :: b))) with (blen a) in E. rewrite slice_from_at in E. discriminate.
    Qed.
    Lemma ok_unit x a b : ascii b -> ok_at (parse_unit x) (fun _ _ _ => True) a b.
    Proof.
      intros A. unfold parse_unit, ok_at, bind. destruct (ok_ident a b A) as [(v & t & r & -> & E & _)|(e & q & E & I)]; rewrite E; [|right; eauto].
      pose proof (ident_ascii _ _ _ _ A E) as AV.
      destruct (parse_string_no_panic parse_metric v) as [NP NL]; [intros a' b' ->; apply ok_metric; eapply ascii_suf, AV|].
      destruct (parse_string parse_metric v) as [m ? |e ?| |]; try contradiction.
      - left. exists (TimecountValue x m), t, r. auto.
      - right. eexists _, _. split; [reflexivity|]. cbn [at_ p_input]. rewrite <- app_assoc. reflexivity.
    Qed.
    Lemma ok_colon x a b : ascii b -> ok_at (parse_colon finite f32 x) (fun _ _ _ => True) a b.
    Proof.
      intros A. unfold parse_colon. eapply ok_bind; [apply ok_expect, A|]. intros v t r -> _. apply ascii_suf in A.
      eapply ok_bind; [apply ok_f32, A|]. intros m t' r' -> _. apply ascii_suf in A.
      unfold ok_at. destruct (ok_try _ _ ((a ++ t) ++ t') r' (ok_expect 58 ((a ++ t) ++ t') r' A)) as [(v' & u & s & -> & E & _)|(e & E)]; rewrite E.
      2:{ left. exists (PartialClockValue (to_int x) m), [], r'. rewrite app_nil_r. auto. }
      destruct (is_integer m).
      2:{ right. eexists _, _. split; [reflexivity|]. cbn [at_ p_input]. rewrite <- !app_assoc. reflexivity. }
      apply ascii_suf in A. unfold bind. destruct (ok_f32 (((a ++ t) ++ t') ++ u) s A) as [(d & w & z & -> & E' & _)|(e & q & E' & I)]; rewrite E'.
      - left. eexists _, (u ++ w), z. rewrite <- !app_assoc. unfold ret. auto.
      - right. exists e, q. split; [reflexivity|]. rewrite I, <- !app_assoc. reflexivity.
    Qed.
    Lemma ok_sign a b : ascii b -> ok_at parse_sign (fun _ _ _ => True) a b.
    Proof.
      intros A. apply ok_or_else; [|apply ok_ret; exact I]. eapply ok_bind; [apply ok_read, A|]. intros v t r -> _.
      eapply ok_bind; [apply ok_ws|]. intros v' t' r' -> _.
      destruct (N.eqb v 43); [apply ok_ret; exact I|]. destruct (N.eqb v 45); [apply ok_ret; exact I|apply ok_fail].
    Qed.
    Lemma clock_no_panic s : ascii s -> parse_string (parse_clock finite f32) s <> Panic.
    Proof.
      intros A. apply parse_string_no_panic. intros a b ->. apply ascii_suf in A. unfold parse_clock.
      eapply ok_bind; [apply ok_ws|]. next. eapply ok_bind; [apply ok_sign; assumption|]. next.
      eapply ok_bind; [apply ok_f32; assumption|]. next. cbv zeta.
      apply ok_or_else; [apply ok_unit; assumption|]. apply ok_or_else; [apply ok_colon; assumption|apply ok_ret; exact Logic.I].
    Qed.
  End Clocks.
End Values.
