From Coq Require Import String List NArith ZArith Bool Arith Lia.
From Verif Require Import Chars ParseModel ParseSpec ParseProofs ParseProofs2 ParseProofs3 ParseProofs4 PathModel PathSpec PathProofs.
Import ListNotations.

Lemma fine_ascii_skip c a b : c = DOT \/ c = COMMA -> ascii b -> ok_at (skip_char c) (fun _ _ _ => True) a b.
Proof. intros _ A. destruct (skip_char_ascii c a b A) as (t & r & E & E'). left. exists tt, t, r. auto. Qed.

Lemma not_trailing_suffix t r : not_trailing (t ++ r) -> not_trailing r.
Proof. intros [A B]. split; intros E; [apply A|apply B]; apply ends_suffix, E. Qed.
Lemma not_trailing_skip c a b : c = DOT \/ c = COMMA -> not_trailing b -> ok_at (skip_char c) (fun _ t r => span (N.eqb c) b t r) a b.
Proof.
  intros C [A B]. left. exists tt, (take_while (N.eqb c) b), (drop_while (N.eqb c) b).
  split; [symmetry; apply take_drop|]. split; [|apply span_take].
  apply skip_char_at, not_ends_drop. destruct C as [->| ->]; assumption.
Qed.

Lemma no_arcs_suffix t r : no_arcs (t ++ r) -> no_arcs r.
Proof. intros H c I. apply H. apply in_app_iff. auto. Qed.

Section Terminates.
  Variable finite : dec -> bool.
  Variable K : text -> Prop.
  Hypothesis K_suffix : forall t r, K (t ++ r) -> K r.
  Hypothesis K_mode : (forall b, K b -> ascii b) \/ (forall b, K b -> no_arcs b).
  Definition fine2 b := not_trailing b /\ K b.
  Lemma fine2_suffix t r : fine2 (t ++ r) -> fine2 r.
  Proof. intros [A B]. split; [eapply not_trailing_suffix|eapply K_suffix]; eauto. Qed.
  Lemma fine2_skip c a b : c = DOT \/ c = COMMA -> fine2 b -> ok_at (skip_char c) (fun _ _ _ => True) a b.
  Proof. intros C [A _]. eapply ok_weaken; [apply not_trailing_skip; auto|auto]. Qed.
  Lemma fine2_mode : (forall b, fine2 b -> ascii b) \/ (forall b, fine2 b -> forall c, In c b -> ~ arc_char c).
  Proof. destruct K_mode as [M|M]; [left|right]; intros b [_ B]; apply M, B. Qed.

  Definition closed_at (acc : list data) (a : text) : Prop :=
    match acc with
    | [] => True
    | l :: _ => d_id l = ClosePath -> exists a' z sep, a = a' ++ z :: sep /\ close_char z /\ Forall separator sep
    end.
  Definition J (acc : list data) (a b : text) : Prop := closes_well (a ++ b) /\ closed_at acc a.

  Lemma pre_separators acc a b : fine2 b ->
    ok_at (pre acc) (fun _ t r => Forall separator t /\ (acc <> [] -> t = [] -> match b with [] => True | c :: _ => ~ separator c end)) a b.
  Proof.
    intros F. unfold pre. eapply ok_bind; [apply ok_skip|]. intros v t r -> (_ & T1 & R1). apply fine2_suffix in F.
    assert (S1 : Forall separator t). { revert T1. apply Forall_impl. intros c C. left. exact C. }
    destruct acc as [|l acc].
    - apply ok_ret. rewrite app_nil_r. split; [exact S1|contradiction].
    - eapply ok_bind; [apply not_trailing_skip; [auto|destruct F; auto]|].
      intros v' t' r' -> (_ & T2 & R2).
      assert (S2 : Forall separator t'). { revert T2. apply Forall_impl. intros c C. right. apply N.eqb_eq in C. auto. }
      eapply ok_weaken; [apply ok_skip|]. intros v'' t'' r'' -> (_ & T3 & _).
      assert (S3 : Forall separator t''). { revert T3. apply Forall_impl. intros c C. left. exact C. }
      split; [apply Forall_app; split; [exact S1|]; apply Forall_app; auto|].
      intros _ E. apply app_eq_nil in E. destruct E as [-> E]. apply app_eq_nil in E. destruct E as [-> ->]. cbn [app] in *.
      destruct r'' as [|c r'']; [exact I|]. intros [C|C]; [congruence|]. subst c. discriminate.
  Qed.

  Lemma command_char_id c : command_char c -> id_of_char c <> None.
  Proof.
    unfold command_char. simpl. intros H. repeat destruct H as [H|H]; try (subst c; discriminate). destruct H.
  Qed.

  Lemma progress2 acc a b : fine2 b -> inv fine2 acc -> b <> [] -> J acc a b ->
    ok_at (parse_one finite false acc) (fun d t r => arc_safe fine2 (d_id d) /\ t <> [] /\ J (d :: acc) (a ++ t) r) a b.
  Proof.
    intros F INV NE [CW CA].
    assert (OK : ok_at (bind (pre acc) (fun _ => step finite acc)) (fun d t r => arc_safe fine2 (d_id d) /\ t <> [] /\ J (d :: acc) (a ++ t) r) a b).
    { eapply ok_bind; [apply pre_separators, F|]. intros v t0 r0 -> (S0 & H0).
      pose proof (fine2_suffix _ _ F) as F0.
      eapply ok_weaken; [apply (ok_step finite fine2 fine2_suffix fine2_skip fine2_mode acc (a ++ t0) r0 F0 INV)|].
      intros d t r -> (A & H). split; [exact A|].
      assert (CW' : closes_well ((a ++ t0 ++ t) ++ r)) by (rewrite <- !app_assoc in *; exact CW).
      destruct H as [(T & NC)|[(EC & z & Z & ->)|(EC & -> & (l & acc' & -> & LC) & HC)]].
      - split; [intros X; apply app_eq_nil in X; tauto|]. split; [exact CW'|]. intros X. contradiction.
      - split; [intros X; apply app_eq_nil in X; destruct X; discriminate|]. split; [exact CW'|]. intros _.
        exists (a ++ t0), z, []. rewrite <- app_assoc. auto.
      - destruct (CA LC) as (a' & z & sep & -> & Z & SP).
        rewrite app_nil_r in *. cbn [app] in HC. split.
        + intros ->. cbn [app] in *. specialize (H0 ltac:(discriminate) eq_refl).
          destruct r as [|c r]; [contradiction|]. rewrite <- app_assoc in CW. cbn [app] in CW.
          destruct (CW a' z sep c r eq_refl Z SP) as [C|C]; [contradiction|].
          apply command_char_id in C. contradiction.
        + split; [exact CW'|]. intros _. exists a', z, (sep ++ t0). rewrite <- app_assoc. split; [reflexivity|]. split; [exact Z|].
          apply Forall_app. auto. }
    unfold ok_at in *. rewrite parse_one_eq. exact OK.
  Qed.

  Lemma terminates s : fine2 s -> closes_well s -> forall fuel, List.length s <= fuel -> returns (parse_path finite fuel s).
  Proof.
    intros F CW fuel L.
    pose proof (path_no_panic finite fine2 fine2_suffix fine2_skip fine2_mode fuel s F) as NP.
    pose proof (path_ends finite fine2 fine2_suffix fine2_skip fine2_mode J progress2 s F) as NL.
    specialize (NL ltac:(intros w r ->; split; [exact CW|exact I]) fuel L).
    destruct (parse_path finite fuel s); simpl; auto.
  Qed.
End Terminates.

Lemma terminates_partial finite s : arcs_ascii s -> ~ ends_in DOT s -> ~ ends_in COMMA s -> closes_well s ->
  forall fuel, List.length s <= fuel -> returns (parse_path finite fuel s).
Proof.
  intros [A|A] D C CW.
  - apply (terminates finite ascii); auto.
    + intros t r. rewrite ascii_app. tauto.
    + split; [split|]; auto.
  - apply (terminates finite no_arcs); auto.
    + exact no_arcs_suffix.
    + split; [split|]; auto.
Qed.

Lemma no_panic_partial finite s : ascii s \/ (no_arcs s /\ not_trailing s) -> forall fuel, parse_path finite fuel s <> Panic.
Proof.
  intros [A|[A T]] fuel.
  - apply (path_no_panic finite ascii); auto.
    + intros t r. rewrite ascii_app. tauto.
    + exact fine_ascii_skip.
  - apply (path_no_panic finite (fine2 no_arcs)).
    + apply fine2_suffix. exact no_arcs_suffix.
    + apply fine2_skip.
    + apply fine2_mode. right. auto.
    + split; auto.
Qed.

Definition J3 (acc : list data) (a b : text) : Prop := no_close b /\ match acc with [] => True | l :: _ => d_id l <> ClosePath end.
Lemma progress3 finite acc a b : ascii b -> inv ascii acc -> b <> [] -> J3 acc a b ->
  ok_at (parse_one finite false acc) (fun d t r => arc_safe ascii (d_id d) /\ t <> [] /\ J3 (d :: acc) (a ++ t) r) a b.
Proof.
  intros F INV NE [NC CA].
  assert (AS : forall t r, ascii (t ++ r) -> ascii r) by (intros t r; rewrite ascii_app; tauto).
  assert (OK : ok_at (bind (pre acc) (fun _ => step finite acc)) (fun d t r => arc_safe ascii (d_id d) /\ t <> [] /\ J3 (d :: acc) (a ++ t) r) a b).
  { eapply ok_bind; [apply (ok_pre ascii AS fine_ascii_skip), F|]. intros v t0 r0 -> _.
    pose proof (AS _ _ F) as F0.
    eapply ok_weaken; [apply (ok_step finite ascii AS fine_ascii_skip (or_introl (fun b H => H)) acc (a ++ t0) r0 F0 INV)|].
    intros d t r -> (A & H). split; [exact A|].
    assert (NC' : no_close r) by (intros c I; apply NC; rewrite !in_app_iff; auto).
    destruct H as [(T & ND)|[(EC & z & Z & ->)|(EC & -> & (l & acc' & -> & LC) & HC)]].
    - split; [intros X; apply app_eq_nil in X; tauto|]. split; [exact NC'|exact ND].
    - exfalso. apply (NC z); [rewrite !in_app_iff; simpl; auto|exact Z].
    - contradiction. }
  unfold ok_at in *. rewrite parse_one_eq. exact OK.
Qed.
Lemma terminates_no_close finite s : ascii s -> no_close s -> forall fuel, List.length s <= fuel -> returns (parse_path finite fuel s).
Proof.
  intros A NC fuel L.
  assert (AS : forall t r, ascii (t ++ r) -> ascii r) by (intros t r; rewrite ascii_app; tauto).
  pose proof (path_no_panic finite ascii AS fine_ascii_skip (or_introl (fun b H => H)) fuel s A) as NP.
  pose proof (path_ends finite ascii AS fine_ascii_skip (or_introl (fun b H => H)) J3 (progress3 finite) s A) as NL.
  specialize (NL ltac:(intros w r ->; split; [intros c I; apply NC; rewrite in_app_iff; auto|exact I]) fuel L).
  destruct (parse_path finite fuel s); simpl; auto.
Qed.

(** ** The endless loop *)
Definition stuck_text := lit "M0 0Z1 1".
Lemma stuck_extend fuel b tl : parse_extend (fun _ => true) fuel false (D b ClosePath [] :: tl) (P stuck_text 5) = Loop.
Proof.
  revert b tl. induction fuel as [|fuel IH]; intros b tl.
  - vm_compute. reflexivity.
  - cbn [parse_extend]. unfold bind.
    replace (is_empty (P stuck_text 5)) with (@Ok bool false (P stuck_text 5)) by (vm_compute; reflexivity).
    replace (parse_one (fun _ => true) false (D b ClosePath [] :: tl) (P stuck_text 5)) with (Ok (D true ClosePath []) (P stuck_text 5)) by (vm_compute; reflexivity).
    apply IH.
Qed.
Lemma stuck fuel : parse_path (fun _ => true) fuel stuck_text = Loop.
Proof.
  unfold parse_path, parse_string, bind.
  replace (skip_whitespace (new stuck_text)) with (Ok tt (P stuck_text 0)) by (vm_compute; reflexivity).
  assert (parse_extend (fun _ => true) fuel false [] (P stuck_text 0) = Loop) as ->; [|reflexivity].
  destruct fuel as [|[|fuel]]; [vm_compute; reflexivity|vm_compute; reflexivity|].
  cbn [parse_extend]. unfold bind at 1.
  replace (is_empty (P stuck_text 0)) with (@Ok bool false (P stuck_text 0)) by (vm_compute; reflexivity).
  unfold bind at 1.
  replace (parse_one (fun _ => true) false [] (P stuck_text 0)) with (Ok (D false MoveTo [zero; zero]) (P stuck_text 4)) by (vm_compute; reflexivity).
  unfold bind at 1.
  replace (is_empty (P stuck_text 4)) with (@Ok bool false (P stuck_text 4)) by (vm_compute; reflexivity).
  unfold bind at 1.
  replace (parse_one (fun _ => true) false [D false MoveTo [zero; zero]] (P stuck_text 4)) with (Ok (D false ClosePath []) (P stuck_text 5)) by (vm_compute; reflexivity).
  apply stuck_extend.
Qed.
