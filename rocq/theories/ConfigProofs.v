From Coq Require Import String List NArith Bool.
From Verif Require Import Chars JobsModel JobsProofs ConfigModel ConfigSpec.
Import ListNotations.

Section Proofs.
  Context {P : Type}.
  Variable default_params : job -> P.
  Variable read : text -> option (config (P := P)).
  Variable write : config (P := P) -> text.
  Variable files : text -> option text.
  Variable local base : text.
  Notation main := (main default_params read write files local (Some base)).
  Notation load := (load read files local (Some base)).
  Notation found := (found read files local base).
  Notation means := (means default_params).

  Lemma found_load c : found c <-> load = Some c.
  Proof.
    unfold ConfigModel.load. split.
    - intros [c' (t & F & R)|c' L (t & F & R)|L B]; [rewrite F; exact R|rewrite L, F; exact R|rewrite L, B; reflexivity].
    - destruct (files local) as [t|] eqn:L.
      + intros R. apply found_local. exists t. split; assumption.
      + destruct (files base) as [t|] eqn:B; intros R.
        * apply found_base; [exact L|]. exists t. split; assumption.
        * injection R as <-. apply found_none; assumption.
  Qed.
  Lemma broken_load : broken read files local base <-> load = None.
  Proof.
    unfold ConfigModel.load, broken. split.
    - intros [(t & F & R)|(L & t & F & R)]; [rewrite F; exact R|rewrite L, F; exact R].
    - destruct (files local) as [t|] eqn:L; [intros R; left; exists t; split; [reflexivity|exact R]|].
      destruct (files base) as [t|] eqn:B; [intros R; right; split; [reflexivity|]; exists t; split; [reflexivity|exact R]|discriminate].
  Qed.
  Lemma jobs_mean c j : omits_from_preset c -> means c j (jobs_of default_params c j).
  Proof.
    intros OP. unfold jobs_of. destruct (c_optimise c) as [o|] eqn:O; [|exact (means_default default_params c j O)].
    assert (D : (exists l, o_omit o = Some l /\ In (field_name j) l) \/ (forall l, o_omit o = Some l -> ~ In (field_name j) l)).
    { destruct (o_omit o) as [l|]; [|right; discriminate]. destruct (in_dec text_eq_dec (field_name j) l) as [I|I]; [left; exists l; auto|right]. intros l' Y. injection Y as <-. exact I. }
    destruct (o_extends o) as [e|] eqn:E.
    - destruct (resolve_spec default_params o e j E) as [A B]. destruct D as [(l & M & I)|X].
      + rewrite (A l M I). exact (means_omitted default_params c j o l O M I).
      + rewrite (B X). destruct (o_jobs o j) as [p|] eqn:J; [exact (means_own default_params c j o e p O E X J)|exact (means_preset default_params c j o e O E X J)].
    - rewrite (resolve_without default_params o j E). destruct D as [(l & M & _)|X]; [destruct (OP o l O M E)|exact (means_plain default_params c j o O E X)].
  Qed.
  Lemma jobs_run c : omits_from_preset c -> runs_with default_params (Runs (jobs_of default_params c)) c.
  Proof. intros O. exists (jobs_of default_params c). split; [reflexivity|]. intros j. apply jobs_mean. exact O. Qed.

  Lemma optimise_file c0 p l e c : found c0 -> holds read files p c -> omits_from_preset c -> runs_with default_params (main (COptimise (Some (p :: l)) e)) c.
  Proof. intros F (t & T & R) O. apply found_load in F. unfold ConfigModel.main. rewrite F. unfold run_optimise, handle_config. rewrite T, R. apply jobs_run. exact O. Qed.
  Lemma optimise_missing c0 p l e : found c0 -> (forall c, ~ holds read files p c) -> main (COptimise (Some (p :: l)) e) = Fails.
  Proof.
    intros F H. apply found_load in F. unfold ConfigModel.main. rewrite F. unfold run_optimise, handle_config. destruct (files p) as [t|] eqn:T; [|reflexivity].
    destruct (read t) as [c|] eqn:R; [|reflexivity]. destruct (H c). exists t. split; assumption.
  Qed.
  Lemma optimise_preset c0 e : found c0 -> exists js, main (COptimise None (Some e)) = Runs js /\ forall j, js j = preset default_params e j.
  Proof. intros F. apply found_load in F. unfold ConfigModel.main. rewrite F. eexists. split; [reflexivity|]. reflexivity. Qed.
  Lemma optimise_found c : found c -> omits_from_preset c -> runs_with default_params (main (COptimise None None)) c.
  Proof. intros F O. apply found_load in F. unfold ConfigModel.main. rewrite F. apply jobs_run. exact O. Qed.
  Lemma lint_found c k : found c -> (k = CCheck None \/ k = CServe None) -> exists r, main k = Lints r /\ means_rules c r.
  Proof.
    intros F K. apply found_load in F. exists (match c_lint c with Some r => r | None => recommended end). split; [destruct K as [-> | ->]; unfold ConfigModel.main; rewrite F; reflexivity|].
    destruct (c_lint c) as [r|] eqn:L; [apply means_given; exact L|apply means_recommended; exact L].
  Qed.
  Lemma jsx_runs options (c : config (P := P)) : run_jsx default_params options c = match options with None => Runs (jobs_of default_params c) | Some (n, ps) => if pairs_ok ps then if n then Works else Runs (jobs_of default_params c) else Fails end.
  Proof. unfold run_jsx, jobs_of. destruct (c_optimise c); reflexivity. Qed.
  Lemma jsx_found c : found c -> omits_from_preset c -> runs_with default_params (main (CJsx None None None)) c.
  Proof. intros F O. apply found_load in F. unfold ConfigModel.main. rewrite F, jsx_runs. apply jobs_run. exact O. Qed.
  Lemma pairs_spec ps : pairs_ok ps = true <-> Forall (In 61%N) ps.
  Proof.
    unfold pairs_ok. rewrite forallb_forall, Forall_forall. split; intros H x X; specialize (H x X).
    - apply existsb_exists in H. destruct H as (y & Y & E). apply N.eqb_eq in E. subst y. exact Y.
    - apply existsb_exists. exists 61%N. split; [exact H|reflexivity].
  Qed.
  Lemma jsx_options c n ps : found c -> omits_from_preset c ->
    (Forall (In 61%N) ps -> n = false -> runs_with default_params (main (CJsx None None (Some (n, ps)))) c) /\
    (Forall (In 61%N) ps -> n = true -> main (CJsx None None (Some (n, ps))) = Works) /\
    (~ Forall (In 61%N) ps -> main (CJsx None None (Some (n, ps))) = Fails).
  Proof.
    intros F O. apply found_load in F. unfold ConfigModel.main. rewrite F, jsx_runs. split; [|split].
    - intros A ->. rewrite (proj2 (pairs_spec ps) A). apply jobs_run. exact O.
    - intros A ->. rewrite (proj2 (pairs_spec ps) A). reflexivity.
    - intros A. destruct (pairs_ok ps) eqn:E; [|reflexivity]. destruct (A (proj1 (pairs_spec ps) E)).
  Qed.
  Lemma panics k : (main k = Panics) <-> broken read files local base.
  Proof.
    rewrite broken_load. unfold ConfigModel.main. destruct load as [c|]; split; try discriminate; try reflexivity.
    destruct k as [ps e| |ps|ps| |ps e o]; try discriminate.
    - unfold run_optimise. destruct (handle_config default_params read write files ps e c) as [[t|c']|]; discriminate.
    - rewrite jsx_runs. destruct o as [[n q]|]; [|discriminate]. destruct (pairs_ok q); [destruct n|]; discriminate.
  Qed.
  Lemma unconcerned c k : found c -> (k = CFormat \/ k = CAction) -> main k = Works.
  Proof. intros F K. apply found_load in F. destruct K as [-> | ->]; unfold ConfigModel.main; rewrite F; reflexivity. Qed.

  (** What is printed, read again. *)
  Lemma printed e c : (forall c, read (write c) = Some c) -> found c -> exists t c', main (COptimise (Some []) e) = Prints t /\ read t = Some c' /\
    (forall j, jobs_of default_params c' j = jobs_of default_params c j) /\ forall r, c_lint c = Some r -> c_lint c' = Some r.
  Proof.
    intros RW F. apply found_load in F. unfold ConfigModel.main. rewrite F. eexists. eexists. split; [reflexivity|]. split; [apply RW|]. split.
    - intros j. unfold jobs_of. cbn [c_optimise]. destruct (c_optimise c) as [o|]; reflexivity.
    - intros r R. cbn [c_lint]. rewrite R. reflexivity.
  Qed.
  Lemma printed_again e c : (forall c, read (write c) = Some c) -> found c -> omits_from_preset c -> exists t c', main (COptimise (Some []) e) = Prints t /\ read t = Some c' /\
    runs_with default_params (main (COptimise None None)) c' /\ forall r, c_lint c = Some r -> means_rules c' r.
  Proof.
    intros RW F O. destruct (printed e c RW F) as (t & c' & M & R & J & L). exists t, c'. split; [exact M|]. split; [exact R|]. split.
    - assert (X : omits_from_preset c').
      { assert (F' := proj1 (found_load c) F). unfold ConfigModel.main in M. rewrite F' in M. injection M as <-. rewrite RW in R. injection R as <-. intros o l. cbn [c_optimise]. destruct (c_optimise c) as [q|] eqn:Q; intros H; injection H as <-; [exact (O q l Q)|discriminate]. }
      apply found_load in F. unfold ConfigModel.main. rewrite F. cbn [run_optimise handle_config]. exists (jobs_of default_params c). split; [reflexivity|]. intros j. rewrite <- J. apply jobs_mean. exact X.
    - intros r H. apply means_given. apply L. exact H.
  Qed.
End Proofs.
