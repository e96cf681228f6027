From Coq Require Import String List NArith Bool Arith Lia.
From Verif Require Import Chars JobsModel JobsSpec.
Import ListNotations.

Lemma all_jobs_complete j : In j all_jobs.
Proof. destruct j; unfold all_jobs; cbn [In]; tauto. Qed.
Lemma field_name_inj a b : field_name a = field_name b -> a = b.
Proof.
  intros E. assert (H : forallb (fun p => forallb (fun q => implb (text_eqb (field_name (fst p)) (field_name (fst q))) (snd p =? snd q))
    (combine all_jobs (seq 0 55))) (combine all_jobs (seq 0 55)) = true) by (vm_compute; reflexivity).
  rewrite forallb_forall in H.
  assert (N : NoDup all_jobs). { unfold all_jobs. repeat (constructor; [cbn; intuition discriminate|]). constructor. }
  assert (IX : forall j, exists i, In (j, i) (combine all_jobs (seq 0 55)) /\ nth_error all_jobs i = Some j).
  { intros j. destruct (In_nth_error _ _ (all_jobs_complete j)) as (i & I). exists i. split; [|exact I].
    assert (L : i < 55). { change 55 with (List.length all_jobs). apply nth_error_Some. congruence. }
    clear -I L. assert (G : nth_error (combine all_jobs (seq 0 55)) i = Some (j, i)); [|eapply nth_error_In, G].
    revert i I L. generalize all_jobs. intros l i I L. 
    assert (G : forall (l : list job) n k i j, nth_error l i = Some j -> i < n -> nth_error (combine l (seq k n)) i = Some (j, k + i)).
    { clear. induction l as [|x l IH]; intros n k i j I L; [destruct i; discriminate|]. destruct n; [lia|]. destruct i as [|i]; cbn in *.
      - injection I as ->. rewrite Nat.add_0_r. reflexivity.
      - rewrite (IH n (S k) i j I) by lia. f_equal. f_equal. lia. }
    apply (G l 55 0 i j I L). }
  destruct (IX a) as (i & IA & NA), (IX b) as (k & IB & NB).
  specialize (H (a, i) IA). rewrite forallb_forall in H. specialize (H (b, k) IB). cbn [fst snd] in H.
  assert (text_eqb (field_name a) (field_name b) = true) as T by (apply text_eqb_spec; exact E). rewrite T in H. cbn in H.
  apply Nat.eqb_eq in H. subst k. congruence.
Qed.
Lemma field_eqb a b : text_eqb (field_name a) (field_name b) = true <-> a = b.
Proof. rewrite text_eqb_spec. split; [apply field_name_inj|intros ->; reflexivity]. Qed.
Lemma job_eq_dec (a b : job) : {a = b} + {a <> b}.
Proof. destruct (text_eqb (field_name a) (field_name b)) eqn:E; [left; apply field_eqb, E|right; intros X; apply field_eqb in X; congruence]. Qed.

Section Config.
  Context {P D R : Type}.
  Variable default_params : job -> P.

  Lemma extend_spec (a b : jobs (P := P)) j : extend a b j = match b j with Some p => Some p | None => a j end.
  Proof. reflexivity. Qed.
  Lemma extend_assoc (a b c : jobs (P := P)) j : extend a (extend b c) j = extend (extend a b) c j.
  Proof. unfold extend. destruct (c j); [reflexivity|]. destruct (b j); reflexivity. Qed.
  Lemma extend_idem (a b : jobs (P := P)) j : extend (extend a b) b j = extend a b j.
  Proof. unfold extend. destruct (b j); reflexivity. Qed.
  Lemma extend_none (a : jobs (P := P)) j : extend a none j = a j /\ extend none a j = a j.
  Proof. unfold extend, none. destruct (a j); auto. Qed.

  Lemma omit_spec (a : jobs (P := P)) k j : omit (field_name k) a j = if job_eq_dec k j then None else a j.
  Proof.
    unfold omit, set_field. destruct (job_eq_dec k j) as [->|NE].
    - assert (text_eqb (field_name j) (field_name j) = true) as -> by (apply field_eqb; reflexivity). reflexivity.
    - destruct (text_eqb (field_name k) (field_name j)) eqn:E; [apply field_eqb in E; contradiction|reflexivity].
  Qed.
  Lemma omit_fold l : forall (r : jobs (P := P)) j,
    fold_left (fun r name => omit name r) l r j = if existsb (fun n => text_eqb n (field_name j)) l then None else r j.
  Proof.
    induction l as [|n l IH]; intros r j; [reflexivity|]. cbn [fold_left existsb]. rewrite IH. unfold omit, set_field.
    destruct (text_eqb n (field_name j)); cbn [orb]; [destruct (existsb _ l); reflexivity|reflexivity].
  Qed.
  Lemma existsb_name l j : existsb (fun n => text_eqb n (field_name j)) l = true <-> In (field_name j) l.
  Proof.
    rewrite existsb_exists. split; [intros (x & I & E); apply text_eqb_spec in E; subst; exact I|].
    intros I. exists (field_name j). split; [exact I|]. apply text_eqb_spec. reflexivity.
  Qed.

  Lemma resolve_spec o e j : o_extends o = Some e ->
    (forall l, o_omit o = Some l -> In (field_name j) l -> resolve_jobs default_params o j = None) /\
    ((forall l, o_omit o = Some l -> ~ In (field_name j) l) ->
     resolve_jobs default_params o j = match o_jobs o j with Some p => Some p | None => preset default_params e j end).
  Proof.
    intros E. unfold resolve_jobs. rewrite E. split.
    - intros l L I. rewrite L, omit_fold. apply existsb_name in I. rewrite I. reflexivity.
    - intros H. destruct (o_omit o) as [l|] eqn:L; [|reflexivity]. rewrite omit_fold. specialize (H l eq_refl).
      destruct (existsb _ l) eqn:X; [apply existsb_name in X; contradiction|reflexivity].
  Qed.
  Lemma resolve_without o j : o_extends o = None -> resolve_jobs default_params o j = o_jobs o j.
  Proof. unfold resolve_jobs. intros ->. reflexivity. Qed.

  Lemma safe_spec j : safe default_params j = match j with Precheck => Some (default_params Precheck) | _ => default default_params j end.
  Proof. destruct j; reflexivity. Qed.

  (** ** SVGO names *)
  Lemma upper_spec c : is_upper c = true <-> (65 <= c <= 90)%N.
  Proof. unfold is_upper. rewrite andb_true_iff, !N.leb_le. reflexivity. Qed.
  Lemma camel_snake f svgo : camel f svgo -> snake_case svgo = f.
  Proof.
    induction 1 as [|c s t C H IH|c s t U NU H IH]; [reflexivity| |]; unfold snake_case in *; cbn [flat_map]; rewrite IH.
    - assert (is_upper (c - 32) = true) as -> by (apply upper_spec; lia). cbn [app]. replace (c - 32 + 32)%N with c by lia. reflexivity.
    - destruct (is_upper c) eqn:E; [apply upper_spec in E; contradiction|]. reflexivity.
  Qed.
  (** A name whose underscores are all before a small letter and that has no capital. *)
  Fixpoint clean (f : text) : bool :=
    match f with
    | [] => true
    | c :: f => negb (is_upper c) && (if N.eqb c 95 then match f with c :: _ => (97 <=? c)%N && (c <=? 122)%N | [] => false end else true) && clean f
    end.
  Lemma snake_camel svgo : ~ In 95%N svgo -> forall f, snake_case svgo = f -> camel f svgo.
  Proof.
    induction svgo as [|c svgo IH]; intros U f E; [cbn in E; subst; constructor|]. unfold snake_case in E. cbn [flat_map] in E.
    change (flat_map _ svgo) with (snake_case svgo) in E.
    assert (NU : ~ In 95%N svgo) by (intros X; apply U; right; exact X). destruct (is_upper c) eqn:CU; cbn [app] in E; subst f.
    - apply upper_spec in CU. replace c with (c + 32 - 32)%N at 2 by lia. apply camel_cap; [lia|]. apply IH; auto.
    - apply camel_keep; [intros ->; apply U; left; reflexivity| |apply IH; auto]. intros X. apply upper_spec in X. congruence.
  Qed.
  Lemma known_spec name : known name = true <-> exists j, name = field_name j.
  Proof.
    unfold known. rewrite existsb_exists. split; [intros (j & _ & E); exists j; apply text_eqb_spec, E|].
    intros (j & ->). exists j. split; [apply all_jobs_complete|apply text_eqb_spec; reflexivity].
  Qed.
  Lemma find_job_spec name : match find_job name with Some j => name = field_name j | None => forall j, name <> field_name j end.
  Proof.
    unfold find_job. destruct (find _ all_jobs) as [j|] eqn:E.
    - apply find_some in E. destruct E as [_ E]. apply text_eqb_spec, E.
    - intros j ->. pose proof (find_none _ _ E j (all_jobs_complete j)) as H. cbn in H.
      assert (text_eqb (field_name j) (field_name j) = true) by (apply text_eqb_spec; reflexivity). congruence.
  Qed.

  Lemma set_field_spec k (v : job -> option P) c j : set_field (field_name k) v c j = if job_eq_dec k j then v j else c j.
  Proof.
    unfold set_field. destruct (job_eq_dec k j) as [->|NE].
    - assert (text_eqb (field_name j) (field_name j) = true) as -> by (apply field_eqb; reflexivity). reflexivity.
    - destruct (text_eqb (field_name k) (field_name j)) eqn:E; [apply field_eqb in E; contradiction|reflexivity].
  Qed.

  Definition on (c : jobs (P := P)) (j : job) : Prop := c j <> None.

  Lemma default_step name (c : jobs (P := P)) c' : known name = true ->
    c' = (let c := set_field name (fun j => Some (default_params j)) c in
          if text_eqb name (lit "convert_path_data") then set_field (field_name ApplyTransforms) (fun j => Some (default_params j)) c else c) ->
    forall j, (name = field_name j \/ (name = field_name ConvertPathData /\ j = ApplyTransforms) -> c' j = Some (default_params j)) /\
              (~ (name = field_name j \/ (name = field_name ConvertPathData /\ j = ApplyTransforms)) -> c' j = c j).
  Proof.
    intros K -> j. apply known_spec in K. destruct K as (k & ->). cbv zeta.
    change (lit "convert_path_data") with (field_name ConvertPathData).
    destruct (text_eqb (field_name k) (field_name ConvertPathData)) eqn:E.
    - apply field_eqb in E. subst k. rewrite !set_field_spec. destruct (job_eq_dec ApplyTransforms j) as [<-|NA].
      + split; [reflexivity|]. intros X. exfalso. apply X. auto.
      + destruct (job_eq_dec ConvertPathData j) as [<-|NC]; split; auto.
        * intros X. exfalso. apply X. auto.
        * intros [X|[_ X]]; [apply field_name_inj in X; contradiction|congruence].
    - rewrite set_field_spec. assert (NE : k <> ConvertPathData) by (intros ->; rewrite (proj2 (field_eqb _ _) eq_refl) in E; discriminate).
      destruct (job_eq_dec k j) as [<-|NK]; split; auto.
      + intros X. exfalso. apply X. auto.
      + intros [X|[X _]]; apply field_name_inj in X; contradiction.
  Qed.

  (** ** Plugin strings *)
  Lemma preset_not_known : known (snake_case (lit "preset-default")) = false.
  Proof. vm_compute. reflexivity. Qed.
  Lemma asks_iff svgo j : ~ In 95%N svgo ->
    asks svgo j <-> snake_case svgo = field_name j \/ (svgo = lit "preset-default" /\ is_default j = true) \/ (snake_case svgo = field_name ConvertPathData /\ j = ApplyTransforms).
  Proof.
    intros U. unfold asks, names. split; (intros [H|[H|[H E]]]; [left|right; left; exact H|right; right]).
    - apply camel_snake, H.
    - split; [apply camel_snake, H|exact E].
    - apply snake_camel; auto.
    - split; [apply snake_camel; auto|exact E].
  Qed.
  Lemma string_step svgo c : ~ In 95%N svgo ->
    match set_svgo_plugin_string default_params c svgo with
    | Some c' => (svgo = lit "preset-default" \/ exists j, names svgo j) /\
                 forall j, (asks svgo j -> c' j = Some (default_params j)) /\ (~ asks svgo j -> c' j = c j)
    | None => svgo <> lit "preset-default" /\ forall j, ~ names svgo j
    end.
  Proof.
    intros U. unfold set_svgo_plugin_string. destruct (text_eqb svgo (lit "preset-default")) eqn:PD.
    - apply text_eqb_spec in PD. split; [auto|]. intros j. rewrite (asks_iff _ _ U). subst svgo.
      assert (NK : forall k, snake_case (lit "preset-default") <> field_name k).
      { intros k E. assert (known (snake_case (lit "preset-default")) = true) by (apply known_spec; eauto). rewrite preset_not_known in H. discriminate. }
      destruct (is_default j) eqn:DJ; split; auto.
      + intros X. exfalso. apply X. auto.
      + intros [X|[[_ X]|[X _]]]; [exfalso; eapply NK, X|discriminate|exfalso; eapply NK, X].
    - assert (NP : svgo <> lit "preset-default") by (intros ->; rewrite (proj2 (text_eqb_spec _ _) eq_refl) in PD; discriminate).
      cbv zeta. destruct (known (snake_case svgo)) eqn:K.
      + split. { right. apply known_spec in K. destruct K as (j & E). exists j. apply snake_camel; auto. }
        intros j. rewrite (asks_iff _ _ U). pose proof (default_step _ c _ K eq_refl j) as [S1 S2]. cbv zeta in S1, S2. split.
        * intros H. apply S1. destruct H as [H|[[H _]|H]]; [auto|contradiction|auto].
        * intros H. apply S2. intros [X|X]; apply H; auto.
      + split; [exact NP|]. intros j N. apply camel_snake in N. assert (known (snake_case svgo) = true) by (apply known_spec; eauto). congruence.
  Qed.

  Variable decode : job -> R -> option P.
  Variable decode_path : R -> option P.
  Variable decode_apply : R -> option P.
  Let loop := svgo_loop default_params decode decode_path decode_apply.

  Lemma strings_loop l : Forall (fun s => ~ In 95%N s) l -> forall c,
    match loop c (map PString l) with
    | Some c' => Forall (fun s => s = lit "preset-default" \/ exists j, names s j) l /\
                 forall j, (Exists (fun s => asks s j) l -> c' j = Some (default_params j)) /\ (~ Exists (fun s => asks s j) l -> c' j = c j)
    | None => Exists (fun s => s <> lit "preset-default" /\ forall j, ~ names s j) l
    end.
  Proof.
    unfold loop. induction 1 as [|s l U F IH]; intros c; cbn [map svgo_loop].
    - split; [constructor|]. intros j. split; [intros X; inversion X|reflexivity].
    - cbn [svgo_step]. pose proof (string_step s c U) as S. destruct (set_svgo_plugin_string default_params c s) as [c1|]; [|left; exact S].
      destruct S as [S1 S2]. specialize (IH c1). destruct (svgo_loop _ _ _ _ c1 (map PString l)) as [c2|]; [|right; exact IH].
      destruct IH as [I1 I2]. split; [constructor; auto|]. intros j. specialize (I2 j). specialize (S2 j).
      split.
      + intros X. destruct (Exists_dec (fun s => text_eqb (snake_case s) (field_name j) = true \/ (s = lit "preset-default" /\ is_default j = true) \/ (text_eqb (snake_case s) (field_name ConvertPathData) = true /\ j = ApplyTransforms)) l) as [Y|Y].
        { intros t. destruct (text_eqb (snake_case t) (field_name j)) eqn:E1; [left; auto|].
          destruct (text_eqb t (lit "preset-default")) eqn:E2.
          - apply text_eqb_spec in E2. destruct (is_default j) eqn:E3; [left; auto|].
            right. intros [Z|[[_ Z]|[Z Z']]]; try discriminate. subst t. vm_compute in Z. discriminate.
          - assert (N2 : t <> lit "preset-default") by (intros ->; rewrite (proj2 (text_eqb_spec _ _) eq_refl) in E2; discriminate).
            destruct (text_eqb (snake_case t) (field_name ConvertPathData)) eqn:E4; [|right; intros [Z|[[Z _]|[Z _]]]; congruence || discriminate].
            destruct (job_eq_dec j ApplyTransforms) as [->|NJ]; [left; auto|]. right. intros [Z|[[Z _]|[_ Z]]]; congruence || discriminate. }
        * apply (proj1 I2). clear -Y F. induction Y as [t l Y|t l Y IH]; inversion F; subst; [left|right; auto].
          apply asks_iff; [assumption|]. rewrite !text_eqb_spec in Y. exact Y.
        * assert (NE : ~ Exists (fun s => asks s j) l).
          { intros Z. apply Y. clear -Z F. induction Z as [t l Z|t l Z IH]; inversion F; subst; [left|right; auto].
            apply asks_iff in Z; [|assumption]. rewrite !text_eqb_spec. exact Z. }
          rewrite (proj2 I2 NE). apply (proj1 S2). inversion X; subst; [assumption|contradiction].
      + intros X. rewrite (proj2 I2) by (intros Y; apply X; right; exact Y). apply (proj2 S2). intros Y. apply X. left. exact Y.
  Qed.
  Lemma svgo_strings l : Forall (fun s => ~ In 95%N s) l ->
    match from_svgo_plugin_config default_params decode decode_path decode_apply (Some (map PString l)) with
    | Some c => Forall (fun s => s = lit "preset-default" \/ exists j, names s j) l /\
                forall j, (Exists (fun s => asks s j) l -> c j = Some (default_params j)) /\ (~ Exists (fun s => asks s j) l -> c j = None)
    | None => Exists (fun s => s <> lit "preset-default" /\ forall j, ~ names s j) l
    end.
  Proof. intros F. exact (strings_loop l F none). Qed.

  (** A plugin with parameters other than [convertPathData]. *)
  Lemma object_step svgo r c j p : ~ In 95%N svgo -> names svgo j -> j <> ConvertPathData -> decode j r = Some p ->
    exists c', svgo_step default_params decode decode_path decode_apply c (PObject (Some svgo) (Some r)) = Some c' /\
      c' j = Some p /\ forall k, k <> j -> c' k = c k.
  Proof.
    intros U N NC DC. apply camel_snake in N. cbn [svgo_step]. rewrite N. change (lit "convert_path_data") with (field_name ConvertPathData).
    destruct (text_eqb (field_name j) (field_name ConvertPathData)) eqn:E; [apply field_eqb in E; contradiction|].
    pose proof (find_job_spec (field_name j)) as FJ. destruct (find_job (field_name j)) as [k|]; [|exfalso; exact (FJ j eq_refl)].
    apply field_name_inj in FJ. subst k. rewrite DC. eexists. split; [reflexivity|]. split.
    - rewrite set_field_spec. destruct (job_eq_dec j j); [reflexivity|contradiction].
    - intros k NK. rewrite set_field_spec. destruct (job_eq_dec j k); [congruence|reflexivity].
  Qed.
End Config.

(** ** Running *)
Section Run.
  Context {P D : Type}.
  Variable start : job -> P -> D -> outcome * D.
  Let cfg (c : job -> option P) l := filter (fun j => match c j with Some _ => true | None => false end) l.

  Lemma run_list_spec c l : forall n d, exists js rest os,
    cfg c l = js ++ rest /\ runs start c js d os (snd (run_list start c l n d)) /\
    match fst (run_list start c l n d) with
    | inr m => rest = [] /\ Forall (fun o => ~ fatal o) os /\ m = n + List.length (filter counted os)
    | inl e => exists os', os = os' ++ [Failed e] /\ fatal (Failed e) /\ Forall (fun o => ~ fatal o) os'
    end.
  Proof.
    induction l as [|j l IH]; intros n d; unfold cfg; cbn [run_list filter].
    - exists [], [], []. cbn. split; [reflexivity|]. split; [constructor|]. split; [reflexivity|]. split; [constructor|lia].
    - destruct (c j) as [p|] eqn:CJ; [|apply IH].
      destruct (start j p d) as [o d1] eqn:S. destruct o as [e|skip].
      + destruct (is_important e) eqn:I.
        * exists [j], (cfg c l), [Failed e]. split; [reflexivity|]. split; [econstructor; [exact CJ|exact S|constructor]|].
          cbn [fst]. exists []. split; [reflexivity|]. split; [exists e; split; [reflexivity|intros ->; discriminate]|constructor].
        * destruct (IH n d1) as (js & rest & os & E & RN & M). exists (j :: js), rest, (Failed e :: os).
          assert (NF : ~ fatal (Failed e)). { intros (e' & X & Y). injection X as <-. destruct e; try discriminate. contradiction. }
          split; [cbn; f_equal; exact E|]. split; [econstructor; eauto|].
          destruct (fst (run_list start c l n d1)) as [e'|m].
          -- destruct M as (os' & -> & F & N). exists (Failed e :: os'). split; [reflexivity|]. split; [exact F|constructor; auto].
          -- destruct M as (R0 & N & ->). split; [exact R0|]. split; [constructor; auto|reflexivity].
      + destruct (IH (if skip then n else Datatypes.S n) d1) as (js & rest & os & E & RN & M). exists (j :: js), rest, (Finished skip :: os).
        assert (NF : ~ fatal (Finished skip)) by (intros (e' & X & _); discriminate).
        split; [cbn; f_equal; exact E|]. split; [econstructor; eauto|].
        destruct (fst (run_list start c l (if skip then n else Datatypes.S n) d1)) as [e'|m].
        * destruct M as (os' & -> & F & N). exists (Finished skip :: os'). split; [reflexivity|]. split; [exact F|constructor; auto].
        * destruct M as (R0 & N & ->). split; [exact R0|]. split; [constructor; auto|]. cbn [filter counted]. destruct skip; cbn [List.length]; lia.
  Qed.
  Lemma run_jobs_spec c d : exists js rest os,
    configured c = js ++ rest /\ runs start c js d os (snd (run_jobs start c d)) /\
    match fst (run_jobs start c d) with
    | inr m => rest = [] /\ Forall (fun o => ~ fatal o) os /\ m = List.length (filter counted os)
    | inl e => exists os', os = os' ++ [Failed e] /\ fatal (Failed e) /\ Forall (fun o => ~ fatal o) os'
    end.
  Proof. apply (run_list_spec c all_jobs 0 d). Qed.
  Lemma run_list_ext c c' l : (forall j, c j = c' j) -> forall n d, run_list start c l n d = run_list start c' l n d.
  Proof.
    intros E. induction l as [|j l IH]; intros n d; cbn [run_list]; [reflexivity|]. rewrite <- E. destruct (c j) as [p|]; [|apply IH].
    destruct (start j p d) as [[e|s] d1]; [destruct (is_important e); [reflexivity|]|]; apply IH.
  Qed.
  Lemma run_ext has c c' d : (forall j, c j = c' j) -> run start has c d = run start has c' d.
  Proof. intros E. unfold run, run_jobs. rewrite (run_list_ext c c' all_jobs E). reflexivity. Qed.
  Lemma configured_spec (c : job -> option P) : NoDup (configured c) /\ forall j, In j (configured c) <-> exists p, c j = Some p.
  Proof.
    split.
    - apply NoDup_filter. unfold all_jobs. repeat (constructor; [cbn; intuition discriminate|]). constructor.
    - intros j. unfold configured. rewrite filter_In. split; [intros [_ H]; destruct (c j); [eauto|discriminate]|].
      intros (p & ->). split; [apply all_jobs_complete|reflexivity].
  Qed.
  Lemma run_empty has c d : has d = false -> run start has c d = (None, d).
  Proof. unfold run. intros ->. reflexivity. Qed.
  Lemma run_result has c d : has d = true ->
    run start has c d = (match fst (run_jobs start c d) with inl e => Some e | inr _ => None end, snd (run_jobs start c d)).
  Proof. unfold run. intros ->. destruct (run_jobs start c d) as [[e|n] d']; reflexivity. Qed.
End Run.
