(** Proofs about what the commands leave behind. *)
From Coq Require Import String List NArith Bool Arith Lia Permutation.
From Verif Require Import Chars OnsetModel ShellModel ShellSpec ShellProofs ShellProofs2.
Import ListNotations.

Section Commands.
  Variable ignored denied : path -> bool.
  Variable shuffle : list path -> list path.
  Hypothesis shuffled : forall l, Permutation (shuffle l) l.
  Variable D : Type.
  Variable parse : text -> option D.
  Variable serialise : D -> text * bool.
  Variable work : D -> option D.
  Variable o : options.

  Lemma leaves_run terminal stdin s w : leaves D parse serialise work ignored denied shuffle o terminal stdin s w ->
    exists flagging, w = match run ignored shuffle o terminal stdin (visit denied D parse serialise flagging work) (start s) with Some w => w | None => start s end.
  Proof.
    intros [-> |[[E -> ]| -> ]].
    - exists false. unfold optimise. destruct run; reflexivity.
    - exists true. unfold format. rewrite E. destruct run; reflexivity.
    - exists true. unfold action. destruct run; reflexivity.
  Qed.
  Lemma run_paths flagging terminal stdin s : o_paths o <> [] -> (terminal = true \/ o_paths o <> [[]]) ->
    run ignored shuffle o terminal stdin (visit denied D parse serialise flagging work) (start s) =
    Some (fold_left (handle_path ignored shuffle o (visit denied D parse serialise flagging work)) (o_paths o) (start s)).
  Proof.
    unfold run. destruct (o_paths o) as [|p [|q l]]; intros Np T; [congruence| |].
    - destruct T as [-> |T]; [reflexivity|]. destruct p as [|a p]; [exfalso; apply T; reflexivity|]. cbn [path_eqb]. rewrite andb_false_r. reflexivity.
    - cbn [List.length Nat.leb]. rewrite andb_false_r. reflexivity.
  Qed.
  Lemma tree_prefix s p q r : tree s -> file_at s p <> None -> p = q ++ r -> r <> [] -> file_at s q = None.
  Proof.
    intros (ND & N0 & T) F E N. unfold file_at in *. destruct (get s p) as [[b|]|] eqn:G; try congruence.
    assert (Np : p <> []) by (intros ->; cbn in G; discriminate).
    apply get_in in G; [|exact Np]. rewrite (T p q r); auto. apply in_map_iff. exists (p, File b). auto.
  Qed.
  Lemma clear_of_chosen s root out a p rel : tree s -> file_at s a <> None -> file_at s p <> None -> p = root ++ rel -> a <> p -> clear_of root out a (out ++ rel).
  Proof.
    intros T Fa Fp Ep N ra Ea. split; intros r E; rewrite <- app_assoc in E; apply app_inv_head in E.
    - destruct r as [|x r]; [rewrite app_nil_r in E; congruence|]. apply Fp. apply (tree_prefix s a p (x :: r)); auto; [|discriminate].
      rewrite Ea, E, Ep, app_assoc. reflexivity.
    - destruct r as [|x r]; [rewrite app_nil_r in E; congruence|]. apply Fa. apply (tree_prefix s p a (x :: r)); auto; [|discriminate].
      rewrite Ep, E, Ea, app_assoc. reflexivity.
  Qed.

  Section One.
    Variable root out : path.
    Variable s : fs.
    Hypothesis T : tree s.
    Hypothesis to : first_output o = Some out.
    Variable flagging : bool.
    Let vis := visit denied D parse serialise flagging work.
    Let fold := fold_left (visit_file o vis root).
    Variable L : list path.
    Hypothesis LP : Permutation L (listing ignored o root s).

    Lemma in_L p : In p L /\ svg p <-> exists rel, chosen ignored o s root p rel.
    Proof.
      rewrite <- (listing_in ignored o root s p T). split; intros [I V]; split; auto.
      - now apply (Permutation_in p LP).
      - now apply (Permutation_in p (Permutation_sym LP)).
    Qed.
    Lemma in_L_file p : In p L -> file_at s p <> None.
    Proof.
      intros I. apply (Permutation_in p LP) in I. unfold listing in I. apply filter_In in I. destruct I as [I _].
      apply in_map_iff in I. destruct I as ([q e] & <- & I). apply filter_In in I. destruct I as [I E]. cbn [fst snd] in *.
      destruct T as (ND & N0 & _). assert (Nq : q <> []). { intros ->. apply N0. apply in_map_iff. exists ([], e). auto. }
      unfold file_at. rewrite (in_get s q e ND Nq I). destruct e; discriminate.
    Qed.
    Lemma L_nodup : NoDup L.
    Proof. apply (Permutation_NoDup (l := listing ignored o root s)); [now apply Permutation_sym|now apply listing_nodup]. Qed.

    Lemma fold_untouched q : (forall p rel, chosen ignored o s root p rel -> q <> out ++ rel) -> file_at (w_files (fold L (start s))) q = file_at s q.
    Proof.
      intros N. unfold fold, vis. rewrite (fold_frame denied D parse serialise flagging work o root out to L (start s) q); [reflexivity|].
      intros p rel I V E. destruct (proj1 (in_L p) (conj I V)) as (rel' & C). assert (rel' = rel) as <-.
      { destruct C as (E' & _). rewrite E in E'. now apply app_inv_head in E'. }
      exact (N p rel' C).
    Qed.

    (** How a chosen file is met. *)
    Lemma fold_meets p rel : chosen ignored o s root p rel -> apart ignored o s root out ->
      exists L1 L2, L = L1 ++ p :: L2 /\
        file_at (w_files (fold L1 (start s))) p = file_at s p /\
        (creatable denied s (out ++ rel) -> creatable denied (w_files (fold L1 (start s))) (out ++ rel)) /\
        file_at (w_files (fold L1 (start s))) (out ++ rel) = file_at s (out ++ rel) /\
        (forall w, file_at (w_files (fold L2 w)) (out ++ rel) = file_at (w_files w) (out ++ rel)).
    Proof.
      intros C A. pose proof (proj2 (in_L p) (ex_intro _ rel C)) as [I V]. pose proof L_nodup as ND.
      destruct (in_split p L I) as (L1 & L2 & E). exists L1, L2. rewrite E in ND. apply NoDup_remove_2 in ND.
      assert (O : forall a, In a L1 \/ In a L2 -> a <> p /\ In a L).
      { intros a H. split; [intros ->; apply ND; apply in_or_app; tauto|]. rewrite E. apply in_or_app. cbn. tauto. }
      destruct C as (Ep & _ & Fp & C').
      assert (Apart : forall a ra, In a L1 \/ In a L2 -> svg a -> a = root ++ ra -> out ++ rel <> out ++ ra).
      { intros a ra H Va Ea X. apply app_inv_head in X. destruct (O a H) as [N _]. congruence. }
      split; [exact E|]. split; [|split; [|split]].
      - unfold fold, vis. rewrite (fold_frame denied D parse serialise flagging work o root out to L1 (start s) p); [reflexivity|].
        intros a ra Ia Va Ea X. destruct (O a (or_introl Ia)) as [N Il].
        destruct (proj1 (in_L a) (conj Il Va)) as (ra' & Ca). assert (ra' = ra) as ->. { destruct Ca as (E' & _). rewrite Ea in E'. now apply app_inv_head in E'. }
        apply N. symmetry. apply (A a ra p rel Ca); [|now symmetry]. split; [exact Ep|]. split; [exact V|]. split; [exact Fp|exact C'].
      - intros Cr. unfold fold, vis. apply (fold_creatable denied D parse serialise flagging work o root out to L1 (start s) (out ++ rel) Cr).
        intros a Ia Va. destruct (O a (or_introl Ia)) as [N Il]. apply (clear_of_chosen s root out a p rel T); auto. now apply in_L_file.
      - unfold fold, vis. rewrite (fold_frame denied D parse serialise flagging work o root out to L1 (start s) (out ++ rel)); [reflexivity|].
        intros a ra Ia. apply Apart. now left.
      - intros w. unfold fold, vis. apply (fold_frame denied D parse serialise flagging work o root out to L2 w (out ++ rel)).
        intros a ra Ia. apply Apart. now right.
    Qed.
    Lemma fold_written p rel t r : chosen ignored o s root p rel -> apart ignored o s root out -> file_at s p = Some (Utf8 t) ->
      becomes D parse serialise work t r -> creatable denied s (out ++ rel) -> file_at (w_files (fold L (start s))) (out ++ rel) = Some (Utf8 r).
    Proof.
      intros C A F B Cr. destruct (fold_meets p rel C A) as (L1 & L2 & E & Fp & Cp & _ & Z). unfold fold, vis in *. rewrite E, fold_left_app. cbn [fold_left]. rewrite Z.
      destruct C as (Ep & V & _). rewrite F in Fp.
      rewrite (step_svg denied D parse serialise flagging work o root _ p rel t V Ep Fp), to. cbn [option_map].
      apply visit_written; [exact B|]. now apply Cp.
    Qed.
    Lemma fold_failed p rel t : chosen ignored o s root p rel -> apart ignored o s root out -> file_at s p = Some (Utf8 t) ->
      fails D parse work t -> file_at (w_files (fold L (start s))) (out ++ rel) = file_at s (out ++ rel).
    Proof.
      intros C A F B. destruct (fold_meets p rel C A) as (L1 & L2 & E & Fp & _ & Fq & Z). unfold fold, vis in *. rewrite E, fold_left_app. cbn [fold_left]. rewrite Z.
      destruct C as (Ep & V & _). rewrite F in Fp.
      rewrite (step_svg denied D parse serialise flagging work o root _ p rel t V Ep Fp).
      rewrite visit_fails by exact B. exact Fq.
    Qed.
    Lemma fold_reported p rel t : chosen ignored o s root p rel -> apart ignored o s root out -> file_at s p = Some (Utf8 t) ->
      (fails D parse work t \/ (exists r, becomes D parse serialise work t r) /\ (breaks D parse serialise work t /\ creatable denied s (out ++ rel) \/ denied (out ++ rel) = true)) ->
      In (Some p) (w_reports (fold L (start s))).
    Proof.
      intros C A F B. destruct (fold_meets p rel C A) as (L1 & L2 & E & Fp & Cp & _ & _). unfold fold, vis in *. rewrite E, fold_left_app. cbn [fold_left].
      apply fold_reports. destruct C as (Ep & V & _). rewrite F in Fp.
      rewrite (step_svg denied D parse serialise flagging work o root _ p rel t V Ep Fp), to. cbn [option_map].
      assert (Rep : forall w, In (Some p) (w_reports (report flagging (Some p) w))) by (intros w; cbn; apply in_or_app; right; now left).
      destruct B as [B|[(r & d & d' & P & W & _) B]].
      - rewrite visit_fails by exact B. apply Rep.
      - unfold visit. rewrite P, W. set (w1 := fold_left _ L1 (start s)) in *.
        destruct (output denied D serialise d' (Some p) (Some (out ++ rel)) w1) as [w' ok] eqn:O.
        assert (ok = false) as ->.
        { change ok with (snd (w', ok)). rewrite <- O. destruct B as [[(d1 & d2 & P' & W' & S) Cr]|Dn].
          - rewrite P in P'. injection P' as <-. rewrite W in W'. injection W' as <-. refine (eq_trans (proj2 (output_written denied D serialise d' p (out ++ rel) w1 (Cp Cr))) S).
          - apply output_denied; [exact Dn|discriminate]. }
        apply Rep.
    Qed.
    Lemma fold_others p l : ~ In p l -> forall w, In (Some p) (w_reports (fold l w)) -> In (Some p) (w_reports w).
    Proof.
      unfold fold, vis. induction l as [|a l IH]; intros N w H; cbn [fold_left] in H; [exact H|].
      apply IH in H; [|intros I; apply N; now right].
      destruct (step_cases denied D parse serialise flagging work o root w a) as [E|(_ & t & rel & dest & _ & E & _)]; rewrite E in H; [exact H|].
      destruct (visit_reports denied D parse serialise flagging work t (Some a) dest w) as [R|R].
      - exact (eq_ind _ (fun x => In (Some p) x) H _ R).
      - assert (I : In (Some p) (w_reports w ++ [Some a])) by exact (eq_ind _ (fun x => In (Some p) x) H _ R).
        apply in_app_or in I. destruct I as [I|[I|[]]]; [exact I|]. injection I as ->. exfalso. apply N. now left.
    Qed.
    Lemma visit_quiet t d d' p q w : parse t = Some d -> work d = Some d' -> snd (serialise d') = true -> creatable denied (w_files w) q ->
      w_reports (visit denied D parse serialise flagging work t (Some p) (Some q) w) = w_reports w.
    Proof.
      intros P W S Cr. unfold visit. rewrite P, W.
      assert (Ok : snd (output denied D serialise d' (Some p) (Some q) w) = true) by exact (eq_trans (proj2 (output_written denied D serialise d' p q w Cr)) S).
      assert (R : w_reports (fst (output denied D serialise d' (Some p) (Some q) w)) = w_reports w) by exact (proj1 (output_reports denied D serialise d' (Some p) (Some q) w)).
      destruct (output denied D serialise d' (Some p) (Some q) w) as [w' ok]. cbn [fst snd] in *. subst ok. exact R.
    Qed.
    Lemma fold_quiet p rel t d d' : chosen ignored o s root p rel -> apart ignored o s root out -> file_at s p = Some (Utf8 t) ->
      parse t = Some d -> work d = Some d' -> snd (serialise d') = true -> creatable denied s (out ++ rel) ->
      ~ In (Some p) (w_reports (fold L (start s))).
    Proof.
      intros C A F P W S Cr I. destruct (fold_meets p rel C A) as (L1 & L2 & E & Fp & Cp & _ & _).
      pose proof L_nodup as ND. rewrite E in ND. apply NoDup_remove_2 in ND.
      unfold fold in I. rewrite E, fold_left_app in I. cbn [fold_left] in I. apply fold_others in I; [|intros X; apply ND; apply in_or_app; now right].
      destruct C as (Ep & V & _). rewrite F in Fp. unfold fold, vis in *.
      rewrite (step_svg denied D parse serialise flagging work o root _ p rel t V Ep Fp), to in I. cbn [option_map] in I.
      specialize (Cp Cr). assert (I' : In (Some p) (w_reports (fold_left (visit_file o (visit denied D parse serialise flagging work) root) L1 (start s)))).
      { rewrite <- (visit_quiet t d d' p (out ++ rel) _ P W S Cp). exact I. }
      apply fold_others in I'; [destruct I'|intros X; apply ND; apply in_or_app; now left].
    Qed.
  End One.

  (** The theorems, for any of the commands. *)
  Variable terminal : bool.
  Variable stdin : option text.
  Variable s : fs.
  Variable w : world.
  Hypothesis LV : leaves D parse serialise work ignored denied shuffle o terminal stdin s w.
  Hypothesis T : tree s.

  Lemma one_root root : o_paths o = [root] -> (terminal = true \/ root <> []) ->
    exists flagging, w = fold_left (visit_file o (visit denied D parse serialise flagging work) root) (shuffle (listing ignored o root s)) (start s).
  Proof.
    intros P Tm. destruct (leaves_run terminal stdin s w LV) as (flagging & E). exists flagging.
    rewrite run_paths in E; [|congruence|destruct Tm as [Tm|Tm]; [now left|right; rewrite P; congruence]]. rewrite P in E. exact E.
  Qed.
  Lemma commands_written root out rest p rel t r : o_paths o = [root] -> (terminal = true \/ root <> []) -> o_output o = Some (out :: rest) ->
    apart ignored o s root out -> chosen ignored o s root p rel -> file_at s p = Some (Utf8 t) -> becomes D parse serialise work t r ->
    creatable denied s (out ++ rel) -> file_at (w_files w) (out ++ rel) = Some (Utf8 r).
  Proof.
    intros P Tm O A C F B Cr. destruct (one_root root P Tm) as (flagging & ->).
    apply (fold_written root out s T) with (p := p) (t := t); auto. unfold first_output. now rewrite O.
  Qed.
  Lemma commands_failed root out rest p rel t : o_paths o = [root] -> (terminal = true \/ root <> []) -> o_output o = Some (out :: rest) ->
    apart ignored o s root out -> chosen ignored o s root p rel -> file_at s p = Some (Utf8 t) -> fails D parse work t ->
    file_at (w_files w) (out ++ rel) = file_at s (out ++ rel) /\ In (Some p) (w_reports w).
  Proof.
    intros P Tm O A C F B. destruct (one_root root P Tm) as (flagging & ->).
    assert (to : first_output o = Some out) by (unfold first_output; now rewrite O). split.
    - apply (fold_failed root out s T to flagging _ (shuffled _) p rel t); auto.
    - apply (fold_reported root out s T to flagging _ (shuffled _) p rel t); auto.
  Qed.
  Lemma commands_reported root out rest p rel t : o_paths o = [root] -> (terminal = true \/ root <> []) -> o_output o = Some (out :: rest) ->
    apart ignored o s root out -> chosen ignored o s root p rel -> file_at s p = Some (Utf8 t) ->
    (fails D parse work t \/ (exists r, becomes D parse serialise work t r) /\ (breaks D parse serialise work t /\ creatable denied s (out ++ rel) \/ denied (out ++ rel) = true)) ->
    In (Some p) (w_reports w).
  Proof.
    intros P Tm O A C F B. destruct (one_root root P Tm) as (flagging & ->).
    assert (to : first_output o = Some out) by (unfold first_output; now rewrite O).
    apply (fold_reported root out s T to flagging _ (shuffled _) p rel t); auto.
  Qed.
  Lemma commands_quiet root out rest p rel t d d' : o_paths o = [root] -> (terminal = true \/ root <> []) -> o_output o = Some (out :: rest) ->
    apart ignored o s root out -> chosen ignored o s root p rel -> file_at s p = Some (Utf8 t) ->
    parse t = Some d -> work d = Some d' -> snd (serialise d') = true -> creatable denied s (out ++ rel) -> ~ In (Some p) (w_reports w).
  Proof.
    intros P Tm O A C F Pd W S Cr. destruct (one_root root P Tm) as (flagging & ->).
    assert (to : first_output o = Some out) by (unfold first_output; now rewrite O).
    apply (fold_quiet root out s T to flagging _ (shuffled _) p rel t d d'); auto.
  Qed.
  Lemma commands_untouched root out rest q : o_paths o = [root] -> (terminal = true \/ root <> []) -> o_output o = Some (out :: rest) ->
    (forall p rel, chosen ignored o s root p rel -> q <> out ++ rel) -> file_at (w_files w) q = file_at s q.
  Proof.
    intros P Tm O N. destruct (one_root root P Tm) as (flagging & ->).
    apply (fold_untouched root out s T); auto. unfold first_output. now rewrite O.
  Qed.

  Lemma paths_no_output flagging l : first_output o = None -> forall w0, w_files w0 = s ->
    let w1 := fold_left (handle_path ignored shuffle o (visit denied D parse serialise flagging work)) l w0 in
    w_files w1 = s /\ forall r, In r (w_out w1) <-> In r (w_out w0) \/ exists root p rel t, In root l /\ chosen ignored o s root p rel /\ file_at s p = Some (Utf8 t) /\ becomes D parse serialise work t r.
  Proof.
    intros F. induction l as [|root l IH]; intros w0 E; cbn [fold_left].
    - split; [exact E|]. intros r. split; [auto|]. intros [H|(? & ? & ? & ? & [] & _)]; exact H.
    - set (w2 := handle_path ignored shuffle o (visit denied D parse serialise flagging work) w0 root).
      assert (E2 : w_files w2 = s). { unfold w2, handle_path. rewrite fold_no_output by exact F. exact E. }
      destruct (IH w2 E2) as [E1 R1]. split; [exact E1|]. intros r. rewrite R1. unfold w2, handle_path. rewrite fold_out by exact F. rewrite E. split.
      + intros [[H|(p & I & V & t & Ft & B)]|(root' & p & rel & t & I & H)]; [auto| |].
        * right. apply (Permutation_in p (shuffled _)) in I. destruct (proj1 (listing_in ignored o root s p T) (conj I V)) as (rel & C).
          exists root, p, rel, t. cbn. auto.
        * right. exists root', p, rel, t. cbn. auto.
      + intros [H|(root' & p & rel & t & [<-|I] & C & Ft & B)]; [auto| |].
        * left. right. destruct (proj2 (listing_in ignored o root s p T) (ex_intro _ rel C)) as [I V].
          exists p. split; [exact (Permutation_in p (Permutation_sym (shuffled _)) I)|]. split; [exact V|]. exists t. auto.
        * right. exists root', p, rel, t. auto.
  Qed.
  Lemma commands_printed : o_paths o <> [] -> (terminal = true \/ o_paths o <> [[]]) -> o_output o = None \/ o_output o = Some [] ->
    w_files w = s /\ forall r, In r (w_out w) <-> exists root p rel t, In root (o_paths o) /\ chosen ignored o s root p rel /\ file_at s p = Some (Utf8 t) /\ becomes D parse serialise work t r.
  Proof.
    intros P Tm O. destruct (leaves_run terminal stdin s w LV) as (flagging & E). rewrite run_paths in E by auto. subst w.
    assert (F : first_output o = None) by (unfold first_output; destruct O as [-> | ->]; reflexivity).
    destruct (paths_no_output flagging (o_paths o) F (start s) eq_refl) as [H R]. split; [exact H|]. intros r. rewrite R. cbn. split; [intros [[]|H']; exact H'|auto].
  Qed.
  Lemma commands_stdin t r : terminal = false -> o_paths o = [] -> stdin = Some t -> becomes D parse serialise work t r ->
    match o_output o with
    | Some (out :: _) => (is_dir s out = true -> w_files w = s /\ w_out w = [r]) /\
                         (creatable denied s out -> w_out w = [] /\ file_at (w_files w) out = Some (Utf8 r) /\ forall q, q <> out -> file_at (w_files w) q = file_at s q)
    | _ => w_files w = s /\ w_out w = [r]
    end.
  Proof.
    intros Tm P St B. destruct (leaves_run terminal stdin s w LV) as (flagging & E). unfold run in E. rewrite Tm, P, St in E. cbn [negb List.length Nat.leb andb] in E.
    destruct B as (d & d' & Pd & W & <-).
    assert (Pr : forall w0, w_files (let (w1, ok) := print D serialise d' w0 in if ok then w1 else report flagging None w1) = w_files w0 /\
                            w_out (let (w1, ok) := print D serialise d' w0 in if ok then w1 else report flagging None w1) = w_out w0 ++ [fst (serialise d')]).
    { intros w0. unfold print. destruct (snd (serialise d')); auto. }
    unfold first_output in E. destruct (o_output o) as [[|out rest]|].
    - subst w. unfold visit. rewrite Pd, W. cbn [output]. apply (Pr (start s)).
    - split.
      + intros Id. subst w. unfold visit. rewrite Pd, W. cbn [output]. change (w_files (start s)) with s. rewrite Id. apply (Pr (start s)).
      + intros Cr. assert (Id : is_dir s out = false). { destruct Cr as (_ & _ & N & _). unfold is_dir. destruct (get s out) as [[b|]|]; auto. congruence. }
        assert (EO : output denied D serialise d' None (Some out) (start s) = output denied D serialise d' (Some []) (Some out) (start s)).
        { unfold output. change (w_files (start s)) with s. now rewrite Id. }
        assert (F : file_at (w_files (fst (output denied D serialise d' (Some []) (Some out) (start s)))) out = Some (Utf8 (fst (serialise d')))) by exact (proj1 (output_written denied D serialise d' [] out (start s) Cr)).
        pose proof (output_frame denied D serialise d' (Some []) (Some out) (start s)) as Fr.
        assert (Out : w_out (fst (output denied D serialise d' (Some []) (Some out) (start s))) = []).
        { unfold output. destruct create_dirs. destruct (_ || _ || _); reflexivity. }
        subst w. unfold visit. rewrite Pd, W, EO. destruct (output denied D serialise d' (Some []) (Some out) (start s)) as [w' ok]. cbn [fst] in *.
        destruct ok; (split; [exact Out|]; split; [exact F|]; intros q Nq; apply Fr; congruence).
    - subst w. unfold visit. rewrite Pd, W. cbn [output]. apply (Pr (start s)).
  Qed.
End Commands.

(** The status of [format]. *)
Section Status.
  Variable ignored denied : path -> bool.
  Variable shuffle : list path -> list path.
  Variable D : Type.
  Variable parse : text -> option D.
  Variable serialise : D -> text * bool.
  Variable o : options.
  Let good (w : world) : Prop := w_flag w = match w_reports w with [] => false | _ => true end.
  Lemma fold_good root l : forall w, good w -> good (fold_left (visit_file o (visit denied D parse serialise true Some) root) l w).
  Proof.
    induction l as [|p l IH]; intros w G; cbn; auto. apply IH.
    destruct (step_cases denied D parse serialise true Some o root w p) as [-> |(_ & t & rel & dest & _ & -> & _)]; [exact G|].
    exact (visit_flag denied D parse serialise true Some t (Some p) dest w G).
  Qed.
  Lemma format_status terminal stdin s : o_paths o <> [] ->  (terminal = true \/ o_paths o <> [[]]) ->
    (snd (format ignored denied shuffle D parse serialise o terminal stdin s) = true <-> w_reports (fst (format ignored denied shuffle D parse serialise o terminal stdin s)) = []).
  Proof.
    intros P Tm. unfold format. rewrite (run_paths ignored denied shuffle D parse serialise Some o true terminal stdin s P Tm). cbn [fst snd].
    assert (G : good (fold_left (handle_path ignored shuffle o (visit denied D parse serialise true Some)) (o_paths o) (start s))).
    { generalize (o_paths o). assert (G0 : good (start s)) by reflexivity. revert G0. generalize (start s). clear P Tm. intros w0 G0 l. revert w0 G0.
      induction l as [|root l IH]; intros w0 G0; cbn; auto. apply IH. now apply fold_good. }
    unfold good in G. rewrite G. destruct (w_reports _); cbn; split; congruence.
  Qed.
  Lemma format_is_optimise terminal stdin s :
    let w := fst (format ignored denied shuffle D parse serialise o terminal stdin s) in
    let w' := fst (optimise ignored denied shuffle D parse serialise Some o terminal stdin s) in
    w_files w = w_files w' /\ w_out w = w_out w' /\ w_reports w = w_reports w'.
  Proof.
    set (same := fun w w' : world => w_files w = w_files w' /\ w_out w = w_out w' /\ w_reports w = w_reports w').
    assert (V : forall t i dest w w', same w w' -> same (visit denied D parse serialise true Some t i dest w) (visit denied D parse serialise false Some t i dest w')).
    { intros t i dest w w' (A & B & C). unfold visit. destruct (parse t) as [d|]; [|unfold same, report; cbn; rewrite A, B, C; auto].
      unfold output, print. destruct dest as [p|].
      - rewrite <- A. destruct (match i with None => is_dir (w_files w) p | Some _ => false end).
        + destruct (snd (serialise d)); unfold same, report; cbn; rewrite ?A, ?B, ?C; auto.
        + destruct (create_dirs denied [] (removelast p) (w_files w)) as [s' ok]. destruct (negb ok || is_dir s' p || denied p).
          * unfold same, report; cbn; rewrite ?A, ?B, ?C; auto.
          * destruct (snd (serialise d)); unfold same, report; cbn; rewrite ?A, ?B, ?C; auto.
      - destruct (snd (serialise d)); unfold same, report; cbn; rewrite ?A, ?B, ?C; auto. }
    assert (F : forall root l w w', same w w' -> same (fold_left (visit_file o (visit denied D parse serialise true Some) root) l w) (fold_left (visit_file o (visit denied D parse serialise false Some) root) l w')).
    { intros root l. induction l as [|p l IH]; intros w w' S; cbn; auto. apply IH. unfold visit_file.
      destruct (negb _); [exact S|]. destruct (output_path o root p) as [dest|]; [|exact S]. pose proof S as (A & _). rewrite <- A.
      destruct (get (w_files w) p) as [[[t|]|]|]; try exact S. now apply V. }
    assert (P : forall l w w', same w w' -> same (fold_left (handle_path ignored shuffle o (visit denied D parse serialise true Some)) l w) (fold_left (handle_path ignored shuffle o (visit denied D parse serialise false Some)) l w')).
    { intros l. induction l as [|root l IH]; intros w w' S; cbn; auto. apply IH. unfold handle_path. pose proof S as (A & _). rewrite <- A. now apply F. }
    assert (S0 : same (start s) (start s)) by (repeat split).
    cbn zeta. unfold format, optimise, run. destruct (negb terminal && _ && _).
    - destruct stdin as [t|]; [|exact S0]. cbn [fst]. now apply V.
    - destruct (o_paths o) as [|p l] eqn:E; [exact S0|]. exact (P (p :: l) _ _ S0).
  Qed.
End Status.

Lemma tree_check s : NoDup (map fst s) -> ~ In [] (map fst s) ->
  forallb (fun p => forallb (fun k => is_dir s (firstn k p)) (seq 0 (List.length p))) (map fst s) = true -> tree s.
Proof.
  intros ND N0 F. split; [exact ND|]. split; [exact N0|]. intros p q r I E N. rewrite forallb_forall in F. specialize (F p I). rewrite forallb_forall in F.
  assert (L : In (List.length q) (seq 0 (List.length p))). { apply in_seq. rewrite E, app_length. destruct r; [congruence|]. cbn. lia. }
  specialize (F _ L). rewrite E, firstn_app, Nat.sub_diag, firstn_all, firstn_O, app_nil_r in F. unfold is_dir in F. destruct (get s q) as [[b|]|]; congruence.
Qed.
