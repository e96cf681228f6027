(** Proofs about going through files. *)
From Coq Require Import String List NArith Bool Arith Lia Permutation.
From Verif Require Import Chars OnsetModel ShellModel ShellSpec ShellProofs.
Import ListNotations.

Section Walk.
  Variable ignored denied : path -> bool.
  Variable shuffle : list path -> list path.
  Hypothesis shuffled : forall l, Permutation (shuffle l) l.
  Variable D : Type.
  Variable parse : text -> option D.
  Variable serialise : D -> text * bool.
  Variable flagging : bool.
  Variable work : D -> option D.
  Variable o : options.
  Let vis := visit denied D parse serialise flagging work.

  Lemma visit_frame t i dest w q : dest <> Some q -> file_at (w_files (vis t i dest w)) q = file_at (w_files w) q.
  Proof.
    intros N. unfold vis, visit. destruct (parse t) as [d|]; [|reflexivity]. destruct (work d) as [d'|]; [|reflexivity].
    pose proof (output_frame denied D serialise d' i dest w q N) as F. destruct (output denied D serialise d' i dest w) as [w' ok]. cbn [fst] in F.
    destruct ok; exact F.
  Qed.
  Lemma visit_written t p dest w r : becomes D parse serialise work t r -> creatable denied (w_files w) dest ->
    file_at (w_files (vis t (Some p) (Some dest) w)) dest = Some (Utf8 r).
  Proof.
    intros (d & d' & P & W & <-) C. unfold vis, visit. rewrite P, W.
    destruct (output_written denied D serialise d' p dest w C) as [F _].
    destruct (output denied D serialise d' (Some p) (Some dest) w) as [w' ok]. cbn [fst] in F. destruct ok; exact F.
  Qed.
  Lemma visit_fails t i dest w : fails D parse work t -> vis t i dest w = report flagging i w.
  Proof. intros F. unfold vis, visit. destruct F as [-> |(d & -> & ->)]; reflexivity. Qed.
  Lemma visit_creatable t i dest w q : creatable denied (w_files w) q ->
    (forall p, dest = Some p -> (forall r, p <> q ++ r) /\ (forall r, q <> p ++ r)) -> creatable denied (w_files (vis t i dest w)) q.
  Proof.
    intros C A. unfold vis, visit. destruct (parse t) as [d|]; [|exact C]. destruct (work d) as [d'|]; [|exact C].
    pose proof (output_creatable denied D serialise d' i dest w q C A) as F. destruct (output denied D serialise d' i dest w) as [w' ok]. cbn [fst] in F.
    destruct ok; exact F.
  Qed.
  Lemma visit_reports t i dest w : w_reports (vis t i dest w) = w_reports w \/ w_reports (vis t i dest w) = w_reports w ++ [i].
  Proof.
    unfold vis, visit. destruct (parse t) as [d|]; [|now right]. destruct (work d) as [d'|]; [|now right].
    destruct (output_reports denied D serialise d' i dest w) as [R _]. destruct (output denied D serialise d' i dest w) as [w' ok]. cbn [fst] in R.
    destruct ok; [left; exact R|right]. cbn. rewrite R. reflexivity.
  Qed.
  Lemma visit_flag t i dest w : w_flag w = (if flagging then match w_reports w with [] => false | _ => true end else false) ->
    w_flag (vis t i dest w) = (if flagging then match w_reports (vis t i dest w) with [] => false | _ => true end else false).
  Proof.
    intros H. assert (R : forall w', w_reports w' = w_reports w -> w_flag w' = w_flag w ->
      w_flag (report flagging i w') = (if flagging then match w_reports (report flagging i w') with [] => false | _ => true end else false)).
    { intros w' R F. cbn. rewrite F, H. destruct flagging.
      - rewrite orb_true_r. destruct (w_reports w' ++ [i]) eqn:E; [destruct (w_reports w'); discriminate|reflexivity].
      - reflexivity. }
    unfold vis, visit. destruct (parse t) as [d|]; [|now apply R]. destruct (work d) as [d'|]; [|now apply R].
    destruct (output_reports denied D serialise d' i dest w) as [R1 R2]. destruct (output denied D serialise d' i dest w) as [w' ok]. cbn [fst] in R1, R2.
    destruct ok; [rewrite R1, R2; exact H|now apply R].
  Qed.

  Section Root.
    Variable root : path.
    Let step := visit_file o vis root.
    Definition svg (p : path) : Prop := svg_name (last p []).

    Lemma step_cases w p : step w p = w \/
      (svg p /\ exists t rel dest, file_at (w_files w) p = Some (Utf8 t) /\ step w p = vis t (Some p) dest w /\ dest = option_map (fun out => out ++ rel) (first_output o) /\ (first_output o <> None -> p = root ++ rel)).
    Proof.
      unfold step, visit_file. pose proof (extension_svg (last p [])) as X.
      destruct (match extension (last p []) with Some e => text_eqb e (lit "svg") | None => false end); cbn [negb]; [|now left].
      unfold output_path. destruct (first_output o) as [out|] eqn:F.
      - destruct (strip_prefix root p) as [rel|] eqn:S; [|now left]. apply strip_prefix_spec in S.
        replace (match rel with [] => Some (Some out) | _ => Some (Some (out ++ rel)) end) with (Some (Some (out ++ rel))) by (destruct rel; [now rewrite app_nil_r|reflexivity]).
        destruct (get (w_files w) p) as [[[t|]|]|] eqn:G; try now left.
        right. split; [now apply X|]. exists t, rel, (Some (out ++ rel)). unfold file_at. rewrite G. auto.
      - destruct (get (w_files w) p) as [[[t|]|]|] eqn:G; try now left.
        right. split; [now apply X|]. exists t, [], None. unfold file_at. rewrite G. cbn. repeat split. congruence.
    Qed.
    Lemma step_svg w p rel t : svg p -> p = root ++ rel -> file_at (w_files w) p = Some (Utf8 t) ->
      step w p = vis t (Some p) (option_map (fun out => out ++ rel) (first_output o)) w.
    Proof.
      intros V E G. unfold step, visit_file. pose proof (proj2 (extension_svg (last p [])) V) as X. rewrite X. cbn [negb].
      unfold output_path. unfold file_at in G. destruct (get (w_files w) p) as [[[t'|]|]|]; try discriminate. injection G as ->.
      destruct (first_output o) as [out|]; [|reflexivity].
      rewrite (proj2 (strip_prefix_spec root p rel) E). cbn [option_map]. destruct rel; [now rewrite app_nil_r|reflexivity].
    Qed.

    Lemma listing_in s p : tree s -> (In p (listing ignored o root s) /\ svg p <-> exists rel, chosen ignored o s root p rel).
    Proof.
      intros (ND & N0 & _). unfold listing. rewrite filter_In, in_map_iff.
      unfold chosen, svg. split.
      - intros (((e & <- & I) & L) & V). apply filter_In in I. destruct I as [I E]. destruct e as [p e]. cbn [fst snd] in *.
        unfold listed in L. destruct (strip_prefix root p) as [rel|] eqn:S; [|discriminate]. apply strip_prefix_spec in S.
        apply andb_true_iff in L. destruct L as [L L3]. apply andb_true_iff in L. destruct L as [L1 L2].
        exists rel. split; [exact S|]. split; [exact V|].
        assert (Np : p <> []). { intros ->. apply N0. apply in_map_iff. exists ([], e). auto. }
        split. { unfold file_at. rewrite (in_get s p e ND Np I). destruct e; discriminate. }
        split. { intros R. rewrite R in L1. cbn in L1. apply Nat.leb_le in L1. exact L1. }
        split.
        + intros H n In' r ->. rewrite H in L2. cbn [orb] in L2. apply negb_true_iff in L2.
          rewrite <- not_true_iff_false in L2. apply L2. apply existsb_exists. exists (46%N :: r). split; [exact In'|reflexivity].
        + intros H Nr. rewrite H in L3. cbn [orb] in L3. destruct rel; [congruence|]. now apply negb_true_iff in L3.
      - intros (rel & E & V & F & H1 & H2 & H3). split; [|exact V].
        unfold file_at in F. destruct (get s p) as [[b|]|] eqn:G; try congruence.
        assert (Np : p <> []) by (intros ->; cbn in G; discriminate).
        split. { exists (p, File b). split; [reflexivity|]. apply filter_In. split; [now apply get_in|reflexivity]. }
        unfold listed. rewrite (proj2 (strip_prefix_spec root p rel) E).
        apply andb_true_iff. split; [apply andb_true_iff; split|].
        + destruct (o_recursive o); [reflexivity|]. cbn. apply Nat.leb_le. auto.
        + destruct (o_hidden o); [reflexivity|]. cbn [orb]. apply negb_true_iff. apply not_true_iff_false. intros X. apply existsb_exists in X.
          destruct X as (n & I & X). destruct n as [|c n]; [discriminate|]. unfold starts_with in X. cbn [Chars.strip_prefix] in X.
          destruct (N.eqb_spec 46 c) as [<-|]; [|discriminate]. exact (H2 eq_refl _ I n eq_refl).
        + destruct (o_no_ignore o); [reflexivity|]. cbn [orb]. destruct rel as [|x rel]; [reflexivity|]. apply negb_true_iff. apply H3; [reflexivity|discriminate].
    Qed.
    Lemma listing_nodup s : tree s -> NoDup (listing ignored o root s).
    Proof.
      intros (ND & _). unfold listing. apply NoDup_filter. clear -ND. induction s as [|[p e] s IH]; cbn; [constructor|].
      cbn in ND. inversion ND as [|? ? NI ND']; subst. destruct e; cbn; [|auto]. constructor; [|auto].
      intros I. apply NI. apply in_map_iff in I. destruct I as (x & E & I). apply filter_In in I. apply in_map_iff. exists x. tauto.
    Qed.

    (** Without an output nothing but what is printed changes. *)
    Lemma step_no_output w p : first_output o = None -> w_files (step w p) = w_files w.
    Proof.
      intros F. destruct (step_cases w p) as [-> |(_ & t & rel & dest & _ & -> & -> & _)]; [reflexivity|]. rewrite F. cbn [option_map].
      unfold vis, visit. destruct (parse t) as [d|]; [|reflexivity]. destruct (work d) as [d'|]; [|reflexivity]. unfold output, print.
      destruct (snd (serialise d')); reflexivity.
    Qed.
    Lemma fold_no_output l w : first_output o = None -> w_files (fold_left step l w) = w_files w.
    Proof. intros F. revert w; induction l as [|p l IH]; intros w; cbn; auto. rewrite IH. now apply step_no_output. Qed.

    Lemma step_out w p : first_output o = None -> forall r, In r (w_out (step w p)) <-> In r (w_out w) \/ (svg p /\ exists t, file_at (w_files w) p = Some (Utf8 t) /\ becomes D parse serialise work t r).
    Proof.
      intros F r. unfold step, visit_file. pose proof (extension_svg (last p [])) as X.
      destruct (match extension (last p []) with Some e => text_eqb e (lit "svg") | None => false end); cbn [negb].
      2:{ split; [auto|]. intros [H|[V _]]; [exact H|]. unfold svg in V. apply X in V. discriminate. }
      unfold output_path. rewrite F. unfold file_at.
      destruct (get (w_files w) p) as [[[t|]|]|]; try (split; [auto|intros [H|[_ (t' & E & _)]]; [exact H|discriminate]]).
      assert (V : svg p) by now apply X.
      unfold vis, visit, becomes. destruct (parse t) as [d|] eqn:P.
      2:{ cbn. split; [auto|]. intros [H|[_ (t' & E & d & d' & P' & _)]]; [exact H|]. injection E as <-. congruence. }
      destruct (work d) as [d'|] eqn:W.
      2:{ cbn. split; [auto|]. intros [H|[_ (t' & E & d1 & d' & P' & W' & _)]]; [exact H|]. injection E as <-. congruence. }
      unfold output, print.
      assert (E : forall w', w_out (if snd (serialise d') then w' else report flagging (Some p) w') = w_out w') by (intros; destruct (snd (serialise d')); reflexivity).
      rewrite E. cbn [w_out]. rewrite in_app_iff. cbn [In]. split.
      - intros [H|[H|[]]]; [auto|]. right. split; [exact V|]. exists t. split; [reflexivity|]. exists d, d'. auto.
      - intros [H|[_ (t' & E' & d1 & d2 & P' & W' & S)]]; [auto|]. injection E' as <-. rewrite P in P'. injection P' as <-. rewrite W in W'. injection W' as <-. auto.
    Qed.
    Lemma fold_out l : first_output o = None -> forall w r, In r (w_out (fold_left step l w)) <->
      In r (w_out w) \/ exists p, In p l /\ svg p /\ exists t, file_at (w_files w) p = Some (Utf8 t) /\ becomes D parse serialise work t r.
    Proof.
      intros F. induction l as [|a l IH]; intros w r; cbn [fold_left].
      - split; [auto|]. intros [H|(p & [] & _)]; exact H.
      - rewrite IH, step_out by exact F. rewrite step_no_output by exact F. split.
        + intros [[H|[V H]]|(p & I & H)]; [auto| |]; right; [exists a|exists p]; cbn; auto.
        + intros [H|(p & [<-|I] & H)]; [auto|auto|]. right. exists p. auto.
    Qed.

    (** Reports are kept. *)
    Lemma step_reports w p x : In x (w_reports w) -> In x (w_reports (step w p)).
    Proof.
      intros I. destruct (step_cases w p) as [-> |(_ & t & rel & dest & _ & -> & _)]; [exact I|].
      destruct (visit_reports t (Some p) dest w) as [-> | ->]; [exact I|]. apply in_or_app. now left.
    Qed.
    Lemma fold_reports l : forall w x, In x (w_reports w) -> In x (w_reports (fold_left step l w)).
    Proof. induction l as [|a l IH]; intros w x I; cbn; auto. apply IH. now apply step_reports. Qed.

    Section To.
      Variable out : path.
      Hypothesis to : first_output o = Some out.

      Lemma step_frame w p q : (forall rel, svg p -> p = root ++ rel -> q <> out ++ rel) -> file_at (w_files (step w p)) q = file_at (w_files w) q.
      Proof.
        intros N. destruct (step_cases w p) as [-> |(V & t & rel & dest & _ & -> & -> & E)]; [reflexivity|].
        apply visit_frame. rewrite to. cbn. intros C. injection C as C. apply (N rel V); [apply E; congruence|congruence].
      Qed.
      Lemma fold_frame l : forall w q, (forall p rel, In p l -> svg p -> p = root ++ rel -> q <> out ++ rel) -> file_at (w_files (fold_left step l w)) q = file_at (w_files w) q.
      Proof.
        induction l as [|a l IH]; intros w q N; cbn; auto. rewrite IH; [|intros p rel I; apply N; now right].
        apply step_frame. intros rel. apply N. now left.
      Qed.
      Definition clear_of (p q : path) : Prop := forall rel, p = root ++ rel -> (forall r, out ++ rel <> q ++ r) /\ (forall r, q <> (out ++ rel) ++ r).
      Lemma step_creatable w p q : creatable denied (w_files w) q -> (svg p -> clear_of p q) -> creatable denied (w_files (step w p)) q.
      Proof.
        intros C N. destruct (step_cases w p) as [-> |(V & t & rel & dest & _ & -> & -> & E)]; [exact C|].
        apply visit_creatable; [exact C|]. rewrite to. cbn. intros p' E'. injection E' as <-. apply N; [exact V|]. apply E. congruence.
      Qed.
      Lemma fold_creatable l : forall w q, creatable denied (w_files w) q -> (forall p, In p l -> svg p -> clear_of p q) -> creatable denied (w_files (fold_left step l w)) q.
      Proof.
        induction l as [|a l IH]; intros w q C N; cbn; auto. apply IH; [|intros p I; apply N; now right].
        apply step_creatable; [exact C|]. apply N. now left.
      Qed.
    End To.
  End Root.
End Walk.
