From Coq Require Import String List NArith Bool Arith Lia.
From Verif Require Import Chars ParseModel OnsetModel ShellModel ShellSpec ShellProofs ExportModel ExportSpec ExportProofs.
Import ListNotations.

Lemma last_snoc {A} (l : list A) a d : last (l ++ [a]) d = a.
Proof. induction l as [|x l IH]; [reflexivity|]. cbn [app]. destruct (l ++ [a]) eqn:E; [destruct l; discriminate|]. exact IH. Qed.
Lemma removelast_snoc {A} (l : list A) a : removelast (l ++ [a]) = l.
Proof. apply removelast_last. Qed.
Lemma last_app {A} (l m : list A) d : m <> [] -> last (l ++ m) d = last m d.
Proof. intros N. induction l as [|x l IH]; [reflexivity|]. cbn [app]. destruct (l ++ m) eqn:E; [apply app_eq_nil in E; destruct E; congruence|]. rewrite <- IH. reflexivity. Qed.
Lemma names_apart o (stem : text) : stem ++ 46%N :: (if j_typescript o then lit "tsx" else lit "jsx") <> (if j_typescript o then lit "index.ts" else lit "index.js").
Proof. intros E. destruct (j_typescript o); apply (f_equal (fun t : text => last t 0%N)) in E; cbv beta in E; rewrite last_app in E by (intro X; discriminate X); vm_compute in E; discriminate E. Qed.

Section Jsx.
  Variable denied : path -> bool.
  Variable D : Type.
  Variable parse : text -> option D.
  Variable transform : D -> text -> text * bool.
  Variable o : jsx_options.
  Notation visit := (visit_jsx denied D parse transform o).

  Lemma file_shape input dest out : component_file o input dest = Some out -> out <> [] ->
    exists stem, out = removelast out ++ [stem ++ 46%N :: (if j_typescript o then lit "tsx" else lit "jsx")].
  Proof.
    unfold component_file. destruct (match dest with Some p => Some p | None => input end) as [p|]; [|discriminate]. intros [= <-] Ne.
    destruct p as [|n p]; [now destruct Ne|]. unfold set_extension. rewrite removelast_snoc. eexists. reflexivity.
  Qed.
  Lemma index_apart input dest out : component_file o input dest = Some out -> out <> index_of o out.
  Proof.
    intros E C. destruct out as [|n out]; [discriminate C|]. destruct (file_shape _ _ _ E) as (stem & S); [discriminate|].
    unfold index_of in C. set (q := n :: out) in *. apply (f_equal (fun x => last x [])) in C. rewrite last_snoc in C. rewrite S in C. rewrite last_snoc in C. exact (names_apart o stem C).
  Qed.
  (** The first half is the output of other commands. *)
  Lemma visit_output source d input dest out w : parse source = Some d -> component_file o input dest = Some out ->
    visit source input dest w =
    let (w1, ok) := output denied D (fun d => transform d (name_for input)) d (Some []) (Some out) w in
    if ok then let (s, ok) := append_index denied o out (name_for input) (w_files w1) in
      let w2 := mkWorld s (w_out w1) (w_reports w1) (w_flag w1) in if ok then w2 else report true input w2
    else report true input w1.
  Proof.
    intros P C. unfold visit_jsx, output. rewrite P, C. destruct (create_dirs denied [] (removelast out) (w_files w)) as [s ok].
    destruct (negb ok || is_dir s out || denied out); [reflexivity|]. cbn [w_files w_out w_reports w_flag].
    destruct (snd (transform d (name_for input))); [|reflexivity]. destruct (append_index denied o out (name_for input) _) as [s' ok']. destruct ok'; reflexivity.
  Qed.
  Lemma output_get_index d input out w name : out <> [] -> out <> index_of o out ->
    get (w_files (fst (output denied D (fun d => transform d name) d (Some input) (Some out) w))) (index_of o out) = get (w_files w) (index_of o out).
  Proof.
    intros Ne Na. unfold output. destruct (create_dirs denied [] (removelast out) (w_files w)) as [s ok] eqn:C.
    assert (G : get s (index_of o out) = get (w_files w) (index_of o out)).
    { pose proof (create_dirs_get denied (removelast out) [] (w_files w) (index_of o out)) as H. rewrite C in H. cbn [fst] in H.
      destruct H as [H|(_ & _ & x & y & E & _ & E')]; [exact H|]. exfalso. cbn [app] in E'. unfold index_of in E'. rewrite <- E' in E.
      apply (f_equal (@List.length text)) in E. rewrite !app_length in E. cbn in E. lia. }
    destruct (negb ok || is_dir s out || denied out); cbn [fst w_files]; [exact G|]. rewrite get_put_other by exact Na. exact G.
  Qed.
  (** One document that goes well. *)
  Lemma document source d input dest out w :
    parse source = Some d -> component_file o input dest = Some out -> snd (transform d (name_for input)) = true ->
    creatable denied (w_files w) out -> denied (index_of o out) = false -> get (w_files w) (index_of o out) <> Some Dir -> (forall n, file_at (w_files w) (index_of o out) <> Some (Raw n)) ->
    let w' := visit source input dest w in
    file_at (w_files w') out = Some (Utf8 (fst (transform d (name_for input)))) /\
    file_at (w_files w') (index_of o out) = Some (Utf8 (old (w_files w) (index_of o out) ++ export_line (j_named o) (name_for input) (file_stem (last out [])))) /\
    (forall q, q <> out -> q <> index_of o out -> file_at (w_files w') q = file_at (w_files w) q) /\ w_out w' = w_out w /\ w_reports w' = w_reports w.
  Proof.
    intros P C T Cr Dn Nd Nr. pose proof Cr as (Ne & _). pose proof (index_apart _ _ _ C) as Na. cbn zeta. rewrite (visit_output source d input dest out w P C).
    set (ser := fun d => transform d (name_for input)).
    assert (F1 : file_at (w_files (fst (output denied D ser d (Some []) (Some out) w))) out = Some (Utf8 (fst (ser d)))) by exact (proj1 (output_written denied D ser d [] out w Cr)).
    assert (O1 : snd (output denied D ser d (Some []) (Some out) w) = true) by exact (eq_trans (proj2 (output_written denied D ser d [] out w Cr)) T).
    assert (R1 : w_reports (fst (output denied D ser d (Some []) (Some out) w)) = w_reports w) by exact (proj1 (output_reports denied D ser d (Some []) (Some out) w)).
    assert (U1 : w_out (fst (output denied D ser d (Some []) (Some out) w)) = w_out w).
    { unfold output. destruct (create_dirs denied [] (removelast out) (w_files w)) as [s ok]. destruct (negb ok || is_dir s out || denied out); reflexivity. }
    assert (G1 : get (w_files (fst (output denied D ser d (Some []) (Some out) w))) (index_of o out) = get (w_files w) (index_of o out)) by exact (output_get_index d [] out w (name_for input) Ne Na).
    assert (Fr : forall q, q <> out -> file_at (w_files (fst (output denied D ser d (Some []) (Some out) w))) q = file_at (w_files w) q).
    { intros q N. apply (output_frame denied D ser d (Some []) (Some out) w q). congruence. }
    destruct (output denied D ser d (Some []) (Some out) w) as [w1 ok]. cbn [fst snd] in *. subst ok.
    unfold append_index. rewrite Dn, G1, index_line_spec. assert (Ni : index_of o out <> []) by (unfold index_of; destruct (removelast out); discriminate).
    assert (End : forall b, file_at (put (w_files w1) (index_of o out) (File b)) out = Some (Utf8 (fst (ser d))) /\
      file_at (put (w_files w1) (index_of o out) (File b)) (index_of o out) = Some b /\
      (forall q, q <> out -> q <> index_of o out -> file_at (put (w_files w1) (index_of o out) (File b)) q = file_at (w_files w) q)).
    { intros b. unfold file_at in *. rewrite get_put_other by congruence. rewrite get_put_same by exact Ni. split; [exact F1|]. split; [reflexivity|].
      intros q N1 N2. rewrite get_put_other by congruence. now apply Fr. }
    assert (Old : old (w_files w) (index_of o out) = match get (w_files w) (index_of o out) with Some (File (Utf8 t)) => t | _ => [] end).
    { unfold old, file_at. destruct (get (w_files w) (index_of o out)) as [[[t|n]|]|]; reflexivity. }
    rewrite Old. clear Old. unfold file_at in Nr. destruct (get (w_files w) (index_of o out)) as [[[t|n]|]|] eqn:Gi.
    - destruct (End (Utf8 (t ++ export_line (j_named o) (name_for input) (file_stem (last out []))))) as (A & B & E). cbn [w_files w_out w_reports]. repeat split; auto.
    - destruct (Nr n eq_refl).
    - congruence.
    - destruct (End (Utf8 (export_line (j_named o) (name_for input) (file_stem (last out []))))) as (A & B & E). cbn [w_files w_out w_reports]. repeat split; auto.
  Qed.

  (** The index of a directory. *)
  Lemma create_dirs_same r : forall a s, (forall x y, r = x ++ y -> x <> [] -> get s (a ++ x) = Some Dir) -> create_dirs denied a r s = (s, true).
  Proof.
    induction r as [|n r IH]; intros a s H; [reflexivity|]. cbn [create_dirs]. rewrite (H [n] r) by (reflexivity || discriminate).
    apply IH. intros x y -> Nx. rewrite <- app_assoc. apply (H (n :: x) y); [reflexivity|discriminate].
  Qed.
  Variable parent : path.
  Let index := index_of o (parent ++ [[]]).
  Lemma index_here n : index_of o (parent ++ [n]) = index.
  Proof. unfold index, index_of. rewrite !removelast_snoc. reflexivity. Qed.
  Notation ready := (ready o parent).
  Notation goes_to := (goes_to D parse transform denied o parent).
  Lemma index_fold docs names : Forall2 goes_to docs names -> denied index = false -> forall w all, (forall n, In n names -> In n all) -> ready all (w_files w) ->
    let w' := visit_all denied D parse transform o docs w in
    old (w_files w') index = old (w_files w) index ++ concat (map (fun xn => export_line (j_named o) (name_for (snd (fst (fst xn)))) (file_stem (snd xn))) (combine docs names)) /\ w_reports w' = w_reports w.
  Proof.
    intros F Dn. induction F as [|x n docs names' (C & Dx & d & P & T) F' IH]; intros w all Sub R.
    - cbn. rewrite app_nil_r. auto.
    - destruct x as [[source input] dest]. cbn [fst snd] in *.
      assert (Cr : creatable denied (w_files w) (parent ++ [n])).
      { destruct R as (R1 & R2 & _). split; [intros X; apply app_eq_nil in X; destruct X; discriminate|]. split; [exact Dx|]. split; [apply R2, Sub; now left|]. intros a b E Na Nb. left.
        destruct (exists_last Nb) as (b' & y & ->). rewrite app_assoc in E. apply app_inj_tail in E. destruct E as [E _]. now apply (R1 a b'). }
      pose proof (index_here n) as Ei.
      assert (Doc : let w' := visit source input dest w in
        file_at (w_files w') (parent ++ [n]) = Some (Utf8 (fst (transform d (name_for input)))) /\
        file_at (w_files w') index = Some (Utf8 (old (w_files w) index ++ export_line (j_named o) (name_for input) (file_stem n))) /\ w_reports w' = w_reports w).
      { pose proof (document source d input dest (parent ++ [n]) w P C T Cr) as Doc. rewrite Ei, last_snoc in Doc. destruct R as (_ & _ & R3 & R4).
        destruct (Doc Dn R3 R4) as (A & B & _ & _ & E). cbn zeta. auto. }
      assert (R' : ready all (w_files (visit source input dest w))).
      { assert (Same : create_dirs denied [] (removelast (parent ++ [n])) (w_files w) = (w_files w, true)).
        { rewrite removelast_snoc. apply create_dirs_same. destruct R as (R1 & _). exact R1. }
        assert (Na : parent ++ [n] <> index) by (rewrite <- Ei; exact (index_apart _ _ _ C)).
        assert (Sh : exists b, w_files (visit source input dest w) = put (put (w_files w) (parent ++ [n]) (File (Utf8 (fst (transform d (name_for input)))))) index (File (Utf8 b))).
        { unfold visit_jsx. rewrite P, C, Same, T, Dx. cbn [negb orb]. assert (Id : is_dir (w_files w) (parent ++ [n]) = false).
          { destruct Cr as (_ & _ & N & _). unfold is_dir. destruct (get (w_files w) (parent ++ [n])) as [[b|]|]; auto. congruence. }
          rewrite Id. cbn [orb]. unfold append_index. rewrite Ei, Dn. rewrite get_put_other by exact Na. destruct R as (_ & _ & R3 & R4). unfold file_at in R4. fold index in R3, R4.
          destruct (get (w_files w) index) as [[[t|k]|]|]; cbn [w_files]; [eexists; reflexivity|destruct (R4 k eq_refl)|congruence|eexists; reflexivity]. }
        destruct Sh as (b & ->). destruct R as (R1 & R2 & R3 & R4). unfold ExportSpec.ready. fold index. fold index in R3, R4.
        assert (Ni : index <> []) by (unfold index, index_of; destruct (removelast (parent ++ [[]])); discriminate).
        assert (Li : List.length index = S (List.length parent)) by (unfold index, index_of; rewrite removelast_snoc, app_length; cbn; lia).
        split; [|split; [|split]].
        - intros x y E Nx. rewrite !get_put_other; [now apply (R1 x y)| |].
          + intros X. apply (f_equal (@List.length text)) in X. apply (f_equal (@List.length text)) in E. rewrite !app_length in *. cbn in X. lia.
          + intros X. apply (f_equal (@List.length text)) in X. apply (f_equal (@List.length text)) in E. rewrite !app_length in *. lia.
        - intros m Im. destruct (path_dec index (parent ++ [m])) as [<-|N1]; [rewrite get_put_same by exact Ni; discriminate|]. rewrite get_put_other by exact N1.
          destruct (path_dec (parent ++ [n]) (parent ++ [m])) as [<-|N2]; [rewrite get_put_same by (intros X; apply app_eq_nil in X; destruct X; discriminate); discriminate|]. rewrite get_put_other by exact N2. now apply R2.
        - rewrite get_put_same by exact Ni. discriminate.
        - intros k. unfold file_at. rewrite get_put_same by exact Ni. discriminate. }
      destruct (IH (visit source input dest w) all) as (A & B); [intros m Im; apply Sub; now right|exact R'|].
      cbn zeta in *. unfold visit_all in *. cbn [fold_left fst snd]. rewrite A, B. destruct Doc as (_ & Doc & Rp). split; [|exact Rp].
      unfold old at 1. rewrite Doc. cbn [combine map concat fst snd]. rewrite app_assoc. reflexivity.
  Qed.
End Jsx.
