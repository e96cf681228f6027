(** Proofs about paths, files and directories. *)
From Coq Require Import String List NArith Bool Arith Lia Permutation.
From Verif Require Import Chars OnsetModel ShellModel ShellSpec.
Import ListNotations.

Lemma path_eqb_spec p q : path_eqb p q = true <-> p = q.
Proof.
  revert q; induction p as [|a p IH]; intros [|b q]; cbn; split; try congruence; auto.
  - rewrite andb_true_iff, text_eqb_spec, IH. intros [-> ->]; reflexivity.
  - intros E; inversion E; subst. rewrite text_eqb_refl. cbn. now apply IH.
Qed.
Lemma path_eqb_refl p : path_eqb p p = true.
Proof. now apply path_eqb_spec. Qed.
Lemma path_eqb_neq p q : path_eqb p q = false <-> p <> q.
Proof.
  split.
  - intros E ->. rewrite path_eqb_refl in E. discriminate.
  - intros H. destruct (path_eqb p q) eqn:E; auto. apply path_eqb_spec in E. contradiction.
Qed.
Lemma path_dec (p q : path) : p = q \/ p <> q.
Proof. destruct (path_eqb p q) eqn:E; [left; now apply path_eqb_spec|right; now apply path_eqb_neq]. Qed.
Lemma strip_prefix_spec p q r : strip_prefix p q = Some r <-> q = p ++ r.
Proof.
  revert q; induction p as [|x p IH]; intros q; cbn.
  - split; [intros E; inversion E; auto|intros ->; auto].
  - destruct q as [|y s]; [split; discriminate|]. destruct (text_eqb x y) eqn:E.
    + apply text_eqb_spec in E. subst. rewrite IH. split; [intros ->; auto|intros E; inversion E; auto].
    + apply text_eqb_neq in E. split; [discriminate|intros E'; inversion E'; congruence].
Qed.

Lemma find_filter_other s p q : p <> q ->
  find (fun e => path_eqb (fst e) q) (filter (fun x : path * entry => negb (path_eqb (fst x) p)) s) = find (fun e => path_eqb (fst e) q) s.
Proof.
  intros N. induction s as [|[a e] s IH]; cbn; auto.
  destruct (path_eqb a p) eqn:E; cbn.
  - apply path_eqb_spec in E. subst. destruct (path_eqb p q) eqn:F; [apply path_eqb_spec in F; contradiction|auto].
  - rewrite IH. reflexivity.
Qed.
Lemma get_put_same s p e : p <> [] -> get (put s p e) p = Some e.
Proof. intros N. destruct p as [|a p]; [congruence|]. unfold get, put. cbn [find fst]. rewrite path_eqb_refl. reflexivity. Qed.
Lemma get_put_other s p q e : p <> q -> get (put s p e) q = get s q.
Proof.
  intros N. unfold get, put. destruct q as [|b q]; auto. cbn [find fst].
  rewrite (proj2 (path_eqb_neq p (b :: q)) N). now rewrite find_filter_other.
Qed.

Lemma get_in s p e : p <> [] -> get s p = Some e -> In (p, e) s.
Proof.
  intros N. unfold get. destruct p as [|a p]; [congruence|].
  destruct (find _ s) as [[q x]|] eqn:F; [|discriminate]. intros E. injection E as <-.
  apply find_some in F. destruct F as [I E]. cbn [fst] in E. apply path_eqb_spec in E. subst. exact I.
Qed.
Lemma in_get s p e : NoDup (map fst s) -> p <> [] -> In (p, e) s -> get s p = Some e.
Proof.
  intros ND N I. unfold get. destruct p as [|a p]; [congruence|].
  induction s as [|[q x] s IH]; [contradiction|]. cbn [map fst] in ND. inversion ND as [|? ? NI ND']; subst.
  cbn [find fst]. destruct (path_eqb q (a :: p)) eqn:E.
  - apply path_eqb_spec in E. subst. destruct I as [I|I]; [inversion I; auto|]. exfalso. apply NI. apply in_map_iff. exists (a :: p, e). auto.
  - destruct I as [I|I]; [inversion I; subst; rewrite path_eqb_refl in E; discriminate|]. auto.
Qed.

Section Dirs.
  Variable denied : path -> bool.
  Lemma create_dirs_get r : forall a s q,
    get (fst (create_dirs denied a r s)) q = get s q \/
    (get s q = None /\ get (fst (create_dirs denied a r s)) q = Some Dir /\ exists x y, r = x ++ y /\ x <> [] /\ q = a ++ x).
  Proof.
    induction r as [|n r IH]; intros a s q; cbn [create_dirs fst]; [now left|].
    destruct (get s (a ++ [n])) as [[b|]|] eqn:G; cbn [fst]; [now left| |].
    - destruct (IH (a ++ [n]) s q) as [E|(E & E' & x & y & -> & Nx & ->)]; [now left|].
      right. split; [exact E|]. split; [exact E'|]. exists (n :: x), y. rewrite <- app_assoc. split; [reflexivity|]. split; [discriminate|reflexivity].
    - destruct (denied (a ++ [n])) eqn:Dn; cbn [fst]; [now left|].
      assert (Na : a ++ [n] <> []) by (destruct a; discriminate).
      destruct (IH (a ++ [n]) (put s (a ++ [n]) Dir) q) as [E|(E & E' & x & y & -> & Nx & ->)].
      + destruct (path_dec (a ++ [n]) q) as [<-|N].
        * right. rewrite E, get_put_same by exact Na. split; [exact G|]. split; [reflexivity|]. exists [n], r. split; [reflexivity|]. split; [discriminate|reflexivity].
        * left. rewrite E. now apply get_put_other.
      + right. rewrite get_put_other in E.
        2:{ intros C. rewrite <- (app_nil_r (a ++ [n])) in C at 1. apply app_inv_head in C. now subst. }
        split; [exact E|]. split; [exact E'|]. exists (n :: x), y. rewrite <- app_assoc. split; [reflexivity|]. split; [discriminate|reflexivity].
  Qed.
  Lemma create_dirs_ok r : forall a s,
    (forall x y, r = x ++ y -> x <> [] -> get s (a ++ x) = Some Dir \/ (get s (a ++ x) = None /\ denied (a ++ x) = false)) ->
    snd (create_dirs denied a r s) = true.
  Proof.
    induction r as [|n r IH]; intros a s H; cbn [create_dirs snd]; auto.
    destruct (H [n] r eq_refl) as [G|[G Dn]]; [discriminate| |]; rewrite G.
    - apply IH. intros x y -> Nx. rewrite <- app_assoc. apply (H (n :: x) y); [reflexivity|discriminate].
    - rewrite Dn. apply IH. intros x y -> Nx.
      assert (Na : a ++ [n] <> (a ++ [n]) ++ x). { intros C. rewrite <- (app_nil_r (a ++ [n])) in C at 1. apply app_inv_head in C. now subst. }
      rewrite get_put_other by exact Na. rewrite <- app_assoc. apply (H (n :: x) y); [reflexivity|discriminate].
  Qed.
End Dirs.

Lemma removelast_split (q : path) : q <> [] -> exists n, q = removelast q ++ [n].
Proof. intros N. exists (last q []). now apply app_removelast_last. Qed.

Section Output.
  Variable denied : path -> bool.
  Variable D : Type.
  Variable serialise : D -> text * bool.
  Let out := output denied D serialise.

  (** The output of a document changes no file but the one it goes to. *)
  Lemma output_frame d input dest w q : dest <> Some q -> file_at (w_files (fst (out d input dest w))) q = file_at (w_files w) q.
  Proof.
    intros N. unfold out, output. destruct dest as [p|]; [|reflexivity].
    destruct (match input with None => is_dir (w_files w) p | Some _ => false end); [reflexivity|].
    destruct (create_dirs denied [] (removelast p) (w_files w)) as [s ok] eqn:C.
    assert (F : file_at s q = file_at (w_files w) q).
    { pose proof (create_dirs_get denied (removelast p) [] (w_files w) q) as H. rewrite C in H. cbn [fst] in H. unfold file_at.
      destruct H as [-> |(G & -> & _)]; [reflexivity|]. rewrite G. reflexivity. }
    destruct (negb ok || is_dir s p || denied p); cbn [fst w_files]; [exact F|].
    unfold file_at in *. rewrite get_put_other by congruence. exact F.
  Qed.
  (** It reaches the file it goes to, if that can be written. *)
  Lemma output_written d p dest w : creatable denied (w_files w) dest ->
    file_at (w_files (fst (out d (Some p) (Some dest) w))) dest = Some (Utf8 (fst (serialise d))) /\ snd (out d (Some p) (Some dest) w) = snd (serialise d).
  Proof.
    intros (Ne & Dn & Nd & Hp). unfold out, output.
    destruct (create_dirs denied [] (removelast dest) (w_files w)) as [s ok] eqn:C.
    destruct (removelast_split dest Ne) as [n Q].
    assert (Ok : ok = true).
    { change ok with (snd (s, ok)). rewrite <- C. apply create_dirs_ok. intros x y E Nx. cbn [app].
      apply (Hp x (y ++ [n])); [rewrite app_assoc, <- E; exact Q|exact Nx|destruct y; discriminate]. }
    assert (Gs : get s dest <> Some Dir).
    { pose proof (create_dirs_get denied (removelast dest) [] (w_files w) dest) as H. rewrite C in H. cbn [fst] in H.
      destruct H as [-> |(_ & _ & x & y & E & Nx & E')]; [exact Nd|]. cbn [app] in E'. exfalso.
      apply (f_equal (@List.length text)) in E. rewrite app_length in E. rewrite <- E' in E.
      apply (f_equal (@List.length text)) in Q. rewrite app_length in Q. cbn [List.length] in Q. lia. }
    assert (Id : is_dir s dest = false).
    { unfold is_dir. destruct (get s dest) as [[b|]|]; auto. congruence. }
    rewrite Ok, Id, Dn. cbn [negb orb fst snd w_files]. split; [|reflexivity].
    unfold file_at. rewrite get_put_same by exact Ne. reflexivity.
  Qed.
  (** Whether other files can be written is not changed by it. *)
  Lemma output_creatable d input dest w q : creatable denied (w_files w) q ->
    (forall p, dest = Some p -> (forall r, p <> q ++ r) /\ (forall r, q <> p ++ r)) ->
    creatable denied (w_files (fst (out d input dest w))) q.
  Proof.
    intros (Ne & Dn & Nd & Hp) Ap. unfold out, output. destruct dest as [p|]; [|now repeat split].
    destruct (Ap p eq_refl) as [A1 A2].
    destruct (match input with None => is_dir (w_files w) p | Some _ => false end); [now repeat split|].
    destruct (create_dirs denied [] (removelast p) (w_files w)) as [s ok] eqn:C.
    assert (Cs : creatable denied s q).
    { split; [exact Ne|]. split; [exact Dn|]. split.
      - pose proof (create_dirs_get denied (removelast p) [] (w_files w) q) as H. rewrite C in H. cbn [fst] in H.
        destruct H as [-> |(_ & _ & x & y & E & Nx & E')]; [exact Nd|]. cbn [app] in E'. subst x. exfalso.
        destruct p as [|a p].
        + cbn [removelast] in E. symmetry in E. apply app_eq_nil in E. destruct E as [E _]. contradiction.
        + destruct (removelast_split (a :: p)) as [n Q]; [discriminate|]. apply (A1 (y ++ [n])). rewrite Q, E, app_assoc. reflexivity.
      - intros a b E Na Nb. pose proof (create_dirs_get denied (removelast p) [] (w_files w) a) as H. rewrite C in H. cbn [fst] in H.
        destruct H as [-> |(_ & -> & _)]; [now apply (Hp a b)|now left]. }
    destruct (negb ok || is_dir s p || denied p); cbn [fst w_files]; [exact Cs|].
    destruct Cs as (Ne' & Dn' & Nd' & Hp'). split; [exact Ne|]. split; [exact Dn|].
    split.
    - rewrite get_put_other; [exact Nd'|]. intros ->. apply (A1 []). now rewrite app_nil_r.
    - intros a b E Na Nb. rewrite get_put_other; [now apply (Hp' a b)|]. intros ->. now apply (A2 b).
  Qed.
  Lemma output_keeps_dir d input dest w q : get (w_files w) q = Some Dir -> dest = Some q -> input <> None ->
    get (w_files (fst (out d input dest w))) q = Some Dir /\ snd (out d input dest w) = false.
  Proof.
    intros G -> Ni. unfold out, output. destruct input as [i|]; [|congruence].
    destruct (create_dirs denied [] (removelast q) (w_files w)) as [s ok] eqn:C.
    pose proof (create_dirs_get denied (removelast q) [] (w_files w) q) as H. rewrite C in H. cbn [fst] in H.
    assert (Gs : get s q = Some Dir) by (destruct H as [-> |(_ & -> & _)]; auto).
    unfold is_dir. rewrite Gs. rewrite orb_true_r. cbn [orb fst snd w_files]. auto.
  Qed.
  Lemma output_dir_stays d input dest w q : get (w_files w) q = Some Dir -> q <> [] -> dest <> Some q -> get (w_files (fst (out d input dest w))) q = Some Dir.
  Proof.
    intros G Nq N. unfold out, output. destruct dest as [p|]; [|exact G].
    destruct (match input with None => is_dir (w_files w) p | Some _ => false end); [exact G|].
    destruct (create_dirs denied [] (removelast p) (w_files w)) as [s ok] eqn:C.
    pose proof (create_dirs_get denied (removelast p) [] (w_files w) q) as H. rewrite C in H. cbn [fst] in H.
    assert (Gs : get s q = Some Dir) by (destruct H as [-> |(_ & -> & _)]; auto).
    destruct (negb ok || is_dir s p || denied p); cbn [fst w_files]; [exact Gs|].
    rewrite get_put_other by congruence. exact Gs.
  Qed.
  Lemma output_denied d input p w : denied p = true -> input <> None -> snd (out d input (Some p) w) = false.
  Proof.
    intros Dn Ni. unfold out, output. destruct input as [i|]; [|congruence].
    destruct (create_dirs denied [] (removelast p) (w_files w)) as [s ok]. rewrite Dn, !orb_true_r. reflexivity.
  Qed.
  Lemma output_reports d input dest w : w_reports (fst (out d input dest w)) = w_reports w /\ w_flag (fst (out d input dest w)) = w_flag w.
  Proof.
    unfold out, output. destruct dest as [p|]; [|auto].
    destruct (match input with None => is_dir (w_files w) p | Some _ => false end); [auto|].
    destruct (create_dirs denied [] (removelast p) (w_files w)) as [s ok].
    destruct (negb ok || is_dir s p || denied p); auto.
  Qed.
End Output.

(** Names of svg documents. *)
Lemma before_last_spec f s : match before_last f s with
  | Some b => exists c r, s = b ++ c :: r /\ f c = true /\ forallb (fun x => negb (f x)) r = true
  | None => forallb (fun x => negb (f x)) s = true end.
Proof.
  induction s as [|c s IH]; cbn; auto. destruct (before_last f s) as [b|].
  - destruct IH as (x & r & -> & F & N). exists x, r. auto.
  - destruct (f c) eqn:F; cbn; [|exact IH]. exists c, s. auto.
Qed.
Lemma tail_after_dot a b r r' : forallb (fun x => negb (N.eqb 46 x)) r = true -> forallb (fun x => negb (N.eqb 46 x)) r' = true ->
  a ++ 46%N :: r = b ++ 46%N :: r' -> a = b /\ r = r'.
Proof.
  revert b; induction a as [|x a IH]; intros [|y b] R R' E; cbn [app] in E.
  - injection E as ->. auto.
  - exfalso. injection E as <- ->. rewrite forallb_app in R. apply andb_true_iff in R. destruct R as [_ R]. cbn in R. discriminate.
  - exfalso. injection E as -> E. subst r'. rewrite forallb_app in R'. apply andb_true_iff in R'. destruct R' as [_ R']. cbn in R'. discriminate.
  - injection E as -> E. destruct (IH b R R' E) as [-> ->]. auto.
Qed.
Lemma extension_svg n : (match extension n with Some e => text_eqb e (lit "svg") | None => false end) = true <-> svg_name n.
Proof.
  unfold extension. pose proof (before_last_spec (N.eqb 46) n) as H. split.
  - destruct (before_last (N.eqb 46) n) as [[|x b]|]; try discriminate. intros E. apply text_eqb_spec in E.
    destruct H as (c & r & -> & F & _). apply N.eqb_eq in F. subst c.
    replace (skipn (S (List.length (x :: b))) ((x :: b) ++ 46%N :: r)) with r in E.
    2:{ change (S (List.length (x :: b))) with (1 + List.length (x :: b)). rewrite Nat.add_comm. rewrite skipn_app. rewrite skipn_all2 by lia.
        replace (List.length (x :: b) + 1 - List.length (x :: b)) with 1 by lia. reflexivity. }
    exists (x :: b). split; [discriminate|]. rewrite E. reflexivity.
  - intros (stem & N & ->). change (lit ".svg") with (46%N :: lit "svg") in *.
    destruct (before_last (N.eqb 46) (stem ++ 46%N :: lit "svg")) as [b|] eqn:B.
    + destruct H as (c & r & E & F & R). apply N.eqb_eq in F. subst c.
      apply tail_after_dot in E; [|reflexivity|exact R]. destruct E as [<- <-]. destruct stem as [|x stem]; [congruence|].
      apply text_eqb_spec.
      change (S (List.length (x :: stem))) with (1 + List.length (x :: stem)). rewrite Nat.add_comm. rewrite skipn_app. rewrite skipn_all2 by lia.
      replace (List.length (x :: stem) + 1 - List.length (x :: stem)) with 1 by lia. reflexivity.
    + exfalso. rewrite forallb_app in H. apply andb_true_iff in H. destruct H as [_ H]. cbn in H. discriminate.
Qed.
