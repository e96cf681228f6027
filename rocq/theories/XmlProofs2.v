(** Lemmas: reading the printed form back. *)
From Coq Require Import String List NArith Bool Arith Lia.
From Verif Require Import Chars XmlModel XmlSpec XmlProofs.
Import ListNotations.

Local Arguments attr_text : simpl never.

Lemma run_app r a b : run r (a ++ b) = match run r a with Some r' => run r' b | None => None end.
Proof.
  revert r; induction a as [|c a IH]; intros r; simpl; auto.
  destruct (step r c); auto.
Qed.

Lemma run_seq r a b r' : run r a = Some r' -> run r (a ++ b) = run r' b.
Proof. intros H. rewrite run_app, H. reflexivity. Qed.

Ltac nb := repeat rewrite ?orb_true_iff, ?andb_true_iff, ?N.leb_le, ?N.eqb_eq in *.

Lemma name_char_xml c : name_char c = true ->
  is_xml_char c = true /\ is_xml_space c = false /\ c <> 62%N /\ c <> 47%N /\ c <> 61%N /\
  c <> 60%N /\ c <> 33%N /\ c <> 63%N /\ c <> 13%N.
Proof.
  intros H.
  assert (R : (c = 45 \/ c = 46 \/ 48 <= c <= 58 \/ 65 <= c <= 90 \/ c = 95 \/ 97 <= c <= 122 \/
               183 <= c <= 55295 \/ 63744 <= c <= 65533 \/ 65536 <= c <= 983039)%N).
  { unfold name_char, name_start, in_range in H. nb. lia. }
  split.
  - unfold is_xml_char. nb. lia.
  - split; [|lia]. unfold is_xml_space.
    destruct (N.eqb_spec c 32), (N.eqb_spec c 9), (N.eqb_spec c 10), (N.eqb_spec c 13); auto; lia.
Qed.

Lemma name_start_char c : name_start c = true -> name_char c = true.
Proof. unfold name_char. intros ->. reflexivity. Qed.

Ltac neq c k := let H := fresh in assert (H : N.eqb c k = false) by (apply N.eqb_neq; auto; lia); rewrite H; clear H.

Lemma is_name_cons s : is_name s -> exists c r, s = c :: r /\ name_start c = true /\ forallb name_char r = true.
Proof. destruct s as [|c r]; simpl; [tauto|]. intros [A B]. eauto. Qed.

Lemma is_name_chars s : is_name s -> Forall (fun c => name_char c = true) s.
Proof.
  intros H. apply is_name_cons in H as (c & r & -> & A & B). constructor; [now apply name_start_char|].
  apply Forall_forall. now apply forallb_forall.
Qed.

Lemma run_name_chars fs cu s : Forall (fun c => name_char c = true) s -> forall n,
  run (mkR (MName n) fs cu) s = Some (mkR (MName (rev s ++ n)) fs cu).
Proof.
  induction 1 as [|c s Hc _ IH]; intros n; simpl; auto.
  destruct (name_char_xml c Hc) as (X & _). unfold step. rewrite X. simpl. rewrite Hc. simpl.
  rewrite IH. simpl. rewrite <- app_assoc. reflexivity.
Qed.

Lemma run_close_chars fs cu s : Forall (fun c => name_char c = true) s -> forall c0 n,
  run (mkR (MClose (c0 :: n)) fs cu) s = Some (mkR (MClose (rev s ++ c0 :: n)) fs cu).
Proof.
  induction 1 as [|c s Hc _ IH]; intros c0 n; simpl; auto.
  destruct (name_char_xml c Hc) as (X & _). unfold step. rewrite X. simpl. rewrite Hc. simpl.
  rewrite IH. simpl. rewrite <- app_assoc. reflexivity.
Qed.

Lemma run_attr_chars fs cu n at_ s : Forall (fun c => name_char c = true) s -> forall a,
  run (mkR (MAttr n at_ a) fs cu) s = Some (mkR (MAttr n at_ (rev s ++ a)) fs cu).
Proof.
  induction 1 as [|c s Hc _ IH]; intros a; simpl; auto.
  destruct (name_char_xml c Hc) as (X & _). unfold step. rewrite X. simpl. rewrite Hc. simpl.
  rewrite IH. simpl. rewrite <- app_assoc. reflexivity.
Qed.

(** Opening a tag up to the end of its name. *)
Lemma run_open fs cu acc name : is_name name ->
  run (mkR (MText acc) fs cu) (lit "<" ++ name) = Some (mkR (MName (rev name)) fs (flush acc cu)).
Proof.
  intros H. apply is_name_cons in H as (c & r & -> & A & B).
  destruct (name_char_xml c (name_start_char c A)) as (X & Sp & N1 & N2 & N3 & N4 & N5 & N6 & N7).
  simpl. unfold step. rewrite X. simpl. neq c 47%N. neq c 33%N. neq c 63%N. rewrite A.
  rewrite run_name_chars; [|apply Forall_forall; now apply forallb_forall].
  simpl. reflexivity.
Qed.

(** Escaped text. *)
Lemma run_text_char sq fs cu acc c : is_xml_char c = true -> 
  run (mkR (MText acc) fs cu) (escape_char sq false c) = Some (mkR (MText (c :: acc)) fs cu).
Proof.
  intros X. unfold escape_char. rewrite !andb_false_r. cbn [andb].
  destruct (N.eqb_spec c 38) as [->|N1]; [reflexivity|].
  destruct (N.eqb_spec c 62) as [->|N2]; [reflexivity|].
  destruct (N.eqb_spec c 60) as [->|N3]; [reflexivity|].
  simpl. unfold step. rewrite X. simpl. neq c 60%N. neq c 38%N. reflexivity.
Qed.

Lemma text_ok_cons c s : text_ok (c :: s) -> is_xml_char c = true /\ c <> 13%N /\ text_ok s.
Proof.
  unfold text_ok. simpl. rewrite !andb_true_iff, negb_true_iff, N.eqb_neq. tauto.
Qed.

Lemma run_text sq fs cu s : text_ok s -> forall acc,
  run (mkR (MText acc) fs cu) (escape sq false s) = Some (mkR (MText (rev s ++ acc)) fs cu).
Proof.
  induction s as [|c s IH]; intros T acc; simpl; auto.
  apply text_ok_cons in T as (X & _ & T).
  rewrite (run_seq _ _ _ _ (run_text_char sq fs cu acc c X)). rewrite IH by auto.
  rewrite <- app_assoc. reflexivity.
Qed.

Lemma run_raw fs cu s : text_ok s -> ~ In 60%N s -> ~ In 38%N s -> forall acc,
  run (mkR (MText acc) fs cu) s = Some (mkR (MText (rev s ++ acc)) fs cu).
Proof.
  induction s as [|c s IH]; intros T A B acc; simpl; auto.
  apply text_ok_cons in T as (X & _ & T). simpl in A, B.
  unfold step. rewrite X. simpl. neq c 60%N. neq c 38%N. rewrite IH by tauto.
  rewrite <- app_assoc. reflexivity.
Qed.

(** Escaped attribute values. *)
Lemma value_ok_cons c s : value_ok (c :: s) ->
  is_xml_char c = true /\ (is_xml_space c = true -> c = 32%N) /\ value_ok s.
Proof.
  unfold value_ok. simpl. rewrite !andb_true_iff, orb_true_iff, negb_true_iff, N.eqb_eq.
  intros [[A B] C]. repeat split; auto. intros E. destruct B; congruence.
Qed.

Lemma run_value_char o fs cu n at_ a acc c :
  is_xml_char c = true -> (is_xml_space c = true -> c = 32%N) ->
  run (mkR (MVal n at_ a (quote o) acc) fs cu) (escape_char (use_single_quote o) true c) =
  Some (mkR (MVal n at_ a (quote o) (c :: acc)) fs cu).
Proof.
  intros X Sp. unfold escape_char, quote. rewrite !andb_true_r.
  assert (Q : forall q, (q = 39%N \/ q = 34%N) ->
     forall e x, In (e, x) [(lit "&amp;", 38); (lit "&gt;", 62); (lit "&lt;", 60); (lit "&quot;", 34); (lit "&apos;", 39)]%N ->
     run (mkR (MVal n at_ a q acc) fs cu) e = Some (mkR (MVal n at_ a q (x :: acc)) fs cu)).
  { intros q [-> | ->] e x H; simpl in H;
      repeat (destruct H as [H|H]; [inversion H; subst; reflexivity|]); contradiction. }
  assert (Hq : (if use_single_quote o then 39%N else 34%N) = 39%N \/
               (if use_single_quote o then 39%N else 34%N) = 34%N)
    by (destruct (use_single_quote o); auto).
  destruct (N.eqb_spec c 38) as [->|N1]; [apply Q; simpl; auto|].
  destruct (N.eqb_spec c 62) as [->|N2]; [apply Q; simpl; auto|].
  destruct (N.eqb_spec c 60) as [->|N3]; [apply Q; simpl; auto|].
  destruct (use_single_quote o) eqn:SQ; simpl.
  - rewrite !andb_false_r. destruct (N.eqb_spec c 39) as [->|N4]; cbn [andb].
    { apply Q; simpl; auto 6. }
    simpl. unfold step. rewrite X. simpl. neq c 39%N. neq c 60%N. neq c 38%N.
    destruct (is_xml_space c) eqn:E; [rewrite (Sp eq_refl)|]; reflexivity.
  - rewrite !andb_false_r. destruct (N.eqb_spec c 34) as [->|N4]; cbn [andb].
    { apply Q; simpl; auto 6. }
    simpl. unfold step. rewrite X. simpl. neq c 34%N. neq c 60%N. neq c 38%N.
    destruct (is_xml_space c) eqn:E; [rewrite (Sp eq_refl)|]; reflexivity.
Qed.

Lemma run_value o fs cu n at_ a v : value_ok v -> forall acc,
  run (mkR (MVal n at_ a (quote o) acc) fs cu) (escape (use_single_quote o) true v) =
  Some (mkR (MVal n at_ a (quote o) (rev v ++ acc)) fs cu).
Proof.
  induction v as [|c v IH]; intros V acc; simpl; auto.
  apply value_ok_cons in V as (X & Sp & V).
  rewrite (run_seq _ _ _ _ (run_value_char o fs cu n at_ a acc c X Sp)). rewrite IH by auto.
  rewrite <- app_assoc. reflexivity.
Qed.

Lemma has_attr_false a l : ~ In a (map fst l) -> has_attr a l = false.
Proof.
  intros H. unfold has_attr.
  destruct (existsb (fun x => text_eqb a (fst x)) l) eqn:E; auto. exfalso.
  apply existsb_exists in E as (x & Hx & E). apply text_eqb_spec in E. subst a.
  apply H. apply in_map. auto.
Qed.

Lemma run_attr o fs cu n at_ a : is_name (fst a) -> value_ok (snd a) -> ~ In (fst a) (map fst at_) ->
  run (mkR (MTag n at_ false) fs cu) (attr_text o a) = Some (mkR (MTag n (a :: at_) false) fs cu).
Proof.
  destruct a as [a v]. simpl. intros Ha Hv Hd. pose proof (is_name_chars a Ha) as Hc.
  apply is_name_cons in Ha as (c & r & -> & A & B).
  destruct (name_char_xml c (name_start_char c A)) as (X & Sp & N1 & N2 & N3 & _).
  unfold attr_text. simpl.
  unfold step at 1. rewrite X. simpl. rewrite Sp. neq c 62%N. neq c 47%N. rewrite A. simpl.
  inversion Hc as [|? ? _ Hr]; subst.
  rewrite (run_seq _ _ _ _ (run_attr_chars fs cu n at_ r Hr [c])).
  assert (E1 : rev (rev r ++ [c]) = c :: r) by (rewrite rev_app_distr, rev_involutive; reflexivity).
  assert (E2 : forall a s, run (mkR (MAttr n at_ a) fs cu) (61%N :: s) =
                           run (mkR (MEq n at_ (rev a)) fs cu) s) by reflexivity.
  rewrite E2, E1.
  assert (Q : run (mkR (MEq n at_ (c :: r)) fs cu)
                (quote o :: escape (use_single_quote o) true v ++ [quote o])
            = run (mkR (MVal n at_ (c :: r) (quote o) []) fs cu)
                (escape (use_single_quote o) true v ++ [quote o])).
  { unfold quote. destruct (use_single_quote o); reflexivity. }
  rewrite Q. rewrite (run_seq _ _ _ _ (run_value o fs cu n at_ (c :: r) v Hv [])).
  rewrite app_nil_r. simpl. unfold step.
  replace (is_xml_char (quote o)) with true by (unfold quote; destruct (use_single_quote o); reflexivity).
  simpl. rewrite N.eqb_refl. rewrite has_attr_false by auto. rewrite rev_involutive. reflexivity.
Qed.

Lemma run_attrs o fs cu n l : Forall (fun a => is_name (fst a) /\ value_ok (snd a)) l -> forall at_,
  NoDup (map fst l) -> (forall x, In x (map fst l) -> ~ In x (map fst at_)) ->
  run (mkR (MTag n at_ false) fs cu) (flat_map (attr_text o) l) =
  Some (mkR (MTag n (rev l ++ at_) false) fs cu).
Proof.
  induction 1 as [|a l [Ha Hv] _ IH]; intros at_ N D; cbn [flat_map rev]; auto.
  simpl in N. inversion N as [|? ? N1 N2]; subst.
  rewrite (run_seq _ _ _ _ (run_attr o fs cu n at_ a Ha Hv (D _ (or_introl eq_refl)))).
  rewrite IH; auto.
  - rewrite <- app_assoc. reflexivity.
  - intros x Hx. simpl. intros [E|E]; [subst; contradiction|]. apply (D x); [right; auto|auto].
Qed.

(** After the name, a space, a slash or the closing bracket act alike with or without
    attributes. *)
Lemma run_name_tag fs cu n c s : c = 32%N \/ c = 62%N \/ c = 47%N ->
  run (mkR (MName n) fs cu) (c :: s) = run (mkR (MTag (rev n) [] false) fs cu) (c :: s).
Proof. intros [-> | [-> | ->]]; reflexivity. Qed.

Lemma run_start_tag o fs cu acc name attrs c s :
  is_name name -> NoDup (map fst attrs) ->
  Forall (fun a => is_name (fst a) /\ value_ok (snd a)) attrs -> c = 62%N \/ c = 47%N ->
  run (mkR (MText acc) fs cu) (lit "<" ++ name ++ flat_map (attr_text o) attrs ++ c :: s) =
  run (mkR (MTag name (rev attrs) false) fs (flush acc cu)) (c :: s).
Proof.
  intros Hn Hd Ha Hc. rewrite app_assoc. rewrite (run_seq _ _ _ _ (run_open fs cu acc name Hn)).
  pose proof (run_attrs o fs (flush acc cu) name attrs Ha [] Hd (fun x _ => @in_nil _ x)) as R.
  rewrite app_nil_r in R.
  destruct attrs as [|a attrs].
  - cbn [flat_map app rev]. rewrite run_name_tag by tauto. rewrite rev_involutive. reflexivity.
  - assert (E : exists r, flat_map (attr_text o) (a :: attrs) = 32%N :: r) by (eexists; reflexivity).
    destruct E as [r E]. rewrite E in R |- *. cbn [app]. rewrite run_name_tag by tauto.
    rewrite rev_involutive. rewrite app_comm_cons, (run_seq _ _ _ _ R). reflexivity.
Qed.

Lemma run_end_tag fs cu acc name attrs before : is_name name ->
  run (mkR (MText acc) ((name, attrs, before) :: fs) cu) (lit "</" ++ name ++ lit ">") =
  Some (mkR (MText []) fs (RElem name attrs (rev (flush acc cu)) :: before)).
Proof.
  intros H. pose proof (is_name_chars _ H) as Hc. apply is_name_cons in H as (c & r & -> & A & B).
  destruct (name_char_xml c (name_start_char c A)) as (X & _).
  inversion Hc as [|? ? _ Hr]; subst. simpl. unfold step at 1. rewrite X. simpl. rewrite A.
  rewrite (run_seq _ _ _ _ (run_close_chars _ _ r Hr c [])). simpl.
  unfold step. simpl.
  destruct (rev r ++ [c]) as [|d m] eqn:E; [destruct (rev r); discriminate|].
  assert (E1 : rev (d :: m) = c :: r) by (rewrite <- E, rev_app_distr, rev_involutive; reflexivity).
  simpl in E1 |- *. rewrite E1. rewrite text_eqb_refl. reflexivity.
Qed.

(** Comments. *)
Lemma run_comment_body fs cu s : text_ok s -> contains (lit "--") s = false -> forall acc,
  (forall s', s <> s' ++ lit "-") ->
  run (mkR (MComment acc 0) fs cu) s = Some (mkR (MComment (rev s ++ acc) 0) fs cu) /\
  (match s with [] => True | c :: _ => c <> 45%N end ->
   run (mkR (MComment acc 1) fs cu) s =
   Some (mkR (match s with [] => MComment acc 1 | _ => MComment (rev s ++ 45%N :: acc) 0 end) fs cu)).
Proof.
  assert (S0 : forall acc c s, is_xml_char c = true -> c <> 45%N ->
    run (mkR (MComment acc 0) fs cu) (c :: s) = run (mkR (MComment (c :: acc) 0) fs cu) s).
  { intros acc c s' X D. simpl. unfold step. rewrite X. simpl. neq c 45%N. reflexivity. }
  assert (S1 : forall acc c s, is_xml_char c = true -> c <> 45%N ->
    run (mkR (MComment acc 1) fs cu) (c :: s) = run (mkR (MComment (c :: 45%N :: acc) 0) fs cu) s).
  { intros acc c s' X D. simpl. unfold step. rewrite X. simpl. neq c 45%N. reflexivity. }
  induction s as [|c s IH]; intros T C acc E; [simpl; auto|].
  apply text_ok_cons in T as (X & _ & T).
  assert (Cs : contains (lit "--") s = false).
  { simpl in C. apply orb_false_iff in C as [_ C]. exact C. }
  assert (Es : forall s', s <> s' ++ lit "-") by (intros s' ->; apply (E (c :: s')); reflexivity).
  split.
  - destruct (N.eqb_spec c 45) as [->|D].
    + destruct s as [|d s]; [exfalso; apply (E []); reflexivity|].
      assert (Hd : d <> 45%N).
      { intros ->. simpl in C. unfold starts_with in C. simpl in C. discriminate. }
      destruct (IH T Cs acc Es) as [_ H]. specialize (H Hd).
      change (run (mkR (MComment acc 0) fs cu) (45%N :: d :: s)) with (run (mkR (MComment acc 1) fs cu) (d :: s)).
      rewrite H. f_equal. f_equal. f_equal. simpl. rewrite <- !app_assoc. reflexivity.
    + rewrite S0 by auto. rewrite (proj1 (IH T Cs _ Es)). simpl. rewrite <- app_assoc. reflexivity.
  - intros D. rewrite S1 by auto. rewrite (proj1 (IH T Cs _ Es)). simpl.
    rewrite <- app_assoc. reflexivity.
Qed.

Lemma run_comment fs cu acc s : comment_ok s ->
  run (mkR (MText acc) fs cu) (lit "<!--" ++ s ++ lit "-->") =
  Some (mkR (MText []) fs (RComment s :: flush acc cu)).
Proof.
  intros (T & C & E).
  change (run (mkR (MText acc) fs cu) (lit "<!--" ++ s ++ lit "-->")) with
    (run (mkR (MComment [] 0) fs (flush acc cu)) (s ++ lit "-->")).
  rewrite (run_seq _ _ _ _ (proj1 (run_comment_body fs (flush acc cu) s T C [] E))).
  rewrite app_nil_r. simpl. rewrite rev_involutive. reflexivity.
Qed.

(* ------------------------------------------------------------------ trees *)

Definition absorb1 (s : text * list rnode) (n : rnode) : text * list rnode :=
  match n with
  | RText t => (rev t ++ fst s, snd s)
  | _ => ([], n :: flush (fst s) (snd s))
  end.
Definition absorb (s : text * list rnode) (l : list rnode) : text * list rnode := fold_left absorb1 l s.

Lemma glue_texts a b l : glue (RText a) (glue (RText b) l) = glue (RText (a ++ b)) l.
Proof.
  destruct a as [|x a]; simpl; auto. destruct b as [|y b]; simpl; [rewrite app_nil_r; reflexivity|].
  destruct l as [|[]]; simpl; try rewrite <- app_assoc; reflexivity.
Qed.

Lemma absorb_merge l : forall acc cu,
  rev (flush (fst (absorb (acc, cu) l)) (snd (absorb (acc, cu) l))) =
  rev cu ++ glue (RText (rev acc)) (merge l).
Proof.
  induction l as [|n l IH]; intros acc cu.
  - simpl. destruct acc as [|c acc]; simpl.
    + rewrite app_nil_r. reflexivity.
    + destruct (rev acc ++ [c]) eqn:E; [destruct (rev acc); discriminate|reflexivity].
  - assert (O : forall acc cu, (forall t, n <> RText t) ->
      rev (flush (fst (absorb ([], n :: flush acc cu) l)) (snd (absorb ([], n :: flush acc cu) l))) =
      rev cu ++ glue (RText (rev acc)) (n :: merge l)).
    { intros acc0 cu0 Hn. rewrite IH. simpl. rewrite <- app_assoc. simpl.
      destruct acc0 as [|c acc0]; simpl; auto. rewrite <- app_assoc. f_equal. simpl.
      destruct (rev acc0 ++ [c]) eqn:E; [destruct (rev acc0); discriminate|].
      destruct n; try reflexivity. exfalso. eapply Hn; reflexivity. }
    destruct n as [nm at_ ks|t|t|t v]; simpl absorb; simpl merge;
      try (apply O; intros; discriminate).
    simpl. rewrite IH. rewrite rev_app_distr, rev_involutive. f_equal.
    symmetry. apply glue_texts.
Qed.

Definition reads_back (o : options) (n : xnode) : Prop := node_ok n -> forall acc fs cu,
  run (mkR (MText acc) fs cu) (xml o n) =
  Some (mkR (MText (fst (absorb (acc, cu) (denotes n)))) fs (snd (absorb (acc, cu) (denotes n)))).

Lemma run_kids o kids : Forall (reads_back o) kids -> Forall node_ok kids -> forall acc fs cu,
  run (mkR (MText acc) fs cu) (flat_map (xml o) kids) =
  Some (mkR (MText (fst (absorb (acc, cu) (flat_map denotes kids)))) fs
            (snd (absorb (acc, cu) (flat_map denotes kids)))).
Proof.
  induction 1 as [|k kids Hk _ IH]; intros OK acc fs cu; simpl; auto.
  inversion OK; subst. rewrite run_app, Hk by auto.
  unfold absorb. rewrite fold_left_app.
  destruct (fold_left absorb1 (denotes k) (acc, cu)) as [acc' cu']. simpl. apply IH; auto.
Qed.

Lemma xml_empty_denotes o kids : flat_map (xml o) kids = [] -> merge (flat_map denotes kids) = [].
Proof.
  induction kids as [|k kids IH]; simpl; auto. intros E. apply app_eq_nil in E as [E1 E2].
  specialize (IH E2). unfold merge in *. rewrite fold_right_app, IH.
  destruct k as [n a ks|s|s|s|t v|]; simpl in *; try discriminate; auto.
  - apply escape_nil in E1. subst. reflexivity.
  - subst. reflexivity.
Qed.

Lemma read_node o : forall n, reads_back o n.
Proof.
  apply xnode_ind'; unfold reads_back.
  - intros name attrs kids IH OK acc fs cu. simpl in OK. destruct OK as (Hn & Hd & Ha & Hk).
    apply all_forall in Hk. cbn [xml denotes absorb fold_left absorb1 fst snd].
    destruct (flat_map (xml o) kids) as [|x body] eqn:B.
    + rewrite (xml_empty_denotes o kids B). destruct (enable_self_closing o).
      * change (lit "/>") with (47%N :: lit ">"). rewrite run_start_tag by auto.
        simpl. rewrite rev_involutive. reflexivity.
      * change (lit ">" ++ lit "</" ++ name ++ lit ">")%list with (62%N :: (lit "</" ++ name ++ lit ">")).
        rewrite run_start_tag by auto. cbn [run]. unfold step at 1. simpl (negb (is_xml_char 62)).
        cbn [md is_xml_space N.eqb Pos.eqb orb]. unfold open_tag. rewrite rev_involutive.
        cbn [frames cur]. rewrite run_end_tag by auto. reflexivity.
    + rewrite <- B.
      change (lit ">" ++ flat_map (xml o) kids ++ lit "</" ++ name ++ lit ">")%list with
        (62%N :: (flat_map (xml o) kids ++ lit "</" ++ name ++ lit ">")).
      rewrite run_start_tag by auto. cbn [run]. unfold step at 1. simpl (negb (is_xml_char 62)).
      cbn [md is_xml_space N.eqb Pos.eqb orb]. unfold open_tag. rewrite rev_involutive.
      cbn [frames cur].
      rewrite (run_seq _ _ _ _ (run_kids o kids IH Hk [] _ [])). rewrite run_end_tag by auto.
      rewrite absorb_merge. reflexivity.
  - intros s OK acc fs cu. simpl in *. rewrite run_text by auto. reflexivity.
  - intros s (T & A & B) acc fs cu. simpl. rewrite run_raw by auto. reflexivity.
  - intros s OK acc fs cu. cbn [xml denotes absorb fold_left absorb1 fst snd].
    apply run_comment. exact OK.
  - simpl. tauto.
  - reflexivity.
Qed.

(* ------------------------------------------------------------------ no carriage returns *)

Lemma eol_id s : ~ In 13%N s -> normalise_eol s = s.
Proof.
  induction s as [|c s IH]; intros H; auto.
  assert (Hc : c <> 13%N) by (intros ->; apply H; left; reflexivity).
  assert (E : normalise_eol (c :: s) = c :: normalise_eol s).
  { simpl. destruct c as [|p]; auto. do 4 (destruct p as [p|p|]; auto). contradiction. }
  rewrite E, IH; auto. intros X. apply H. right; auto.
Qed.

Lemma text_ok_in s c : text_ok s -> In c s -> c <> 13%N.
Proof.
  unfold text_ok. rewrite forallb_forall. intros H I. apply H in I.
  rewrite andb_true_iff, negb_true_iff, N.eqb_neq in I. tauto.
Qed.
Lemma value_ok_in s c : value_ok s -> In c s -> c <> 13%N.
Proof.
  unfold value_ok. rewrite forallb_forall. intros H I. apply H in I.
  rewrite andb_true_iff, orb_true_iff, negb_true_iff, N.eqb_eq in I. intros ->.
  destruct I as [_ [I|I]]; discriminate.
Qed.
Lemma name_in s c : is_name s -> In c s -> c <> 13%N.
Proof.
  intros H I. apply is_name_chars in H. rewrite Forall_forall in H. apply H in I.
  apply name_char_xml in I. tauto.
Qed.
Lemma escape_in_cr sq eq s : In 13%N (escape sq eq s) -> In 13%N s.
Proof.
  unfold escape. rewrite in_flat_map. intros (d & Hd & H).
  destruct (escape_char_cases sq eq d) as [(e&He&E&_)|(E&_)]; rewrite E in H; simpl in H.
  - destruct H as [H|H]; [discriminate|]. destruct (in_entities _ e He H); lia.
  - destruct H as [<-|[]]. exact Hd.
Qed.

Lemma attr_no_cr o a : is_name (fst a) -> value_ok (snd a) -> ~ In 13%N (attr_text o a).
Proof.
  intros Hn Hv. unfold attr_text. simpl. rewrite !in_app_iff. simpl. rewrite in_app_iff. simpl.
  assert (Q : quote o <> 13%N) by (unfold quote; destruct (use_single_quote o); discriminate).
  intros [H|[H|[H|[H|[H|[H|[]]]]]]]; try discriminate; try congruence.
  - exact (name_in _ _ Hn H eq_refl).
  - apply escape_in_cr in H. exact (value_ok_in _ _ Hv H eq_refl).
Qed.

Lemma no_cr o : forall n, node_ok n -> ~ In 13%N (xml o n).
Proof.
  apply (xnode_ind' (fun n => node_ok n -> ~ In 13%N (xml o n))).
  - intros name attrs kids IH (Hn & Hd & Ha & Hk) H. apply all_forall in Hk.
    assert (A1 : ~ In 13%N name) by (intros I; exact (name_in _ _ Hn I eq_refl)).
    assert (A2 : ~ In 13%N (flat_map (attr_text o) attrs)).
    { rewrite in_flat_map. intros (a & I & J). rewrite Forall_forall in Ha.
      destruct (Ha a I). eapply attr_no_cr; eauto. }
    assert (A3 : ~ In 13%N (flat_map (xml o) kids)).
    { rewrite in_flat_map. intros (a & I & J). rewrite Forall_forall in IH, Hk. eapply IH; eauto. }
    cbn [xml] in H. rewrite !in_app_iff in H.
    destruct H as [H|[H|[H|H]]]; auto.
    + simpl in H. destruct H as [H|[]]; discriminate.
    + destruct (flat_map (xml o) kids) as [|x body] eqn:B.
      * destruct (enable_self_closing o).
        { simpl in H. repeat (destruct H as [H|H]; try discriminate); auto. }
        rewrite !in_app_iff in H. simpl in H.
        repeat (destruct H as [H|H]; try discriminate); auto.
      * rewrite !in_app_iff in H.
        destruct H as [H|[H|[H|[H|H]]]]; auto;
          simpl in H; repeat (destruct H as [H|H]; try discriminate); auto.
  - intros s OK H. simpl in H. apply escape_in_cr in H. exact (text_ok_in _ _ OK H eq_refl).
  - intros s (T & _) H. simpl in H. exact (text_ok_in _ _ T H eq_refl).
  - intros s (T & _) H. cbn [xml] in H. rewrite !in_app_iff in H.
    destruct H as [H|[H|H]].
    + simpl in H. repeat (destruct H as [H|H]; try discriminate); auto.
    + exact (text_ok_in _ _ T H eq_refl).
    + simpl in H. repeat (destruct H as [H|H]; try discriminate); auto.
  - simpl. tauto.
  - simpl. tauto.
Qed.

Lemma read_document o kids : Forall node_ok kids ->
  read (flat_map (xml o) kids) = Some (document_of kids).
Proof.
  intros OK. unfold read. rewrite eol_id.
  - rewrite (run_kids o kids); auto.
    + rewrite absorb_merge. reflexivity.
    + apply Forall_forall. intros n _. apply read_node.
  - rewrite in_flat_map. intros (a & I & J). rewrite Forall_forall in OK. eapply no_cr; eauto.
Qed.
