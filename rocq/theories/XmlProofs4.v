(** Lemmas: comments, instructions and CDATA read back exactly when they should. *)
From Coq Require Import String List NArith Bool Arith Lia.
From Verif Require Import Chars XmlModel XmlSpec XmlProofs XmlProofs2 XmlProofs3.
Import ListNotations.

(* ------------------------------------------------------------------ comments *)

Fixpoint good (n : rnode) : Prop :=
  match n with
  | RElem _ _ ks => (fix all (l : list rnode) : Prop := match l with [] => True | k :: l => good k /\ all l end) ks
  | RComment s => comment_shape s
  | _ => True
  end.
Lemma good_all l :
  (fix all (l : list rnode) : Prop := match l with [] => True | k :: l => good k /\ all l end) l <-> Forall good l.
Proof.
  induction l as [|k l IH]; split; intros H; auto.
  - destruct H. constructor; [auto|]. now apply IH.
  - inversion H; subst. split; auto. now apply IH.
Qed.

(** Accumulated comment text: reversed, not starting with a hyphen, no two hyphens in a row. *)
Fixpoint solid (acc : text) : Prop :=
  match acc with
  | [] => True
  | c :: acc => (c = 45%N -> match acc with 45%N :: _ => False | _ => True end) /\ solid acc
  end.
Definition acc_ok (acc : text) : Prop := match acc with 45%N :: _ => False | _ => True end /\ solid acc.

Lemma contains_snoc s c : contains (lit "--") (s ++ [c]) =
  contains (lit "--") s || (N.eqb c 45 && match rev s with 45%N :: _ => true | _ => false end).
Proof.
  change (lit "--") with [45%N; 45%N].
  assert (A : forall s x y, contains [45; 45]%N (s ++ [x; y]) =
    contains [45; 45]%N (s ++ [x]) || (N.eqb x 45 && N.eqb y 45)).
  { clear. induction s as [|z s IH]; intros x y.
    - rewrite (N.eqb_sym x), (N.eqb_sym y).
      cbn [app contains orb]. unfold starts_with. cbn [strip_prefix].
      destruct (N.eqb 45 x), (N.eqb 45 y); reflexivity.
    - cbn [app contains]. rewrite IH. rewrite orb_assoc. f_equal. f_equal. unfold starts_with.
      cbn [strip_prefix].
      destruct (N.eqb 45 z); auto. destruct s as [|w s]; cbn [app strip_prefix]; auto.
      + destruct (N.eqb 45 x); auto.
      + destruct (N.eqb 45 w); auto. }
  destruct s as [|d s _] using rev_ind.
  - cbn [app contains rev orb]. unfold starts_with. cbn [strip_prefix]. rewrite andb_false_r.
    destruct (N.eqb 45 c); auto.
  - rewrite <- app_assoc. cbn [app]. rewrite A. rewrite rev_app_distr. cbn [rev app]. f_equal.
    rewrite andb_comm. f_equal.
Qed.

Lemma solid_contains acc : solid acc -> contains (lit "--") (rev acc) = false.
Proof.
  induction acc as [|c acc IH]; simpl; auto. intros [H S]. rewrite contains_snoc, IH by auto. simpl.
  rewrite rev_involutive. destruct (N.eqb_spec c 45) as [->|]; auto. simpl. specialize (H eq_refl).
  destruct acc as [|d acc]; auto. destruct d as [|p]; auto. do 6 (destruct p as [p|p|]; auto). contradiction.
Qed.

Lemma acc_shape acc : acc_ok acc -> comment_shape (rev acc).
Proof.
  intros [H S]. split; [apply solid_contains; auto|]. intros s' E.
  apply (f_equal (@rev N)) in E. rewrite rev_involutive, rev_app_distr in E. simpl in E. subst acc.
  exact H.
Qed.

Definition state_ok (r : rstate) : Prop :=
  Forall good (cur r) /\ Forall (fun f => Forall good (snd f)) (frames r) /\
  match md r with MComment acc _ => acc_ok acc | _ => True end.

Lemma good_flush acc cu : Forall good cu -> Forall good (flush acc cu).
Proof. destruct acc; simpl; auto. intros H. constructor; simpl; auto. Qed.

Lemma not45 c : N.eqb c 45 = false -> match c with 45%N => False | _ => True end.
Proof. intros H. destruct (N.eq_dec c 45) as [->|D]; [discriminate|].
  destruct c as [|p]; auto. do 6 (destruct p as [p|p|]; auto). Qed.

Lemma acc_push c acc : N.eqb c 45 = false -> solid acc -> acc_ok (c :: acc).
Proof.
  intros E H. split.
  - apply not45 in E. exact E.
  - simpl. split; auto. intros ->. discriminate.
Qed.

Lemma acc_push2 c acc : N.eqb c 45 = false -> acc_ok acc -> acc_ok (c :: 45%N :: acc).
Proof.
  intros E [H S]. apply acc_push; auto. simpl. split; auto.
Qed.

Lemma close_ok n fs cu r : Forall good cu -> Forall (fun f => Forall good (snd f)) fs ->
  close_tag n fs cu = Some r -> state_ok r.
Proof.
  intros C F. unfold close_tag. destruct fs as [|[[n' a] b] fs]; [discriminate|].
  destruct (text_eqb n n'); [|discriminate]. intros E. inversion E; subst.
  inversion F; subst. repeat split; simpl; auto. constructor; auto. simpl. apply good_all.
  apply Forall_rev. auto.
Qed.

Lemma step_ok r c r' : state_ok r -> step r c = Some r' -> state_ok r'.
Proof.
  intros (C & F & M). unfold step, open_tag. destruct (is_xml_char c); simpl; [|discriminate].
  destruct r as [m fs cu]. cbn [md frames cur] in *.
  Ltac fin := intros E; inversion E; subst; clear E; split; [|split]; cbn [md frames cur]; auto using good_flush;
    try (split; exact I).
  destruct m.
  - destruct (N.eqb c 60); [fin|]. destruct (N.eqb c 38); fin.
  - destruct (N.eqb c 59); [|fin]. destruct (decode_ref (rev e)); [|discriminate].
    destruct (is_xml_char n); [fin|discriminate].
  - destruct (N.eqb c 47); [fin|]. destruct (N.eqb c 33); [fin|]. destruct (N.eqb c 63); [fin|].
    destruct (name_start c); [fin|discriminate].
  - destruct (text_eqb (e ++ [c]) (lit "--")); [fin|].
    destruct (text_eqb (e ++ [c]) (lit "[CDATA[")); [fin|]. destruct (_ || _); [fin|discriminate].
  - destruct (N.eqb c 93); [destruct brackets as [|[|[|]]]; fin|]. destruct (_ && _); fin.
  - destruct dashes as [|[|]].
    + destruct (N.eqb c 45) eqn:E45; fin.
      apply acc_push; auto; apply M.
    + destruct (N.eqb c 45) eqn:E45; fin.
      apply acc_push2; auto.
    + destruct (N.eqb c 62); [|discriminate]. fin. constructor; auto. simpl. apply acc_shape. auto.
  - destruct t; [destruct (name_start c); [fin|discriminate]|].
    destruct (name_char c); [fin|]. destruct (N.eqb c 63); [fin|]. destruct (is_xml_space c); [fin|discriminate].
  - destruct (N.eqb c 62); [fin|discriminate].
  - destruct q.
    + destruct (N.eqb c 62); [fin|]. destruct (N.eqb c 63); fin.
    + destruct (N.eqb c 63); [fin|]. destruct (_ && _); fin.
  - destruct (name_char c); [fin|]. destruct (is_xml_space c); [fin|]. destruct (N.eqb c 62); [fin|].
    destruct (N.eqb c 47); [fin|discriminate].
  - destruct (is_xml_space c); [fin|]. destruct (N.eqb c 62); [fin|].
    destruct (N.eqb c 47); [fin|]. destruct (spaced && name_start c); [fin|discriminate].
  - destruct (name_char c); [fin|]. destruct (N.eqb c 61); [fin|]. destruct (is_xml_space c); [fin|discriminate].
  - destruct (N.eqb c 61); [fin|]. destruct (is_xml_space c); [fin|discriminate].
  - destruct (_ || _); [fin|]. destruct (is_xml_space c); [fin|discriminate].
  - destruct (N.eqb c q).
    + destruct (has_attr a attrs); [discriminate|fin].
    + destruct (N.eqb c 60); [discriminate|]. destruct (N.eqb c 38); [fin|]. destruct (is_xml_space c); fin.
  - destruct (N.eqb c 59); [|fin]. destruct (decode_ref (rev e)); [|discriminate].
    destruct (is_xml_char n0); [fin|discriminate].
  - destruct (N.eqb c 62); [fin|discriminate].
  - destruct n as [|d n]; [destruct (name_start c); [fin|discriminate]|].
    destruct (name_char c); [fin|]. destruct (N.eqb c 62); [apply close_ok; auto|].
    destruct (is_xml_space c); [fin|discriminate].
  - destruct (N.eqb c 62); [apply close_ok; auto|]. destruct (is_xml_space c); [fin|discriminate].
Qed.

Lemma run_ok s : forall r r', state_ok r -> run r s = Some r' -> state_ok r'.
Proof.
  induction s as [|c s IH]; intros r r' H; simpl.
  - intros E; inversion E; subst; auto.
  - destruct (step r c) eqn:E; [|discriminate]. apply IH. eapply step_ok; eauto.
Qed.

Lemma read_good s l : read s = Some l -> Forall good l.
Proof.
  unfold read. destruct (run _ _) as [r|] eqn:E; [|discriminate].
  apply run_ok in E; [|repeat split; constructor].
  destruct E as (C & _ & _). destruct r as [m fs cu]. destruct m; try discriminate.
  destruct fs; [|discriminate]. intros X. inversion X; subst.
  apply Forall_rev. apply good_flush. exact C.
Qed.

(** A comment inside an element reads back as that comment exactly when it has the shape of a
    comment. *)
Lemma comment_exact o s : plain o -> trim_whitespace o = SpNever -> text_ok s ->
  ((exists t, serialize_document o [XElem (lit "g") [] [XComment s]] = WOk t /\
    read t = Some [RElem (lit "g") [] [RComment s]]) <-> comment_shape s).
Proof.
  intros P T Ok. split.
  - intros (t & _ & H). apply read_good in H. inversion H as [|? ? G _]; subst.
    simpl in G. tauto.
  - intros [S1 S2].
    assert (TO : Forall top_ok [XElem (lit "g") [] [XComment s]]).
    { constructor; [|constructor]. repeat split; simpl; auto; constructor. }
    destruct (round_trip_never o _ P T TO) as (t & H1 & H2). exists t. split; auto.
Qed.

(* ------------------------------------------------------------------ CDATA *)

Lemma run_cdata fs cu s : text_ok s -> forall acc k, k <= 2 ->
  contains (lit "]]>") (repeat 93%N k ++ s) = false -> exists acc' k',
  run (mkR (MCData acc k) fs cu) s = Some (mkR (MCData acc' k') fs cu) /\ k' <= 2 /\
  repeat 93%N k' ++ acc' = rev s ++ repeat 93%N k ++ acc.
Proof.
  induction s as [|c s IH]; intros T acc k K C.
  - exists acc, k. auto.
  - apply text_ok_cons in T as (X & _ & T). cbn [run]. unfold step. rewrite X. cbn [negb md frames cur].
    destruct (N.eqb_spec c 93) as [->|D].
    + destruct k as [|[|[|k]]]; [| | |lia].
      * destruct (IH T acc 1) as (a' & k' & R & K' & E); [lia|exact C|].
        exists a', k'. split; [exact R|]. split; auto. rewrite E. simpl. rewrite <- !app_assoc. reflexivity.
      * destruct (IH T acc 2) as (a' & k' & R & K' & E); [lia|exact C|].
        exists a', k'. split; [exact R|]. split; auto. rewrite E. simpl. rewrite <- !app_assoc. reflexivity.
      * destruct (IH T (93%N :: acc) 2) as (a' & k' & R & K' & E); [lia| |].
        { cbn [repeat app contains] in C |- *. apply orb_false_iff in C as [_ C]. exact C. }
        exists a', k'. split; [exact R|]. split; auto. rewrite E. simpl. rewrite <- !app_assoc. reflexivity.
    + assert (NE : N.eqb c 62 && Nat.eqb k 2 = false).
      { destruct (N.eqb_spec c 62) as [->|]; [|reflexivity].
        destruct (Nat.eqb_spec k 2) as [->|]; [|reflexivity].
        exfalso. cbn in C. discriminate. }
      rewrite NE. destruct (IH T (c :: repeat 93%N k ++ acc) 0) as (a' & k' & R & K' & E); [lia| |].
      { simpl. clear -C. revert C. induction k as [|k IHk]; simpl; [|].
        - intros C. apply orb_false_iff in C as [_ C]. exact C.
        - intros C. apply orb_false_iff in C as [_ C]. auto. }
      exists a', k'. split; [exact R|]. split; auto. rewrite E. simpl. rewrite <- !app_assoc. reflexivity.
Qed.

Lemma cdata_exact_read s : text_ok s -> contains (lit "]]>") s = false ->
  read (lit "<g><![CDATA[" ++ s ++ lit "]]></g>") =
  Some [RElem (lit "g") [] (merge [RText s])].
Proof.
  intros T C. unfold read. rewrite eol_id.
  - change (run (mkR (MText []) [] []) (lit "<g><![CDATA[" ++ s ++ lit "]]></g>")) with
      (run (mkR (MCData [] 0) [(lit "g", [], [])] []) (s ++ lit "]]></g>")).
    destruct (run_cdata [(lit "g", [], [])] [] s T [] 0) as (a & k & R & K & E); [lia|exact C|].
    rewrite (run_seq _ _ _ _ R).
    assert (F : forall a, run (mkR (MText a) [(lit "g", [], [])] []) (lit "</g>") =
              Some (mkR (MText []) [] (RElem (lit "g") [] (rev (flush a [])) :: []))) by reflexivity.
    assert (G : run (mkR (MCData a k) [(lit "g", [], [])] []) (lit "]]></g>") =
                run (mkR (MText (repeat 93%N k ++ a)) [(lit "g", [], [])] []) (lit "</g>")).
    { destruct k as [|[|[|k]]]; [reflexivity|reflexivity|reflexivity|lia]. }
    rewrite G, F, E. cbn [repeat app]. pose proof (absorb_merge [RText s] [] []) as AM.
    cbn [absorb fold_left absorb1 fst snd] in AM. rewrite AM. reflexivity.
  - rewrite !in_app_iff. intros [H|[H|H]].
    + simpl in H. repeat (destruct H as [H|H]; try discriminate); auto.
    + exact (text_ok_in _ _ T H eq_refl).
    + simpl in H. repeat (destruct H as [H|H]; try discriminate); auto.
Qed.

(** One CDATA call inside an element. *)
Lemma cdata_once o s : plain o -> text_ok s -> contains (lit "]]>") s = false -> exists t,
  wbind (start_element o new_writer (lit "g")) (fun w =>
  wbind (write_cdata_text o w s) (fun w =>
  wbind (end_element o w) (end_document o))) = WOk t /\
  read t = Some [RElem (lit "g") [] (merge [RText s])].
Proof.
  intros [P1 P2] T C. exists (lit "<g><![CDATA[" ++ s ++ lit "]]></g>"). split; [|apply cdata_exact_read; auto].
  rewrite start_element_spec; [|auto|left; reflexivity]. cbn [wbind].
  unfold write_cdata_text. rewrite C. unfold write_text_fmt_impl, before_write_text. simpl.
  unfold write_open_element. simpl. rewrite no_newline, no_indent by auto. simpl.
  unfold end_element, emit, set_st. simpl.
  rewrite no_newline, no_indent by auto. simpl. unfold end_document. simpl.
  unfold emit. simpl. rewrite no_newline by auto. simpl. rewrite <- !app_assoc. reflexivity.
Qed.

(* ------------------------------------------------------------------ processing instructions *)

Lemma pi_only_first o w t v f l : st w <> WEmpty -> serialize_node o (XPI t v) f l w = WErr DeclarationAlreadyWritten.
Proof. intros H. simpl. unfold write_declaration. destruct (st w); congruence. Qed.

Lemma run_pi_target fs cu s : Forall (fun c => name_char c = true) s -> forall c0 n,
  run (mkR (MPiTarget (c0 :: n)) fs cu) s = Some (mkR (MPiTarget (rev s ++ c0 :: n)) fs cu).
Proof.
  induction 1 as [|c s Hc _ IH]; intros c0 n; simpl; auto.
  destruct (name_char_xml c Hc) as (X & _). unfold step. rewrite X. simpl. rewrite Hc. simpl.
  rewrite IH. simpl. rewrite <- app_assoc. reflexivity.
Qed.

Lemma run_pi_value fs cu t v : text_ok v -> forall acc q,
  (acc = [] -> q = false -> match v with c :: _ => is_xml_space c = false | _ => True end) ->
  contains (lit "?>") ((if q : bool then [63%N] else []) ++ v) = false ->
  exists acc' q', run (mkR (MPiValue t acc q) fs cu) v = Some (mkR (MPiValue t acc' q') fs cu) /\
    (if q' : bool then [63%N] else []) ++ acc' = rev v ++ (if q then [63%N] else []) ++ acc.
Proof.
  induction v as [|c v IH]; intros T acc q W C.
  - exists acc, q. auto.
  - apply text_ok_cons in T as (X & _ & T).
    destruct (N.eqb_spec c 63) as [->|D].
    + destruct q.
      * destruct (IH T (63%N :: acc) true) as (a & q' & R & E); [discriminate| |].
        { cbn [app contains] in C |- *. apply orb_false_iff in C as [_ C]. exact C. }
        exists a, q'. split; [exact R|]. rewrite E. simpl. rewrite <- !app_assoc. reflexivity.
      * destruct (IH T acc true) as (a & q' & R & E); [discriminate|exact C|].
        exists a, q'. split; [exact R|]. rewrite E. simpl. rewrite <- !app_assoc. reflexivity.
    + destruct q.
      * assert (Nc : c <> 62%N).
        { intros ->. simpl in C. unfold starts_with in C. simpl in C. discriminate. }
        destruct (IH T (c :: 63%N :: acc) false) as (a & q' & R & E); [discriminate| |].
        { cbn [app contains] in C |- *. apply orb_false_iff in C as [_ C].
          apply orb_false_iff in C as [_ C]. exact C. }
        exists a, q'. split.
        { cbn [run]. unfold step. rewrite X. simpl. neq c 62%N. neq c 63%N. exact R. }
        rewrite E. simpl. rewrite <- !app_assoc. reflexivity.
      * destruct (IH T (c :: acc) false) as (a & q' & R & E); [discriminate| |].
        { cbn [app contains] in C |- *. apply orb_false_iff in C as [_ C]. exact C. }
        exists a, q'. split.
        { cbn [run]. unfold step. rewrite X. simpl. neq c 63%N.
          destruct acc as [|d acc].
          - rewrite (W eq_refl eq_refl). simpl. exact R.
          - rewrite andb_false_r. exact R. }
        rewrite E. simpl. rewrite <- !app_assoc. reflexivity.
Qed.

Lemma read_pi_prefix o t v : is_name t -> match v with Some v => pi_value_ok v | None => True end ->
  run (mkR (MText []) [] []) (xml o (XPI t v)) =
  Some (mkR (MText []) [] [RPI t (match v with Some v => v | None => [] end)]).
Proof.
  intros Ht Hv. cbn [xml]. pose proof (is_name_chars t Ht) as Hc.
  apply is_name_cons in Ht as (c & r & -> & A & B).
  destruct (name_char_xml c (name_start_char c A)) as (X & _).
  inversion Hc as [|? ? _ Hr]; subst.
  assert (S1 : forall s, run (mkR (MText []) [] []) (lit "<?" ++ (c :: r) ++ s) =
               run (mkR (MPiTarget (rev r ++ [c])) [] []) s).
  { intros s. change (run (mkR (MText []) [] []) (lit "<?" ++ (c :: r) ++ s)) with
      (run (mkR (MPiTarget []) [] []) (c :: (r ++ s))).
    cbn [run]. unfold step. rewrite X. simpl. rewrite A.
    rewrite (run_seq _ _ _ _ (run_pi_target [] [] r Hr c [])). reflexivity. }
  rewrite S1. destruct (rev r ++ [c]) as [|d m] eqn:E; [destruct (rev r); discriminate|].
  assert (E1 : rev (d :: m) = c :: r) by (rewrite <- E, rev_app_distr, rev_involutive; reflexivity).
  rewrite <- E1. destruct v as [v|].
  - destruct Hv as (T & C & W).
    assert (S2 : forall s, run (mkR (MPiTarget (d :: m)) [] []) ((lit " " ++ v) ++ s) =
                 run (mkR (MPiValue (rev (d :: m)) [] false) [] []) (v ++ s)) by reflexivity.
    rewrite S2.
    destruct (run_pi_value [] [] (rev (d :: m)) v T [] false) as (a & q & R & Q).
    { destruct v; auto. }
    { exact C. }
    rewrite (run_seq _ _ _ _ R). simpl in Q. rewrite app_nil_r in Q.
    assert (S3 : run (mkR (MPiValue (rev (d :: m)) a q) [] []) (lit "?>") =
      Some (mkR (MText []) [] [RPI (rev (d :: m)) (rev ((if q : bool then [63%N] else []) ++ a))]))
      by (destruct q; reflexivity).
    rewrite S3, Q, rev_involutive. reflexivity.
  - reflexivity.
Qed.

(** An instruction that comes first in the document. *)
Lemma pi_first o t v kids : plain o -> trim_whitespace o = SpNever -> is_name t ->
  match v with Some v => pi_value_ok v | None => True end -> Forall top_ok kids -> exists s,
  serialize_document o (XPI t v :: kids) = WOk s /\
  read s = Some (document_of (XPI t v :: kids)).
Proof.
  intros P Tr Ht Hv OK. exists (flat_map (xml o) (XPI t v :: kids)). split.
  - unfold serialize_document. cbn [serialize_kids serialize_node].
    assert (E : write_declaration new_writer t v = WOk (mkWriter (xml o (XPI t v)) WDocument false [])).
    { unfold write_declaration, new_writer, emit, set_st. simpl. destruct v; simpl; rewrite <- ?app_assoc; reflexivity. }
    rewrite E. cbn [wbind is_text_node].
    rewrite (serialize_kids_after o kids); auto.
    + unfold end_document. rewrite spaced_kids_quiet by (intros E'; congruence).
      rewrite (map_top_ext _ (fun _ _ s => s)), map_top_id by
        (intros; unfold spaced_text; rewrite Tr; reflexivity).
      cbn [wbind fst snd preserve].
      set (w0 := mkWriter (xml o (XPI t v)) WDocument false []).
      assert (S : stack (after w0 (flat_map (xml o) kids) false) = []) by (apply after_stack; reflexivity).
      rewrite S. cbn [end_all length wbind]. rewrite no_newline by apply P. f_equal.
      unfold after. destruct (flat_map (xml o) kids) eqn:E2; cbn [flat_map]; rewrite E2; simpl; 
        rewrite ?app_nil_r; reflexivity.
    + apply Forall_forall. intros n _. apply serialize_node_after. exact P.
    + eapply Forall_impl; [|exact OK]. intros n [H _]. apply ok_no_pi. exact H.
    + eapply Forall_impl; [|exact OK]. intros n [_ H]. unfold placed.
      destruct n as [| [|] | [|] | | |]; auto; contradiction.
    + right. reflexivity.
  - assert (NC : ~ In 13%N (xml o (XPI t v))).
    { cbn [xml]. rewrite !in_app_iff. intros [H|[H|[H|H]]].
      - simpl in H. repeat (destruct H as [H|H]; try discriminate); auto.
      - exact (name_in _ _ Ht H eq_refl).
      - destruct v as [v|]; [|destruct H]. rewrite in_app_iff in H. destruct H as [H|H].
        + simpl in H. destruct H as [H|[]]; discriminate.
        + exact (text_ok_in _ _ (proj1 Hv) H eq_refl).
      - simpl in H. repeat (destruct H as [H|H]; try discriminate); auto. }
    assert (OK' : Forall node_ok kids) by (eapply Forall_impl; [|exact OK]; intros n [H _]; exact H).
    unfold read. rewrite eol_id.
    + cbn [flat_map]. rewrite (run_seq _ _ _ _ (read_pi_prefix o t v Ht Hv)).
      rewrite (run_kids o kids); auto.
      * rewrite absorb_merge. unfold document_of. cbn [flat_map denotes app merge fold_right glue rev].
        reflexivity.
      * apply Forall_forall. intros n _. apply read_node.
    + cbn [flat_map]. rewrite in_app_iff. intros [H|H]; [contradiction|].
      apply in_flat_map in H as (a & I & J). rewrite Forall_forall in OK'. eapply no_cr; eauto.
Qed.

Lemma attrs_flag_last o l : trim_whitespace o = SpAuto -> forall p, attrs_flag o l p = last_space l p.
Proof.
  intros T. unfold attrs_flag. induction l as [|[n v] l IH]; intros p; simpl; auto.
  rewrite IH. f_equal. unfold attr_flag, xml_space. rewrite T. simpl.
  destruct (text_eqb n (lit "xml:space")); simpl; auto.
  destruct (text_eqb v (lit "preserve")); simpl; auto.
  destruct (text_eqb v (lit "default")); auto.
Qed.

Lemma last_attribute o name attrs k n2 t : opt_indent o = INone -> attributes_indent o = INone ->
  trim_whitespace o = SpAuto -> top_ok (XElem name attrs [k; XElem n2 [] [XText t]]) -> exists s k',
  serialize_document o [XElem name attrs [k; XElem n2 [] [XText t]]] = WOk s /\
  read s = Some (document_of [XElem name attrs [k'; XElem n2 [] [XText
    (if last_space (attrs ++ all_attrs k) false then preserve_text t else default_text INone true true t)]]]).
Proof.
  intros P1 P2 T OK.
  destruct (round_trip o [XElem name attrs [k; XElem n2 [] [XText t]]] (conj P1 P2)) as (s & H1 & H2); [auto|].
  cbn [spaced_kids spaced] in H2.
  destruct (spaced o k true (next_is_text [XElem n2 [] [XText t]]) (attrs_flag o attrs false)) as [k' p] eqn:E.
  exists s, k'. split; auto. rewrite H2.
  assert (p = last_space (attrs ++ all_attrs k) false) as ->.
  { pose proof (flag_last o k true (next_is_text [XElem n2 [] [XText t]]) (attrs_flag o attrs false)) as F.
    rewrite E in F. simpl in F. rewrite F.
    change (fold_left (attr_flag o) (all_attrs k) (fold_left (attr_flag o) attrs false) = last_space (attrs ++ all_attrs k) false).
    rewrite <- fold_left_app. apply (attrs_flag_last o (attrs ++ all_attrs k) T). }
  unfold attrs_flag, spaced_text. simpl. rewrite T. reflexivity.
Qed.

Lemma cdata_written o s : opt_indent o = INone -> attributes_indent o = INone -> text_ok s ->
  let written := wbind (start_element o new_writer (lit "g")) (fun w =>
                 wbind (write_cdata_text o w s) (fun w =>
                 wbind (end_element o w) (end_document o))) in
  if contains (lit "]]>") s then written = WErr BadCDATA
  else exists t, written = WOk t /\ read t = Some [RElem (lit "g") [] (merge [RText s])].
Proof.
  intros P1 P2 T. destruct (contains (lit "]]>") s) eqn:C; cbv zeta.
  - rewrite start_element_spec; [|auto|left; reflexivity]. cbn [wbind].
    unfold write_cdata_text. rewrite C. reflexivity.
  - apply cdata_once; auto. split; auto.
Qed.
