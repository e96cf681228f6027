From Coq Require Import String List NArith ZArith Bool Lia Arith.
From Verif Require Import Chars NameModel AttrTable ElemModel TextModel ParseModel ListModel ScriptModel PruneModel PruneSpec DeprecatedModel MatcherModel MatcherSpec MatcherProofs.
From Verif Require PruneProofs3 ScriptProofs2.
Import ListNotations.

(** ** Names *)
Lemma ns_eqb_uri u v : ns_eqb (ns_new u) (ns_new v) = true <-> u = v.
Proof.
  unfold ns_new. destruct (find (fun k => text_eqb (known_uri k) u) all_known) as [k|] eqn:A; destruct (find (fun k => text_eqb (known_uri k) v) all_known) as [k'|] eqn:B; cbn [ns_eqb].
  - apply find_some in A, B. destruct A as [_ A], B as [_ B]. apply text_eqb_spec in A, B. subst. split.
    + intros H. destruct k, k'; try discriminate; reflexivity.
    + intros H. destruct k, k'; try reflexivity; vm_compute in H; discriminate.
  - split; [discriminate|]. intros ->. congruence.
  - split; [discriminate|]. intros ->. congruence.
  - apply text_eqb_spec.
Qed.
Lemma ns_uri_new u : ns_uri (ns_new u) = u.
Proof. unfold ns_new. destruct (find _ _) as [k|] eqn:A; [|reflexivity]. apply find_some in A. destruct A as [_ A]. apply text_eqb_spec in A. exact A. Qed.
Lemma prefix_new_ns u n : exists w, prefix_ns (prefix_new u n) = ns_new w /\ forall m, is_ns (prefix_new u n) (ns_new m) = ns_eqb (ns_new w) (ns_new m).
Proof.
  assert (K : forall k, ns_new (known_uri k) = NSKnown k) by (intros []; vm_compute; reflexivity).
  unfold prefix_new. destruct (find (fun k => text_eqb (known_uri k) u && _) _) as [k|]; [|destruct (find (fun k => text_eqb (known_uri k) u) _) as [k|] eqn:F].
  - exists (known_uri k). rewrite K. split; [reflexivity|]. intros m. cbn [is_ns]. destruct (ns_new m); reflexivity.
  - exists (known_uri k). rewrite K. split; [reflexivity|]. intros m. cbn [is_ns]. destruct (ns_new m); reflexivity.
  - assert (X : exists w, prefix_ns (PUnknown n (ns_new u)) = ns_new w /\ forall m, is_ns (PUnknown n (ns_new u)) (ns_new m) = ns_eqb (ns_new w) (ns_new m)).
    { exists u. split; [reflexivity|]. intros m. cbn [is_ns]. rewrite ns_uri_new. unfold ns_new at 2. rewrite F. cbn [ns_eqb]. destruct (ns_new m); reflexivity. }
    destruct u as [|c u]; [|exact X]. destruct n as [n|]; [exact X|]. exists (known_uri SVG). rewrite K. split; [reflexivity|]. intros m. cbn [is_ns]. destruct (ns_new m); reflexivity.
Qed.
Lemma prefix_same u n v m : prefix_eqb (prefix_new u n) (prefix_new v m) = true <-> space_of (prefix_new u n) = space_of (prefix_new v m).
Proof.
  unfold prefix_eqb, space_of. destruct (prefix_new_ns u n) as (w & E & I). destruct (prefix_new_ns v m) as (x & F & _). rewrite E, F, I, !ns_uri_new. apply ns_eqb_uri.
Qed.

(** ** Values of attributes *)
Lemma sel_white_iff c : sel_white c = true <-> css_white c.
Proof.
  unfold sel_white, css_white. rewrite existsb_exists. split.
  - intros (x & H & E). apply N.eqb_eq in E. subst. exact H.
  - intros H. exists c. split; [exact H|apply N.eqb_refl].
Qed.
Lemma split_white_ne s : exists p ps, split_white s = p :: ps.
Proof. induction s as [|c s (p & ps & IH)]; [cbn; eauto|]. cbn [split_white]. destruct (sel_white c); [eauto|]. rewrite IH. eauto. Qed.
(** The first part runs up to a space. *)
Lemma split_white_hd s w ps : split_white s = w :: ps -> Forall (fun c => ~ css_white c) w /\ exists y, s = w ++ y /\ (y = [] /\ ps = [] \/ exists c y', y = c :: y' /\ css_white c /\ split_white y' = ps).
Proof.
  revert w ps. induction s as [|c s IH]; intros w ps H.
  - cbn in H. injection H as <- <-. split; [constructor|]. exists []. auto.
  - cbn [split_white] in H. destruct (sel_white c) eqn:W.
    + injection H as <- <-. split; [constructor|]. exists (c :: s). split; [reflexivity|]. right. exists c, s. apply sel_white_iff in W. auto.
    + destruct (split_white_ne s) as (p & q & E). rewrite E in H. injection H as <- <-. destruct (IH _ _ E) as (F & y & -> & Y). split.
      * constructor; [rewrite <- sel_white_iff; congruence|exact F].
      * exists y. auto.
Qed.
Lemma split_white_word w : Forall (fun c => ~ css_white c) w -> forall y, (y = [] \/ exists c y', y = c :: y' /\ css_white c) -> exists ps, split_white (w ++ y) = w :: ps.
Proof.
  intros F y H. induction F as [|c w Hc F IH]; cbn [app].
  - destruct H as [->|(c & y' & -> & W)]; [eexists; reflexivity|]. cbn [split_white]. rewrite (proj2 (sel_white_iff c) W). eexists. reflexivity.
  - destruct IH as (ps & E). cbn [split_white]. destruct (sel_white c) eqn:W; [apply sel_white_iff in W; contradiction|]. rewrite E. eexists. reflexivity.
Qed.
Lemma split_white_in w s : In w (split_white s) <-> Forall (fun c => ~ css_white c) w /\ exists x y, s = x ++ w ++ y /\ (x = [] \/ exists x' c, x = x' ++ [c] /\ css_white c) /\ (y = [] \/ exists c y', y = c :: y' /\ css_white c).
Proof.
  remember (List.length s) as n eqn:L. revert s L. induction n as [n IH] using (well_founded_induction lt_wf). intros s L.
  destruct (split_white_ne s) as (p & ps & E). destruct (split_white_hd _ _ _ E) as (F & y & S & Y). rewrite E. split.
  - intros [<-|H].
    + split; [exact F|]. exists [], y. split; [exact S|]. split; [left; reflexivity|]. destruct Y as [[-> _]|(c & y' & -> & W & _)]; [left; reflexivity|right; eauto].
    + destruct Y as [[_ ->]|(c & y' & -> & W & P)]; [destruct H|]. rewrite <- P in H. apply (IH (List.length y')) in H; [|rewrite L, S, app_length; cbn; lia|reflexivity].
      destruct H as (Fw & x & z & Es & X & Z). split; [exact Fw|]. exists (p ++ c :: x), z. split; [rewrite S, Es, <- app_assoc; reflexivity|]. split; [|exact Z]. right.
      destruct X as [->|(x' & c' & -> & Wc)]; [exists p, c; auto|]. exists (p ++ c :: x'), c'. rewrite <- app_assoc. auto.
  - intros (Fw & x & z & Es & X & Z). destruct X as [->|(x' & c & -> & Wc)].
    + left. cbn in Es. destruct (split_white_word w Fw z Z) as (qs & Q). rewrite <- Es, E in Q. congruence.
    + right. rewrite <- app_assoc in Es. cbn [app] in Es.
      (* the first space of [s] is in [x' ++ [c]] *)
      destruct Y as [[-> ->]|(c0 & y' & -> & W0 & P)].
      * exfalso. rewrite app_nil_r in S. subst p. rewrite Es in F. apply Forall_app in F. destruct F as [_ F]. inversion F; subst. contradiction.
      * rewrite <- P. apply (IH (List.length y')); [rewrite L, S, app_length; cbn; lia|reflexivity|]. split; [exact Fw|].
        assert (K : x' ++ c :: w ++ z = p ++ c0 :: y') by congruence. clear - K F W0 Wc Z.
        assert (D : exists x'', y' = x'' ++ w ++ z /\ (x'' = [] \/ exists x3, x'' = x3 ++ [c])).
        { revert x' K. induction p as [|q p IH]; intros x' K.
          - destruct x' as [|a x']; cbn in K; injection K as A B; [exists []; auto|]. exists (x' ++ [c]). rewrite <- app_assoc. cbn. split; [congruence|right; eauto].
          - inversion F; subst. destruct x' as [|a x']; cbn in K; injection K as A B; [subst; contradiction|]. apply (IH ltac:(assumption) x' B). }
        destruct D as (x'' & -> & D). exists x'', z. split; [reflexivity|]. split; [|exact Z]. destruct D as [->|(x3 & ->)]; [left; reflexivity|right; eauto].
Qed.
Lemma contains_iff s v : contains_text s v = true <-> exists x y, v = x ++ s ++ y.
Proof.
  induction v as [|c v IH]; cbn [contains_text].
  - rewrite orb_false_r, ScriptProofs2.starts_with_iff. split; [intros (r & H); exists [], r; exact H|]. intros ([|? x] & y & H); [exists y; exact H|discriminate].
  - rewrite orb_true_iff, ScriptProofs2.starts_with_iff, IH. split.
    + intros [(r & H)|(x & y & ->)]; [exists [], r; exact H|exists (c :: x), y; reflexivity].
    + intros ([|? x] & y & H); [left; exists y; exact H|right]. injection H as _ H. exists x, y. exact H.
Qed.
Lemma eval_op_iff o s v : eval_op o s v = true <-> op_means o s v.
Proof.
  destruct o; cbn [eval_op op_means].
  - rewrite text_eqb_spec. reflexivity.
  - destruct s as [|c s]; [split; [discriminate|intros [H _]; congruence]|]. rewrite andb_true_iff, negb_true_iff, existsb_exists. split.
    + intros [_ (w & H & E)]. apply text_eqb_spec in E. subst w. apply split_white_in in H. split; [discriminate|exact H].
    + intros (_ & H). split.
      * destruct H as [F _]. apply not_true_is_false. intros T. apply existsb_exists in T. destruct T as (x & Hin & Wx). rewrite Forall_forall in F. apply (F x Hin), sel_white_iff, Wx.
      * exists (c :: s). split; [apply split_white_in; exact H|apply text_eqb_spec; reflexivity].
  - rewrite orb_true_iff, text_eqb_spec, ScriptProofs2.starts_with_iff. split; (intros [H|(t & H)]; [left; exact H|right; exists t]); rewrite <- app_assoc in *; exact H.
  - destruct s as [|c s]; [split; [discriminate|intros [H _]; congruence]|]. rewrite ScriptProofs2.starts_with_iff. split; [intros (r & H); split; [discriminate|exists r; exact H]|intros [_ H]; exact H].
  - destruct s as [|c s]; [split; [discriminate|intros [H _]; congruence]|]. rewrite ScriptProofs2.starts_with_iff. split.
    + intros (r & H). split; [discriminate|]. exists (rev r). apply (f_equal (@rev N)) in H. rewrite rev_involutive, rev_app_distr, rev_involutive in H. exact H.
    + intros [_ (t & ->)]. exists (rev t). rewrite rev_app_distr. reflexivity.
  - destruct s as [|c s]; [split; [discriminate|intros [H _]; congruence]|]. rewrite contains_iff. split; [intros H; split; [discriminate|exact H]|intros [_ H]; exact H].
Qed.
Lemma asked_small n : no_capitals n -> asked n = n.
Proof. intros H. exact H. Qed.

(** ** Finding attributes *)
Lemma find_unique {A} (f : A -> bool) l x : In x l -> f x = true -> (forall y, In y l -> f y = true -> y = x) -> find f l = Some x.
Proof.
  induction l as [|y l IH]; intros Hin Hf U; [destruct Hin|]. cbn. destruct (f y) eqn:E; [rewrite (U y (or_introl eq_refl) E); reflexivity|].
  apply IH; [destruct Hin as [->|]; [congruence|assumption]|exact Hf|intros; apply U; [right|]; assumption].
Qed.
Definition key (a : attr_id * text) := (prefix_value (id_prefix (fst a)), id_local (fst a)).
Lemma key_unique (l : list (attr_id * text)) x y : NoDup (map key l) -> In x l -> In y l -> key x = key y -> x = y.
Proof.
  induction l as [|z l IH]; intros N Hx Hy K; [destruct Hx|]. inversion N; subst. destruct Hx as [->|Hx], Hy as [->|Hy]; try reflexivity.
  - exfalso. apply H1. rewrite K. apply in_map, Hy.
  - exfalso. apply H1. rewrite <- K. apply in_map, Hx.
  - apply IH; assumption.
Qed.
Lemma named_iff a id : (match id_unaliased a with BKnown k => text_eqb (kind_id k) (lit id) | BUnknown _ => false end) = true <-> named a id.
Proof.
  unfold named. destruct (id_unaliased a) as [k|q]; [rewrite text_eqb_spec; split; [intros H; exists k; auto|intros (k' & E & H); injection E as ->; exact H]|].
  split; [discriminate|intros (k & E & _); discriminate].
Qed.
Lemma empty_prefix a : prefix_is_empty (id_prefix a) = true <-> unprefixed a.
Proof. unfold prefix_is_empty, unprefixed. destruct (prefix_value _); split; congruence. Qed.

Section One.
  Variables (d : list tnode) (show : attr_id -> text -> option text).
  Hypothesis U : usual_doc d.
  Lemma data_at p e attrs : element_at d p e attrs -> data d p = Some (e, attrs).
  Proof. intros (k & H). unfold data. rewrite (in_look _ _ _ H). reflexivity. Qed.
  Lemma at_fun p e a e' a' : element_at d p e a -> element_at d p e' a' -> e = e' /\ a = a'.
  Proof. intros A B. apply data_at in A, B. rewrite A in B. injection B as -> ->. auto. Qed.
  Lemma known_at p e attrs id l v : element_at d p e attrs -> (forall a v, In (a, v) attrs -> named a id <-> unprefixed a /\ id_local a = l) ->
    get_known (lit id) attrs = Some v <-> exists a, In (a, v) attrs /\ unprefixed a /\ id_local a = l.
  Proof.
    intros Hp Nm. destruct (proj2 U _ _ _ Hp) as (_ & ND & _). unfold get_known. split.
    - destruct (find _ attrs) as [[a w]|] eqn:F; [|discriminate]. apply find_some in F. destruct F as [Hin F]. cbn [fst snd] in *. apply named_iff in F. intros X. injection X as <-.
      exists a. split; [exact Hin|]. apply (Nm a w Hin), F.
    - intros (a & Hin & H). rewrite (find_unique _ attrs (a, v)); [reflexivity|exact Hin|apply named_iff, (Nm a v Hin), H|]. intros [b w] Hb Hf. apply named_iff in Hf. cbn [fst] in Hf.
      apply (Nm b w Hb) in Hf. apply (key_unique attrs); try assumption. unfold key. cbn [fst]. destruct H as [H1 H2], Hf as [H3 H4]. unfold unprefixed in *. congruence.
  Qed.
  Lemma has_id_iff i p : element_in d p -> has_id d i p = true <-> has_attr d p false (lit "id") (fun v => v = i).
  Proof.
    intros (e & attrs & Hp). destruct (proj2 U _ _ _ Hp) as (_ & _ & UA). unfold has_id. rewrite (data_at _ _ _ Hp).
    assert (Nm : forall a v, In (a, v) attrs -> named a "Id" <-> unprefixed a /\ id_local a = lit "id") by (intros a v Hin; apply (UA a v Hin)).
    split.
    - destruct (get_known (lit "Id") attrs) as [v|] eqn:G; [|discriminate]. apply (known_at p e attrs "Id" (lit "id") v Hp Nm) in G. destruct G as (a & Hin & H).
      assert (W : word v) by (apply (UA a v Hin), (Nm a v Hin), H). rewrite (PruneProofs3.id_value_word v W). intros T. apply text_eqb_spec in T. subst v.
      exists e, attrs, a, i. destruct H. auto 6.
    - intros (e' & attrs' & a & v & Hp' & Hin & A & L & ->). destruct (at_fun _ _ _ _ _ Hp Hp') as [<- <-]. destruct A as [A|A]; [discriminate|].
      rewrite (proj2 (known_at p e attrs "Id" (lit "id") i Hp Nm) (ex_intro _ a (conj Hin (conj A L)))). rewrite (PruneProofs3.id_value_word i); [apply text_eqb_spec; reflexivity|].
      apply (UA a i Hin), (Nm a i Hin). auto.
  Qed.
  Lemma spaced_sep ws c : c <> [] -> Forall (fun w => word w /\ unquoted w) ws -> op_means OIncludes c (spaced ws) <-> In c ws.
  Proof.
    intros Cn F. rewrite <- eval_op_iff. cbn [eval_op]. destruct c as [|x c]; [congruence|]. set (w := x :: c).
    assert (NW : forall u, word u -> Forall (fun c => ~ css_white c) u).
    { intros u [_ H]. revert H. apply Forall_impl. intros y Hy [<-|[<-|[<-|[<-|[<-|[]]]]]]; discriminate. }
    assert (SW : forall u ws, word u -> Forall word ws -> split_white (u ++ flat_map (fun w => 32%N :: w) ws) = u :: ws).
    { clear - NW. intros u ws. revert u. induction ws as [|v ws IH]; intros u Hu Hws.
      - destruct (split_white_word u (NW u Hu) [] (or_introl eq_refl)) as (ps & E). cbn [flat_map]. rewrite E. destruct (split_white_hd _ _ _ E) as (_ & y & S & [[_ ->]|(c & y' & -> & _)]); [reflexivity|].
        rewrite app_nil_r in S. exfalso. apply (f_equal (@List.length N)) in S. rewrite app_length in S. cbn in S. lia.
      - inversion Hws; subst. cbn [flat_map]. destruct (split_white_word u (NW u Hu) ((32%N :: v) ++ flat_map (fun w => 32%N :: w) ws)) as (ps & E).
        { right. exists 32%N. eexists. split; [reflexivity|left; reflexivity]. }
        rewrite E. destruct (split_white_hd _ _ _ E) as (_ & y & S & Y). apply app_inv_head in S. destruct Y as [[-> _]|(c & y' & -> & _ & P)]; [discriminate|].
        injection S as _ S. subst y'. rewrite IH in P by assumption. rewrite <- P. reflexivity. }
    assert (Spl : ws = [] \/ split_white (spaced ws) = ws).
    { destruct ws as [|u ws]; [left; reflexivity|right]. cbn [spaced]. inversion F; subst. apply SW; [tauto|]. revert H2. apply Forall_impl. tauto. }
    rewrite andb_true_iff, negb_true_iff, existsb_exists. split.
    - intros [_ (v & Hin & E)]. apply text_eqb_spec in E. subst v. destruct Spl as [->|Spl]; [|rewrite Spl in Hin; exact Hin]. cbn in Hin. destruct Hin as [Hin|[]]; discriminate.
    - intros Hin. split.
      + apply not_true_is_false. intros T. apply existsb_exists in T. destruct T as (y & Hy & Wy). rewrite Forall_forall in F. destruct (F w Hin) as [Hw _]. apply NW in Hw. rewrite Forall_forall in Hw.
        apply (Hw y Hy), sel_white_iff, Wy.
      + exists w. split; [|apply text_eqb_spec; reflexivity]. destruct Spl as [-> | ->]; [destruct Hin|exact Hin].
  Qed.
  Lemma has_class_iff c p : element_in d p -> has_class d c p = true <-> has_attr d p false (lit "class") (fun v => op_means OIncludes c v).
  Proof.
    intros (e & attrs & Hp). destruct (proj2 U _ _ _ Hp) as (_ & _ & UA). unfold has_class. rewrite (data_at _ _ _ Hp).
    assert (Nm : forall a v, In (a, v) attrs -> named a "Class" <-> unprefixed a /\ id_local a = lit "class") by (intros a v Hin; apply (UA a v Hin)).
    split.
    - destruct (get_known (lit "Class") attrs) as [v|] eqn:G; [|discriminate]. apply (known_at p e attrs "Class" (lit "class") v Hp Nm) in G. destruct G as (a & Hin & H).
      destruct (proj2 (proj2 (proj2 (UA a v Hin))) (proj2 (Nm a v Hin) H)) as (ws & -> & F). rewrite (PruneProofs3.class_value_spaced ws F). intros T. apply existsb_exists in T.
      destruct T as (x & Hx & E). apply text_eqb_spec in E. subst x. exists e, attrs, a, (spaced ws). destruct H as [H1 H2]. refine (conj Hp (conj Hin (conj (or_intror H1) (conj H2 _)))). apply spaced_sep; [|exact F|exact Hx].
      rewrite Forall_forall in F. apply (F c Hx).
    - intros (e' & attrs' & a & v & Hp' & Hin & A & L & Op). destruct (at_fun _ _ _ _ _ Hp Hp') as [<- <-]. destruct A as [A|A]; [discriminate|].
      rewrite (proj2 (known_at p e attrs "Class" (lit "class") v Hp Nm) (ex_intro _ a (conj Hin (conj A L)))).
      destruct (proj2 (proj2 (proj2 (UA a v Hin))) (proj2 (Nm a v Hin) (conj A L))) as (ws & -> & F). rewrite (PruneProofs3.class_value_spaced ws F).
      apply existsb_exists. exists c. split; [apply (spaced_sep ws c (proj1 Op) F), Op|apply text_eqb_spec; reflexivity].
  Qed.
  Lemma attr_iff any n o p : plain d show (SAttr any n o) -> element_in d p -> attr_matches d show any n o p = true <-> has_attr d p any n (value_means o).
  Proof.
    intros (Nc & Sh & Ay & Hc) (e & attrs & Hp). destruct (proj2 U _ _ _ Hp) as (_ & ND & UA). unfold attr_matches. rewrite (data_at _ _ _ Hp), (asked_small n Nc).
    assert (SW : forall a v, In (a, v) attrs -> attr_somewhere d a v) by (intros a v Hin; exists p, e, attrs; auto).
    assert (Val : forall a v, In (a, v) attrs -> id_local a = n ->
      match show a v with Some w => match o with None => true | Some (op, s, flag) => if caseless any n flag then eval_op op (lower s) (lower w) else eval_op op s w end | None => false end = true <-> value_means o v).
    { intros a v Hin L. specialize (Sh a v (SW a v Hin) L). destruct o as [[[op s] flag]|]; [|destruct (show a v); [split; [intros _; exact Logic.I|reflexivity]|congruence]].
      rewrite Sh. unfold caseless, value_means. destruct flag as [[|]|]; [apply eval_op_iff|apply eval_op_iff|].
      replace (negb any && existsb (text_eqb (lower n)) html_caseless && in_html) with false; [apply eval_op_iff|]. symmetry. apply not_true_is_false. intros T. apply andb_true_iff in T.
      destruct T as [T _]. apply andb_true_iff in T. destruct T as [T1 T2]. destruct any; [discriminate|]. apply (Hc eq_refl). apply existsb_exists in T2. destruct T2 as (x & Hx & E).
      apply text_eqb_spec in E. change (lower n) with (small n) in E. rewrite Nc in E. subst. exact Hx. }
    unfold get_local. split.
    - destruct (find _ attrs) as [[a v]|] eqn:F; [|discriminate]. apply find_some in F. destruct F as [Hin F]. cbn [fst] in F. apply andb_true_iff in F. destruct F as [F1 F2].
      apply empty_prefix in F1. apply text_eqb_spec in F2. intros T. apply (Val a v Hin F2) in T. exists e, attrs, a, v. auto 6.
    - intros (e' & attrs' & a & v & Hp' & Hin & A & L & Op). destruct (at_fun _ _ _ _ _ Hp Hp') as [<- <-].
      assert (A' : unprefixed a) by (destruct A as [A|A]; [exact (Ay A a v (SW a v Hin) L)|exact A]).
      rewrite (find_unique _ attrs (a, v)); [apply (Val a v Hin L), Op|exact Hin|cbn [fst]; apply andb_true_iff; split; [apply empty_prefix, A'|apply text_eqb_spec, L]|].
      intros [b w] Hb Hf. cbn [fst] in Hf. apply andb_true_iff in Hf. destruct Hf as [H1 H2]. apply empty_prefix in H1. apply text_eqb_spec in H2.
      apply (key_unique attrs); try assumption. unfold key. cbn [fst]. unfold unprefixed in *. congruence.
  Qed.
  Lemma local_iff n p : no_capitals n -> element_in d p -> has_local_name d (asked n) p = true <-> exists e a, element_at d p e a /\ elem_local e = n.
  Proof.
    intros Nc (e & attrs & Hp). unfold has_local_name. rewrite (data_at _ _ _ Hp), (asked_small n Nc), text_eqb_spec. split; [intros H; exists e, attrs; auto|].
    intros (e' & a' & Hp' & L). destruct (at_fun _ _ _ _ _ Hp Hp') as [<- _]. exact L.
  Qed.
  Lemma trim_start_nil s : trim_start s = [] <-> Forall (fun c => is_whitespace c = true) s.
  Proof.
    induction s as [|c s IH]; cbn [trim_start]; [split; [constructor|reflexivity]|]. destruct (is_whitespace c) eqn:W.
    - rewrite IH. split; [intros H; constructor; assumption|intros H; inversion H; assumption].
    - split; [discriminate|]. intros H. inversion H; congruence.
  Qed.
  Lemma trim_nil s : trim_str s = [] <-> Forall (fun c => is_whitespace c = true) s.
  Proof.
    unfold trim_str. split.
    - intros H. apply (f_equal (@rev N)) in H. rewrite rev_involutive in H. apply trim_start_nil in H. apply Forall_rev in H. rewrite rev_involutive in H.
      assert (T : trim_start s = []).
      { destruct (trim_start s) as [|c r] eqn:E; [reflexivity|]. exfalso. assert (K : is_whitespace c = false).
        { clear H. induction s as [|x s IH]; [discriminate|]. cbn in E. destruct (is_whitespace x) eqn:W; [apply IH, E|]. injection E as -> _. exact W. }
        inversion H; congruence. }
      apply trim_start_nil, T.
    - intros H. apply trim_start_nil in H. rewrite H. reflexivity.
  Qed.
  Lemma empty_iff p : plain d show SEmpty -> element_in d p -> is_empty d p = true <->
    exists e a k, node_in d p (TElem e a k) /\ Forall (fun n => match n with TElem _ _ _ => False | TText t => Forall css_white t | TNote => True end) k.
  Proof.
    intros P (e & attrs & k & Hp). unfold is_empty. rewrite (in_kids _ _ _ _ _ Hp).
    assert (K : forall i n, nth_error k i = Some n -> node_in d (i :: p) n) by (intros i n H; econstructor; eassumption).
    assert (W : forall n, In n k -> (match n with TText t => match trim_str t with [] => true | _ => false end | _ => false end) = true <-> match n with TElem _ _ _ => False | TText t => Forall css_white t | TNote => True end).
    { intros n Hin. apply In_nth_error in Hin. destruct Hin as (i & Hi). specialize (P _ _ (K i n Hi)). destruct n as [e' a' k'|t|]; [split; [discriminate|intros []]| |destruct P].
      assert (TT : trim_str t = [] <-> Forall css_white t).
      { rewrite trim_nil. split; intros F; rewrite Forall_forall in *; intros c Hc; [apply (P c Hc), (F c Hc)|]. specialize (F c Hc). destruct F as [<-|[<-|[<-|[<-|[<-|[]]]]]]; reflexivity. }
      destruct (trim_str t); [split; [intros _; apply TT; reflexivity|reflexivity]|split; [discriminate|intros X; apply TT in X; discriminate]]. }
    rewrite forallb_forall. split.
    - intros H. exists e, attrs, k. split; [exact Hp|]. apply Forall_forall. intros n Hin. apply (W n Hin), (H n Hin).
    - intros (e' & a' & k' & Hp' & F). assert (X := node_fun _ _ _ _ Hp Hp'). injection X as -> -> ->. intros n Hin. apply (W n Hin). rewrite Forall_forall in F. apply F, Hin.
  Qed.
  Lemma root_iff p : is_root p = true <-> exists i, p = [i].
  Proof. destruct p as [|i [|j p]]; cbn; split; try discriminate; try (intros (k & H); discriminate). intros _. exists i. reflexivity. reflexivity. Qed.
  Lemma same_iff p q e a f b : element_at d p e a -> element_at d q f b -> is_same_type d p q = true <-> elem_local f = elem_local e /\ space_of (elem_prefix f) = space_of (elem_prefix e).
  Proof.
    intros Hp Hq. unfold is_same_type. rewrite (data_at _ _ _ Hp), (data_at _ _ _ Hq), andb_true_iff, text_eqb_spec.
    destruct (proj2 U _ _ _ Hp) as ((u & n & E) & _). destruct (proj2 U _ _ _ Hq) as ((v & m & F) & _). rewrite E, F, prefix_same. split; intros [A B]; split; congruence.
  Qed.
End One.
