From Coq Require Import String List NArith Bool Arith Lia.
From Verif Require Import Chars TextModel UsageModel UsageSpec.
Import ListNotations.

(** ** Trees *)
Section Ind.
  Variable P : node -> Prop.
  Hypothesis HS : forall i rs, P (Sheet i rs).
  Hypothesis HE : forall i kids, Forall P kids -> P (El i kids).
  Fixpoint node_rect' (n : node) : P n :=
    match n with
    | Sheet i rs => HS i rs
    | El i kids => HE i kids ((fix go (l : list node) : Forall P l := match l with [] => Forall_nil P | k :: l => Forall_cons k (node_rect' k) (go l) end) kids)
    end.
End Ind.
Section RInd.
  Variable P : rule -> Prop.
  Hypothesis HS : forall s b, P (RStyle s b).
  Hypothesis HE : forall q rs, Forall P rs -> P (RHolds q rs).
  Fixpoint rule_rect' (n : rule) : P n :=
    match n with
    | RStyle i rs => HS i rs
    | RHolds i kids => HE i kids ((fix go (l : list rule) : Forall P l := match l with [] => Forall_nil P | k :: l => Forall_cons k (rule_rect' k) (go l) end) kids)
    end.
End RInd.
Fixpoint kids_elements (p : place) (before : list face) (l : list node) : list (info * place) :=
  match l with
  | [] => []
  | k :: l => elements (fun f => Inside f before p) k ++ kids_elements p (face_of (info_of k) :: before) l
  end.
Lemma elements_el here i kids : elements here (El i kids) = (i, here (face_of i)) :: kids_elements (here (face_of i)) [] kids.
Proof.
  cbn [elements]. f_equal. generalize (@nil face). induction kids as [|k kids IH]; intros b; [reflexivity|]. cbn [kids_elements]. rewrite <- IH. reflexivity.
Qed.
Fixpoint infos (n : node) : list info :=
  match n with Sheet i _ => [i] | El i kids => i :: flat_map infos kids end.

(** ** What is recorded *)
Definition fu (u : usage) (f : face) : Prop :=
  In (f_name f) (u_tags u) /\ (forall t, f_id f = Some t -> In t (u_ids u)) /\ forall t, In t (f_classes f) -> In t (u_classes u).
Definition leu (u v : usage) : Prop := incl (u_tags u) (u_tags v) /\ incl (u_ids u) (u_ids v) /\ incl (u_classes u) (u_classes v).
Lemma leu_refl u : leu u u.
Proof. repeat split; apply incl_refl. Qed.
Lemma leu_trans u v w : leu u v -> leu v w -> leu u w.
Proof. intros (A & B & C) (D & E & F). repeat split; eapply incl_tran; eauto. Qed.
Lemma fu_mono u v f : leu u v -> fu u f -> fu v f.
Proof. intros (A & B & C) (D & E & F). repeat split; auto. Qed.
Lemma record_leu i u : leu u (record i u).
Proof.
  unfold record. destruct (i_svg i); cbn [negb]; [|apply leu_refl]. repeat split; cbn; intros t H; cbn; auto.
  - destruct (i_id i); [right|]; exact H.
  - apply in_or_app. right. exact H.
Qed.
Lemma record_fu i u : i_svg i = true -> fu (record i u) (face_of i).
Proof.
  intros H. unfold record. rewrite H. cbn [negb]. repeat split; cbn; auto.
  - intros t ->. left. reflexivity.
  - intros t Ht. apply in_or_app. left. exact Ht.
Qed.
Lemma record_all_leu n : forall u, leu u (record_all n u).
Proof.
  induction n as [i rs|i kids IH] using node_rect'; intros u; cbn [record_all]; [apply record_leu|].
  eapply (leu_trans _ (record i u)); [apply record_leu|]. generalize (record i u). clear u. induction IH as [|k kids Hk HK IHk]; intros u; cbn [fold_left]; [apply leu_refl|].
  eapply leu_trans; [apply Hk|]. apply IHk.
Qed.
Lemma record_all_fu n : forall u i, In i (infos n) -> i_svg i = true -> fu (record_all n u) (face_of i).
Proof.
  induction n as [j rs|j kids IH] using node_rect'; intros u i Hi S; cbn [record_all infos] in *.
  - destruct Hi as [<-|[]]. apply record_fu. exact S.
  - assert (M : forall l u, leu u (fold_left (fun u k => record_all k u) l u)).
    { induction l as [|k l IHl]; intros v; cbn [fold_left]; [apply leu_refl|]. eapply leu_trans; [apply record_all_leu|apply IHl]. }
    destruct Hi as [<-|Hi]; [eapply fu_mono; [apply M|]; apply record_fu; exact S|].
    generalize (record j u). clear u. induction IH as [|k kids Hk HK IHk]; intros u; cbn [flat_map fold_left] in *; [destruct Hi|].
    apply in_app_or in Hi. destruct Hi as [Hi|Hi]; [eapply fu_mono; [apply M|]; apply Hk; assumption|apply IHk; exact Hi].
Qed.
(** Everything in the sets was recorded from some SVG element. *)
Definition from (n : node) (u v : usage) : Prop :=
  (forall t, In t (u_tags v) -> In t (u_tags u) \/ exists i, In i (infos n) /\ i_svg i = true /\ i_name i = t) /\
  (forall t, In t (u_ids v) -> In t (u_ids u) \/ exists i, In i (infos n) /\ i_svg i = true /\ i_id i = Some t) /\
  (forall t, In t (u_classes v) -> In t (u_classes u) \/ exists i, In i (infos n) /\ i_svg i = true /\ In t (i_classes i)).
Lemma record_from i u l : In i l -> 
  (forall t, In t (u_tags (record i u)) -> In t (u_tags u) \/ exists i, In i l /\ i_svg i = true /\ i_name i = t) /\
  (forall t, In t (u_ids (record i u)) -> In t (u_ids u) \/ exists i, In i l /\ i_svg i = true /\ i_id i = Some t) /\
  (forall t, In t (u_classes (record i u)) -> In t (u_classes u) \/ exists i, In i l /\ i_svg i = true /\ In t (i_classes i)).
Proof.
  intros Hl. unfold record. destruct (i_svg i) eqn:S; cbn [negb]; [|auto]. cbn [u_tags u_ids u_classes]. repeat split; intros t H.
  - destruct H as [<-|H]; [right; exists i; auto|auto].
  - destruct (i_id i) as [x|] eqn:E; [|auto]. destruct H as [<-|H]; [right; exists i; auto|auto].
  - apply in_app_or in H. destruct H as [H|H]; [right; exists i; auto|auto].
Qed.
Lemma record_all_from n : forall u, from n u (record_all n u).
Proof.
  unfold from. induction n as [i rs|i kids IH] using node_rect'; intros u; cbn [record_all infos]; [apply record_from; left; reflexivity|].
  assert (K : forall l u, Forall (fun k => forall u, from k u (record_all k u)) l -> let v := fold_left (fun u k => record_all k u) l u in
    (forall t, In t (u_tags v) -> In t (u_tags u) \/ exists i, In i (flat_map infos l) /\ i_svg i = true /\ i_name i = t) /\
    (forall t, In t (u_ids v) -> In t (u_ids u) \/ exists i, In i (flat_map infos l) /\ i_svg i = true /\ i_id i = Some t) /\
    (forall t, In t (u_classes v) -> In t (u_classes u) \/ exists i, In i (flat_map infos l) /\ i_svg i = true /\ In t (i_classes i))).
  { clear. induction l as [|k l IHl]; intros u H; cbn [fold_left flat_map]; [auto|]. inversion H as [|? ? H1 H2]; subst.
    destruct (H1 u) as (A1 & A2 & A3). destruct (IHl (record_all k u) H2) as (B1 & B2 & B3). cbv zeta in *.
    repeat split; intros t Ht; [destruct (B1 t Ht) as [X|(i & X & Y)]; [destruct (A1 t X) as [Z|(i & Z & Y)]|]
      |destruct (B2 t Ht) as [X|(i & X & Y)]; [destruct (A2 t X) as [Z|(i & Z & Y)]|]|destruct (B3 t Ht) as [X|(i & X & Y)]; [destruct (A3 t X) as [Z|(i & Z & Y)]|]];
      auto; right; exists i; (split; [apply in_or_app; auto|exact Y]). }
  destruct (record_from i u (i :: flat_map infos kids)) as (A1 & A2 & A3); [left; reflexivity|].
  destruct (K kids (record i u) IH) as (B1 & B2 & B3). cbv zeta in *. clear K IH.
  repeat split; intros t Ht; [destruct (B1 t Ht) as [X|(j & X & Y)]|destruct (B2 t Ht) as [X|(j & X & Y)]|destruct (B3 t Ht) as [X|(j & X & Y)]]; auto;
    right; exists j; (split; [right; exact X|exact Y]).
Qed.

(** ** Places *)
Fixpoint good (u : usage) (p : place) : Prop :=
  match p with Root f => fu u f | Inside f before q => fu u f /\ Forall (fu u) before /\ good u q end.
Lemma good_itself u p : good u p -> fu u (itself p).
Proof. destruct p; cbn; intuition. Qed.
Lemma good_related u k p q : related k p q -> good u p -> good u q.
Proof.
  assert (A : forall p q, parent p = Some q -> good u p -> good u q) by (intros [] ? [=]; subst; cbn; intuition).
  assert (B : forall p q, previous p = Some q -> good u p -> good u q).
  { intros [|f [|g b] r] ? [=]; subst; cbn. intros (H1 & H2 & H3). inversion H2; subst. auto. }
  induction 1; intros G; eauto.
Qed.
Lemma elements_good u n : forall here, (forall f, fu u f -> good u (here f)) -> Forall (fun i => fu u (face_of i)) (infos n) -> Forall (fun x => good u (snd x)) (elements here n).
Proof.
  induction n as [i rs|i kids IH] using node_rect'; intros here H F.
  - cbn. inversion F; subst. constructor; [apply H; assumption|constructor].
  - rewrite elements_el. cbn [infos] in F. inversion F as [|? ? F1 F2]; subst. specialize (H _ F1). constructor; [exact H|].
    assert (B : Forall (fu u) (@nil face)) by constructor. revert B H. generalize (@nil face) (here (face_of i)). clear here F F1 i.
    induction IH as [|k kids Hk HK IHk]; intros b p B H; cbn [kids_elements flat_map] in *; [constructor|].
    apply Forall_app in F2. destruct F2 as [F2 F3]. apply Forall_app. split.
    + apply Hk; [|exact F2]. intros f Hf. cbn. auto.
    + apply IHk; [exact F3| |exact H]. constructor; [|exact B]. destruct k; cbn [infos] in F2; inversion F2; assumption.
Qed.
Lemma document_infos n : forall here, map fst (elements here n) = infos n.
Proof.
  induction n as [i rs|i kids IH] using node_rect'; intros here; [reflexivity|]. rewrite elements_el. cbn [map fst infos]. f_equal.
  generalize (@nil face) (here (face_of i)). induction IH as [|k kids Hk HK IHk]; intros b p; [reflexivity|]. cbn [kids_elements flat_map].
  rewrite map_app, Hk, IHk. reflexivity.
Qed.
Lemma elements_itself n : forall here, (forall f, itself (here f) = f) -> Forall (fun x => itself (snd x) = face_of (fst x)) (elements here n).
Proof.
  induction n as [i rs|i kids IH] using node_rect'; intros here H.
  - constructor; [apply H|constructor].
  - rewrite elements_el. constructor; [apply H|]. generalize (@nil face) (here (face_of i)). induction IH as [|k kids Hk HK IHk]; intros b p; cbn [kids_elements]; [constructor|].
    apply Forall_app. split; [apply Hk; reflexivity|apply IHk].
Qed.
Lemma document_itself n i p : In (i, p) (document n) -> itself p = face_of i.
Proof. intros H. pose proof (elements_itself n Root ltac:(reflexivity)) as F. rewrite Forall_forall in F. apply (F _ H). Qed.
Lemma infos_document n i : In i (infos n) -> exists p, In (i, p) (document n).
Proof. rewrite <- (document_infos n Root). intros H. apply in_map_iff in H. destruct H as ((j & p) & E & H). cbn in E. subst. exists p. exact H. Qed.

(** ** Selectors that match are retained *)
Lemma mem_in t l : mem t l = true <-> In t l.
Proof.
  unfold mem. rewrite existsb_exists. split; [intros (x & H & E); apply (proj1 (text_eqb_spec _ _)) in E; congruence|intros H; exists t; split; [exact H|apply text_eqb_refl]].
Qed.
Section Css.
  Variable other : nat -> place -> bool.
  Lemma has_in_use u p c : good u p -> has other c p -> in_use u c = true.
  Proof.
    intros G H. apply good_itself in G. destruct G as (G1 & G2 & G3). destruct c; cbn in *; [apply mem_in; congruence|apply mem_in; auto|apply mem_in; auto|reflexivity].
  Qed.
  Lemma matches_retained u s : forall p, good u p -> matches other s p -> retained u s = true.
  Proof.
    assert (E : forall c p, good u p -> c <> [] -> (forall x, In x c -> has other x p) -> existsb (in_use u) c = true).
    { intros [|x c] p G N H; [congruence|]. cbn [existsb]. rewrite (has_in_use u p x G (H x (or_introl eq_refl))). reflexivity. }
    induction s as [c|c k s IH]; intros p G M; cbn [matches retained] in *.
    - destruct M as [N M]. eapply E; eauto.
    - destruct M as (N & M & _). rewrite (E c p G N M). reflexivity.
  Qed.

  Lemma applying_app p a b m n : applying other p a m -> applying other p b n -> applying other p (a ++ b) (m ++ n).
  Proof. intros H. revert b n. induction H; intros x y Hx; cbn [app]; [exact Hx| |]; constructor; auto. Qed.
  Lemma applying_split p a : forall b m, applying other p (a ++ b) m -> exists m1 m2, m = m1 ++ m2 /\ applying other p a m1 /\ applying other p b m2.
  Proof.
    induction a as [|[[c s] d] a IH]; intros b m H; cbn [app] in H; [exists [], m; repeat split; [constructor|exact H]|].
    inversion H; subst.
    - destruct (IH _ _ H6) as (m1 & m2 & -> & A & B). exists ((c, s, d) :: m1), m2. repeat split; [constructor; assumption|exact B].
    - destruct (IH _ _ H6) as (m1 & m2 & -> & A & B). exists m1, m2. repeat split; [apply a_no; assumption|exact B].
  Qed.
  Lemma visit_applying u p r : good u p -> forall m, applying other p (singles [] r) m -> applying other p (singles [] (visit_rule u r)) m.
  Proof.
    intros G. destruct r as [sels b|q rs]; [|auto]. cbn [visit_rule singles]. induction sels as [|s sels IH]; intros m H; cbn [map filter] in *; [exact H|].
    inversion H; subst.
    - rewrite (matches_retained u s p G) by assumption. cbn [map]. constructor; auto.
    - destruct (retained u s); [cbn [map]; apply a_no; auto|auto].
  Qed.
  Lemma sweep_applying u p rs : good u p -> forall m, applying other p (all_singles rs) m -> applying other p (all_singles (map (visit_rule u) rs)) m.
  Proof.
    intros G. induction rs as [|r rs IH]; intros m H; [exact H|]. cbn [map]. unfold all_singles in *. cbn [flat_map] in *.
    apply applying_split in H. destruct H as (m1 & m2 & -> & A & B). apply applying_app; [apply visit_applying; assumption|apply IH; exact B].
  Qed.
End Css.

(** ** The job *)
Section Job.
  Variable minify : list rule -> list rule.
  Variable minify_block : list nat -> list nat.
  Notation finish := (finish minify minify_block).
  Fixpoint finish_kids (u : option usage) (l : list node) : option (list node) :=
    match l with
    | [] => Some []
    | k :: l => match finish u k, finish_kids u l with
                | Some (Some k), Some l => Some (k :: l)
                | Some None, Some l => Some l
                | _, _ => None
                end
    end.
  Lemma finish_el u i kids : finish u (El i kids) =
    match minify_attr minify_block (i_style i) with
    | None => None
    | Some s => match finish_kids u kids with Some kids => Some (Some (El (with_style i s) kids)) | None => None end
    end.
  Proof.
    cbn [UsageModel.finish]. destruct (minify_attr minify_block (i_style i)); [|reflexivity].
    match goal with |- match ?f kids with _ => _ end = _ => assert (H : forall l, f l = finish_kids u l) end.
    { induction l as [|k l IH]; [reflexivity|]. cbn [finish_kids]. rewrite <- IH. reflexivity. }
    rewrite H. reflexivity.
  Qed.
  (** Panics. *)
  Lemma finish_panics u n : finish u n = None <-> exists i t, within i n /\ i_style i = Unread t.
  Proof.
    induction n as [i rs|i kids IH] using node_rect'.
    - cbn. split; [discriminate|]. intros (j & t & H & _). inversion H.
    - rewrite finish_el.
      assert (K : finish_kids u kids = None <-> exists k i t, In k kids /\ within i k /\ i_style i = Unread t).
      { induction IH as [|k kids Hk HK IHk]; cbn [finish_kids]; [split; [discriminate|intros (k & j & t & [] & _)]|].
        destruct (finish u k) as [[k'|]|] eqn:Ek.
        - destruct (finish_kids u kids) as [l|].
          + split; [discriminate|]. intros (x & j & t & [<-|Hx] & W & U).
            * assert (Some (Some k') = None :> option (option node)) by (apply Hk; exists j, t; auto). discriminate.
            * assert (Some l = None :> option (list node)) by (apply IHk; exists x, j, t; auto). discriminate.
          + split; [|reflexivity]. intros _. destruct (proj1 IHk eq_refl) as (x & j & t & Hx & R). exists x, j, t. cbn. auto.
        - destruct (finish_kids u kids) as [l|].
          + split; [discriminate|]. intros (x & j & t & [<-|Hx] & W & U).
            * assert (Some None = None :> option (option node)) by (apply Hk; exists j, t; auto). discriminate.
            * assert (Some l = None :> option (list node)) by (apply IHk; exists x, j, t; auto). discriminate.
          + split; [|reflexivity]. intros _. destruct (proj1 IHk eq_refl) as (x & j & t & Hx & R). exists x, j, t. cbn. auto.
        - split; [|reflexivity]. intros _. destruct (proj1 Hk eq_refl) as (j & t & R). exists k, j, t. cbn. auto. }
      destruct (minify_attr minify_block (i_style i)) as [s|] eqn:S.
      + destruct (finish_kids u kids) as [l|].
        * split; [discriminate|]. intros (j & t & W & U). inversion W; subst.
          -- rewrite U in S. discriminate.
          -- assert (Some l = None :> option (list node)) by (apply K; exists k, j, t; auto). discriminate.
        * split; [|reflexivity]. intros _. destruct (proj1 K eq_refl) as (k & j & t & Hk & W & U). exists j, t. split; [eapply w_kid; eauto|exact U].
      + split; [|reflexivity]. intros _. destruct (i_style i) as [|t|l] eqn:E; cbn in S; [discriminate| |destruct (minify_block l); discriminate]. exists i, t. split; [constructor|exact E].
  Qed.

  (** What becomes of stylesheets: [out]. *)
  Definition out (u : option usage) (rs : list rule) : list rule := minify (match u with Some u => map (visit_rule u) rs | None => rs end).
  Definition outs (u : option usage) (l : list (list rule)) : list (list rule) :=
    filter (fun rs => match rs with [] => false | _ => true end) (map (out u) l).
  Definition sheets_opt (n : option node) : list (list rule) := match n with Some n => sheets n | None => [] end.
  Lemma outs_app u a b : outs u (a ++ b) = outs u a ++ outs u b.
  Proof. unfold outs. rewrite map_app, filter_app. reflexivity. Qed.
  Lemma finish_sheets u n : forall r, finish u n = Some r -> sheets_opt r = outs u (sheets n).
  Proof.
    induction n as [i rs|i kids IH] using node_rect'; intros r.
    - cbn [UsageModel.finish]. fold (out u rs). cbv zeta. intros [= <-]. cbn [sheets]. unfold outs. cbn [map filter]. destruct (out u rs) eqn:E; [reflexivity|]. cbn. reflexivity.
    - rewrite finish_el. destruct (minify_attr minify_block (i_style i)) as [s|]; [|discriminate].
      assert (K : forall l, finish_kids u kids = Some l -> flat_map sheets l = outs u (flat_map sheets kids)).
      { induction IH as [|k kids Hk HK IHk]; intros l; cbn [finish_kids flat_map]; [intros [= <-]; reflexivity|]. rewrite outs_app.
        destruct (finish u k) as [[k'|]|]; [| |discriminate]; destruct (finish_kids u kids) as [l'|]; try discriminate; intros [= <-]; rewrite <- (Hk _ eq_refl), <- (IHk _ eq_refl); reflexivity. }
      destruct (finish_kids u kids) as [l|]; [|discriminate]. intros [= <-]. cbn [sheets_opt sheets]. apply K. reflexivity.
  Qed.
  Lemma outs_length u l : List.length (outs u l) <= List.length l.
  Proof. unfold outs. induction l as [|a l IH]; cbn; [lia|]. destruct (out u a); cbn; lia. Qed.
  Lemma outs_all u l : List.length (outs u l) = List.length l -> outs u l = map (out u) l.
  Proof.
    unfold outs. induction l as [|a l IH]; [reflexivity|]. pose proof (outs_length u l) as L. unfold outs in L. cbn [map filter List.length]. destruct (out u a) eqn:E; cbn [List.length] in *; [lia|].
    intros H. f_equal. apply IH. lia.
  Qed.
  (** The elements when no stylesheet is removed. *)
  Lemma finish_elements u n : forall n' here, finish u n = Some (Some n') -> List.length (sheets n') = List.length (sheets n) ->
    Forall2 (same_but_style minify_block) (elements here n) (elements here n') /\ face_of (info_of n') = face_of (info_of n).
  Proof.
    induction n as [i rs|i kids IH] using node_rect'; intros n' here.
    - cbn [UsageModel.finish]. fold (out u rs). cbv zeta. destruct (out u rs) eqn:E; [discriminate|]. intros [= <-] _. cbn. split; [|reflexivity]. constructor; [|constructor]. split; [reflexivity|left; reflexivity].
    - rewrite finish_el. destruct (minify_attr minify_block (i_style i)) as [s|] eqn:S; [|discriminate].
      destruct (finish_kids u kids) as [l|] eqn:EK; [|discriminate]. intros [= <-]. cbn [sheets]. intros L. rewrite !elements_el. split; [|reflexivity].
      change (face_of (with_style i s)) with (face_of i). constructor.
      + split; [reflexivity|]. cbn [fst i_style with_style]. destruct (i_style i) as [|t|d]; cbn in S; [injection S as <-; left; reflexivity|discriminate|].
        right. exists d. split; [reflexivity|]. destruct (minify_block d); injection S as <-; reflexivity.
      + generalize (here (face_of i)) (@nil face). clear S s i here. revert l EK L. induction IH as [|k kids Hk HK IHk]; intros l EK L p b; cbn [finish_kids flat_map] in *.
        * injection EK as <-. constructor.
        * destruct (finish u k) as [[k'|]|] eqn:Ek; [| |discriminate]; destruct (finish_kids u kids) as [l'|] eqn:EL; try discriminate; injection EK as <-.
          -- pose proof (finish_sheets u k _ Ek) as A. cbn [sheets_opt] in A. pose proof (outs_length u (sheets k)) as B. rewrite <- A in B.
             assert (C : List.length (flat_map sheets l') <= List.length (flat_map sheets kids)).
             { clear - EL. revert l' EL. induction kids as [|x kids IHx]; intros l'; cbn [finish_kids]; [intros [= <-]; reflexivity|].
               destruct (finish u x) as [[x'|]|] eqn:Ex; [| |discriminate]; destruct (finish_kids u kids) as [l''|]; try discriminate; intros [= <-]; cbn [flat_map]; rewrite !app_length; specialize (IHx _ eq_refl).
               - pose proof (finish_sheets u x _ Ex) as A. cbn [sheets_opt] in A. pose proof (outs_length u (sheets x)). rewrite A. lia.
               - lia. }
             cbn [flat_map] in L. rewrite !app_length in L. destruct (Hk k' (fun f => Inside f b p) eq_refl ltac:(lia)) as [H1 H2]. cbn [kids_elements].
             apply Forall2_app; [exact H1|]. rewrite H2. apply IHk; [reflexivity|lia].
          -- exfalso. pose proof (finish_sheets u k _ Ek) as A. cbn [sheets_opt] in A.
             assert (C : List.length (flat_map sheets l') <= List.length (flat_map sheets kids)).
             { clear - EL. revert l' EL. induction kids as [|x kids IHx]; intros l'; cbn [finish_kids]; [intros [= <-]; reflexivity|].
               destruct (finish u x) as [[x'|]|] eqn:Ex; [| |discriminate]; destruct (finish_kids u kids) as [l''|]; try discriminate; intros [= <-]; cbn [flat_map]; rewrite !app_length; specialize (IHx _ eq_refl).
               - pose proof (finish_sheets u x _ Ex) as A. cbn [sheets_opt] in A. pose proof (outs_length u (sheets x)). rewrite A. lia.
               - lia. }
             cbn [flat_map] in L. rewrite app_length in L. assert (sheets k = []) by (destruct (sheets k); [reflexivity|cbn in L; lia]).
             destruct k as [i kk|i rs]; [|discriminate H]. rewrite finish_el in Ek. destruct (minify_attr minify_block (i_style i)); [|discriminate]. destruct (finish_kids u kk); discriminate.
  Qed.

  Lemma applied_keeps {V} other (see : place -> list single -> V) u p : invisible other see minify -> (forall u0, u = Some u0 -> good u0 p) ->
    forall l a m m', applied other p l m -> applied other p (map (out u) l) m' -> see p (a ++ m') = see p (a ++ m).
  Proof.
    intros I G. unfold applied. induction l as [|rs l IH]; intros a m m' H H'; cbn [map concat] in *.
    - inversion H; inversion H'; subst. reflexivity.
    - unfold all_singles in H, H'. rewrite flat_map_app in H, H'. apply applying_split in H. destruct H as (m1 & m2 & -> & H1 & H2).
      apply applying_split in H'. destruct H' as (n1 & n2 & -> & N1 & N2). change (flat_map (singles [])) with all_singles in *.
      assert (H1' : applying other p (all_singles (match u with Some u => map (visit_rule u) rs | None => rs end)) m1).
      { destruct u as [u|]; [apply sweep_applying; auto|exact H1]. }
      rewrite (I p _ a n2 m1 n1 H1' N1). rewrite !app_assoc. apply IH; assumption.
  Qed.
  Theorem run_keeps {V} other (see : place -> list single -> V) o n n' :
    (forall i p, In (i, p) (document n) -> i_svg i = true) -> invisible other see minify ->
    run minify minify_block o n = Some (Some n') -> List.length (sheets n') = List.length (sheets n) ->
    Forall2 (same_but_style minify_block) (document n) (document n') /\
    forall i p m m', In (i, p) (document n) -> applied other p (sheets n) m -> applied other p (sheets n') m' -> see p m' = see p m.
  Proof.
    intros S I R L. unfold run in R. set (u := if sweeps o (has_scripts n) then _ else _) in R. destruct (finish_elements u n n' Root R L) as [F _].
    split; [exact F|]. intros i p m m' Hp H H'. pose proof (finish_sheets u n _ R) as E. cbn [sheets_opt] in E. rewrite E in L. rewrite (outs_all u _ L) in E. rewrite E in H'.
    apply (applied_keeps other see u p I) with (l := sheets n) (a := []); [|exact H|exact H'].
    intros u0 E0. assert (FU : Forall (fun i => fu u0 (face_of i)) (infos n)).
    { unfold u in E0. destruct (sweeps o (has_scripts n)); [|discriminate]. injection E0 as <-. apply Forall_forall. intros j Hj. apply record_all_fu; [exact Hj|].
      destruct (infos_document n j Hj) as (q & Hq). exact (S j q Hq). }
    pose proof (elements_good u0 n Root ltac:(auto) FU) as G. rewrite Forall_forall in G. exact (G (i, p) Hp).
  Qed.

  (** Scripts. *)
  Lemma scripts_seen n i : In i (infos n) -> scripted i = true -> has_scripts n = true.
  Proof.
    induction n as [j rs|j kids IH] using node_rect'; cbn [infos has_scripts].
    - intros [<-|[]]. auto.
    - intros [<-|H] S; [rewrite S; reflexivity|]. apply orb_true_iff. right. apply existsb_exists. apply in_flat_map in H. destruct H as (k & Hk & H).
      rewrite Forall_forall in IH. exists k. auto.
  Qed.
  Theorem run_off o n n' : run minify minify_block o n = Some n' ->
    (o = RuFalse \/ o = RuTrue /\ exists i p, In (i, p) (document n) /\ runs_script i /\ i_xlink i = None) ->
    sheets_opt n' = filter (fun rs => match rs with [] => false | _ => true end) (map minify (sheets n)).
  Proof.
    intros R H. unfold run in R. replace (sweeps o (has_scripts n)) with false in R.
    - rewrite (finish_sheets None n n' R). reflexivity.
    - destruct H as [->|(-> & i & p & Hp & (S & H) & X)]; [reflexivity|]. cbn [sweeps]. rewrite (scripts_seen n i); [reflexivity| |].
      + rewrite <- (document_infos n Root). change i with (fst (i, p)). apply in_map. exact Hp.
      + unfold scripted. rewrite S. cbn [andb]. destruct H as [->|[->|(-> & h & [E|E] & (r & J))]]; [reflexivity|apply orb_true_r| |congruence].
        rewrite E, J. unfold starts_with. replace (strip_prefix (lit "javascript:") (lit "javascript:" ++ r)) with (Some r) by reflexivity. rewrite orb_true_r. reflexivity.
  Qed.

  Lemma retained_simple u s : retained u s = true <-> exists c, In c (simple s) /\ in_use u c = true.
  Proof.
    induction s as [c|c k s IH]; cbn [retained simple]; [apply existsb_exists|]. rewrite orb_true_iff, existsb_exists, IH. split.
    - intros [(x & A & B)|(x & A & B)]; exists x; (split; [apply in_or_app; auto|exact B]).
    - intros (x & A & B). apply in_app_or in A. destruct A; [left|right]; exists x; auto.
  Qed.
  Theorem swept_hit n rs sels b s : In (RStyle sels b) (map (visit_rule (record_all n (mkUsage [] [] []))) rs) -> In s sels -> hit n s.
  Proof.
    intros H Hs. apply in_map_iff in H. destruct H as (r & E & Hr). destruct r as [sels0 b0|q l]; [|discriminate E]. cbn in E. injection E as <- <-.
    apply filter_In in Hs. destruct Hs as [_ Hs]. apply retained_simple in Hs. destruct Hs as (c & Hc & U). exists c. split; [exact Hc|].
    destruct (record_all_from n (mkUsage [] [] [])) as (A1 & A2 & A3). cbn [u_tags u_ids u_classes] in *.
    destruct c as [t|t|t|k]; [| | |left; eauto]; right; cbn [in_use] in U; apply (proj1 (mem_in _ _)) in U;
      [destruct (A1 t U) as [[]|(i & Hi & S & E)]|destruct (A2 t U) as [[]|(i & Hi & S & E)]|destruct (A3 t U) as [[]|(i & Hi & S & E)]];
      destruct (infos_document n i Hi) as (p & Hp); exists i, p; (split; [exact Hp|]; split; [exact S|]); cbn [has]; rewrite (document_itself n i p Hp); exact E.
  Qed.
End Job.

Theorem run_unused minify minify_block o n n' sels b s rs :
  (forall rs sels b s, In (RStyle sels b) (minify rs) -> In s sels -> exists sels' b', In (RStyle sels' b') rs /\ In s sels') ->
  o = RuForce \/ (o = RuTrue /\ forall i p, In (i, p) (document n) -> i_name i <> lit "script" /\ i_handler i = false /\ i_href i = None) ->
  run minify minify_block o n = Some (Some n') -> In rs (sheets n') -> In (RStyle sels b) rs -> In s sels -> hit n s.
Proof.
  intros M O R Hrs Hr Hs. unfold run in R.
  assert (E : sweeps o (has_scripts n) = true).
  { destruct O as [->|[-> H]]; [reflexivity|]. cbn [sweeps]. apply negb_true_iff.
    assert (K : forall m, (forall i, In i (infos m) -> scripted i = false) -> has_scripts m = false).
    { induction m as [j r|j kids IH] using node_rect'; cbn [infos has_scripts]; intros K; [apply K; left; reflexivity|].
      rewrite (K j (or_introl eq_refl)). cbn [orb]. clear R. induction IH as [|k kids Hk HK IHk]; [reflexivity|]. cbn [existsb flat_map] in *.
      rewrite Hk; [|intros i Hi; apply K; right; apply in_or_app; auto]. apply IHk. intros i [<-|Hi]; apply K; [left; reflexivity|right; apply in_or_app; auto]. }
    apply K. intros i Hi. destruct (infos_document n i Hi) as (p & Hp). destruct (H i p Hp) as (A & B & C). unfold scripted. rewrite B, C.
    destruct (text_eqb (i_name i) (lit "script")) eqn:T; [apply (proj1 (text_eqb_spec _ _)) in T; contradiction|]. rewrite andb_false_r. reflexivity. }
  rewrite E in R. apply finish_sheets in R. cbn [sheets_opt] in R. rewrite R in Hrs. apply filter_In in Hrs. destruct Hrs as [Hrs _].
  apply in_map_iff in Hrs. destruct Hrs as (rs0 & <- & H0). unfold out in Hr. destruct (M _ _ _ _ Hr Hs) as (sels' & b' & H1 & H2). eapply swept_hit; eauto.
Qed.

(** ** For the examples *)
(** Rules without selectors are dropped, as lightningcss does. *)
Definition drop_empty : list rule -> list rule := filter (fun r => match r with RStyle [] _ => false | _ => true end).
Lemma drop_empty_singles rs : all_singles (drop_empty rs) = all_singles rs.
Proof.
  induction rs as [|r rs IH]; [reflexivity|]. unfold all_singles, drop_empty in *. cbn [filter flat_map].
  destruct r as [[|s sels] d|q l]; cbn [flat_map]; rewrite ?IH; reflexivity.
Qed.
Lemma applying_det other p l m : applying other p l m -> forall m', applying other p l m' -> m' = m.
Proof. induction 1; intros m' H'; inversion H'; subst; try contradiction; try reflexivity; [f_equal|]; auto. Qed.
Lemma drop_empty_invisible other : invisible other (fun _ l => l) drop_empty.
Proof. intros p rs a b m m' H H'. rewrite drop_empty_singles in H'. rewrite (applying_det _ _ _ _ H _ H'). reflexivity. Qed.
