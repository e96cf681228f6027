From Coq Require Import String List NArith Bool Arith Lia.
From Verif Require Import Chars HiddenModel HiddenSpec HiddenProofs.
Import ListNotations.

Lemma deep_in : forall anc0 t0 anc t, deep anc0 t0 anc t -> forall p rest, anc = p :: rest -> In t (kids_of p) /\ deep anc0 t0 rest p \/ t = t0 /\ anc = anc0.
Proof.
  intros anc0 t0 anc t H. induction H; intros p rest E.
  - right. split; reflexivity.
  - left. destruct (IHdeep p rest E) as [[I D]|[-> ->]].
    + split; [exact I|]. eapply deep_kid; eassumption.
    + injection E as <- <-. split; [exact H|constructor].
Qed.
Lemma at_up : forall doc p rest t, at_ doc (p :: rest) t -> In t (kids_of p) /\ at_ doc rest p.
Proof.
  intros doc p rest t (r & Hr & D). destruct (deep_in _ _ _ _ D p rest eq_refl) as [[I D']|[_ E]]; [|discriminate].
  split; [exact I|]. exists r. split; assumption.
Qed.
Lemma slice_cons : forall h i, slice_one h = Some i -> exists c, h = c :: i.
Proof. intros [|c h] i H; [discriminate|]. simpl in H. destruct (c <? 128)%N; [|discriminate]. injection H as ->. exists c. reflexivity. Qed.
Lemma open_app : forall style_of doc up l, in_the_open style_of doc (up ++ l) -> in_the_open style_of doc l.
Proof. intros style_of doc up l. induction up as [|a up IH]; [auto|]. intros [_ H]. exact (IH H). Qed.

Section Run.
  Variable style_of : list tree -> option style.
  Variable o : options.
  Variable deoptimized : bool.
  Variable order : list tree -> list tree.
  Variable doc : list tree.
  Hypothesis order_incl : forall l, incl (order l) l.
  Notation at' := (at_ doc).
  Notation collect' := (collect style_of o).
  Notation hide' := (hide style_of o).
  Notation step1' := (step1 style_of o doc).
  Notation step2' := (step2 style_of o doc).
  Notation step3' := (step3 deoptimized).
  Notation unseen' := (unseen style_of o doc).
  Notation used' := (used doc).

  (** ** From causes to the specification *)
  Lemma cause1_unseen : forall g s anc t, cause1 style_of o s anc t -> unseen' g (chain s (t :: anc)) t.
  Proof. intros g s anc t (n & e & kids & -> & (O & st & ST & Z) & NR & P). eapply unseen_transparent; eassumption. Qed.
  Lemma cause2_unseen : forall g s anc t, incl (gone s) g -> (forall i, used' g i -> In i (map fst (uses s))) -> cause2 style_of o s anc t -> unseen' g (chain s (t :: anc)) t.
  Proof.
    intros g s anc t G U (n & e & kids & st & -> & ST & T). unfold test2 in T. set (t := Elem n e kids) in *.
    destruct (fst (is_hidden_style o s t e st)) eqn:B.
    - unfold is_hidden_style in B. cbv zeta in B.
      destruct (o_hidden o && s_hidden st && negb (below s e_visible t) || o_display o && s_none st && negb (kind_eqb (e_kind e) KMarker)) eqn:H; [|discriminate].
      destruct (used_name s e) eqn:N; [discriminate|]. cbn [fst] in B. apply negb_true_iff in B.
      eapply unseen_hidden; [exact ST| |].
      + apply orb_true_iff in H. destruct H as [H|H]; apply andb_prop in H; destruct H as [H1 H2]; apply andb_prop in H1; destruct H1 as [H0 H1].
        * left. split; [exact H0|]. split; [exact H1|]. apply negb_true_iff in H2. intros m f l P. eapply (below_false e_visible s g G t H2); [exact P|reflexivity].
        * right. split; [exact H0|]. split; [exact H1|]. intros K. rewrite K in H2. discriminate.
      + assert (Z : forall f, used_name s f = false -> forall i, e_name f = Some i -> ~ used' g i).
        { intros f F i E Hu. apply U in Hu. unfold used_name in F. rewrite E in F. apply has_text_out in F. contradiction. }
        intros u i W E. destruct (within_cases _ _ _ W) as [->|P]; [exact (Z e N i E)|].
        destruct u as [m f l|m b]; [|discriminate]. apply (Z f); [|exact E]. exact (below_false (used_name s) s g G t B _ P m f l eq_refl).
    - cbn [orb] in T. eapply unseen_void; [exact ST|]. fold t.
      repeat rewrite orb_true_iff in T. destruct T as [[[[[[T|T]|T]|T]|T]|T]|T].
      + unfold is_hidden_circle in T. repeat rewrite andb_true_iff in T. destruct T as [[[K E] O'] R]. apply kind_eqb_eq in K.
        apply void_circle; [exact O'|exact K|exact R|eapply is_empty_bare; eassumption].
      + unfold is_hidden_ellipse in T. repeat (rewrite andb_true_iff in T || rewrite orb_true_iff in T). destruct T as [K T]. apply kind_eqb_eq in K. apply void_ellipse; assumption.
      + unfold is_hidden_rect in T. repeat (rewrite andb_true_iff in T || rewrite orb_true_iff in T). destruct T as [[K E] T]. apply kind_eqb_eq in K.
        apply void_rect; [exact K|eapply is_empty_bare; eassumption|exact T].
      + unfold is_hidden_pattern in T. repeat (rewrite andb_true_iff in T || rewrite orb_true_iff in T). destruct T as [K T]. apply kind_eqb_eq in K. apply void_pattern; assumption.
      + unfold is_hidden_image in T. repeat (rewrite andb_true_iff in T || rewrite orb_true_iff in T). destruct T as [K T]. apply kind_eqb_eq in K. apply void_image; assumption.
      + unfold is_hidden_path in T. repeat rewrite andb_true_iff in T. destruct T as [[O' K] T]. apply kind_eqb_eq in K. apply void_path; [exact O'|exact K|].
        destruct (e_d e) as [d|]; [|left; reflexivity]. apply orb_true_iff in T. destruct T as [T|T].
        * apply Nat.eqb_eq in T. subst d. right. left. reflexivity.
        * apply andb_prop in T. destruct T as [T1 T2]. apply Nat.eqb_eq in T1. subst d. apply negb_true_iff in T2. right. right. split; [reflexivity|exact T2].
      + unfold is_hidden_poly in T. apply orb_true_iff in T. destruct T as [T|T]; repeat rewrite andb_true_iff in T; destruct T as [[O' K] T]; apply kind_eqb_eq in K; apply negb_true_iff in T.
        * apply void_polyline; assumption.
        * apply void_polygon; assumption.
  Qed.

  (** ** Where recorded things come from *)
  Definition from_use (s : state) : Prop := forall i n, In (i, n) (uses s) -> exists anc e kids c, at' anc (Elem n e kids) /\ e_kind e = KUse /\ In (c :: i) (e_hrefs e).
  Definition from_nr (s : state) : Prop := forall t, In t (non_rendered s) -> exists anc n e kids, t = Elem n e kids /\ at' anc t /\
    (non_rendering (e_kind e) = true \/ e_kind e = KPath /\ o_opacity o = true /\ exists j st, style_of (firstn (S j) (t :: anc)) = Some st /\ s_opacity0 st = true).
  Definition from_defs (s : state) : Prop := forall t, In t (all_defs s) -> exists anc, at' anc t /\ is_kind t KDefs = true.
  Definition from_ids (g : list nat) (s : state) : Prop := forall i, In i (removed_ids s) -> exists p rest x j, at' (p :: rest) x /\ is_kind p KDefs = true /\ name_of x = Some i /\
    unseen' g (firstn (S j) (x :: p :: rest)) x.
  Lemma from_use1 : forall s s', step1' s s' -> from_use s -> from_use s'.
  Proof.
    intros s s' H F. destruct H; try exact F.
    - intros j m [E|I]; [|exact (F j m I)]. injection E as <- <-. destruct (slice_cons _ _ H2) as (c & ->). exists anc, e, kids, c. repeat split; assumption.
    - intros j m. destruct (remove_element_cases s anc t H0) as (_ & E & _). rewrite E. apply F.
  Qed.
  Lemma uses2 : forall s s', step2' s s' -> uses s' = uses s /\ non_rendered s' = non_rendered s /\ all_defs s' = all_defs s.
  Proof. intros s s' H. destruct H; try (repeat split; reflexivity). destruct (remove_element_cases s anc t H0) as (_ & E & E2 & E3 & _). repeat split; assumption. Qed.
  Lemma uses2_star : forall s s', star step2' s s' -> uses s' = uses s /\ non_rendered s' = non_rendered s /\ all_defs s' = all_defs s.
  Proof.
    apply star_rel; [repeat split|intros a b c (A & B & C) (D & E & F); repeat split; congruence|exact uses2].
  Qed.
  Lemma rest3 : forall s s', star step3' s s' -> uses s' = uses s /\ non_rendered s' = non_rendered s /\ all_defs s' = all_defs s /\ all_refs s' = all_refs s /\ removed_ids s' = removed_ids s.
  Proof.
    apply star_rel; [repeat split|intros a b c (A & B & C & D & E) (A' & B' & C' & D' & E'); repeat split; congruence|].
    intros s s' H. destruct H; repeat split.
  Qed.
  Lemma from_nr1 : forall s s', step1' s s' -> from_nr s -> from_nr s'.
  Proof.
    intros s s' H F. destruct H; try exact F.
    - intros t [<-|I]; [|exact (F t I)]. exists anc, n, e, kids. split; [reflexivity|]. split; [assumption|]. destruct H0 as [N|(K & O & st & ST & Z)]; [left; exact N|].
      right. split; [exact K|]. split; [exact O|]. destruct (chain_firstn s (Elem n e kids) anc) as (j & E). exists j, st. rewrite <- E. split; assumption.
    - intros t'. destruct (remove_element_cases s anc t H0) as (_ & _ & E & _). rewrite E. apply F.
  Qed.
  Lemma from_defs1 : forall s s', step1' s s' -> from_defs s -> from_defs s'.
  Proof.
    intros s s' H F. destruct H; try exact F.
    - intros t' [<-|I]; [|exact (F t' I)]. exists anc. split; assumption.
    - intros t'. destruct (remove_element_cases s anc t H0) as (_ & _ & _ & E & _). rewrite E. apply F.
  Qed.
  Lemma from_ids_kill : forall g s anc t, is_gone s t = false -> at' anc t -> unseen' g (chain s (t :: anc)) t -> from_ids g s -> from_ids g (remove_element s anc t).
  Proof.
    intros g s anc t L A Un F i I. destruct (remove_element_cases s anc t L) as (_ & _ & _ & _ & _ & [E|(p & rest & i' & -> & K & N & E)]); rewrite E in I.
    - exact (F i I).
    - destruct I as [<-|I]; [|exact (F i I)]. destruct (chain_firstn s t (p :: rest)) as (j & C). exists p, rest, t, j. rewrite <- C. repeat split; assumption.
  Qed.
  Lemma from_ids1 : forall g s s', star step1' s s' -> from_ids g s -> from_ids g s'.
  Proof.
    intros g. apply star_inv. intros s s' H F. destruct H; try exact F. apply from_ids_kill; try assumption. apply cause1_unseen. assumption.
  Qed.
  Lemma from_ids2 : forall g s s', star step2' s s' -> incl (gone s') g -> (forall i, used' g i -> In i (map fst (uses s))) -> from_ids g s -> from_ids g s'.
  Proof.
    intros g s s' S. induction S as [s|s t u H S IH]; intros G U F; [exact F|]. apply IH; [exact G| |].
    - destruct (uses2 _ _ H) as [E _]. rewrite E. exact U.
    - assert (Gs : incl (gone s) g). { eapply incl_tran; [|exact G]. apply (star2_grows style_of o doc s u). eapply star_step; eassumption. }
      destruct H; try exact F. apply from_ids_kill; try assumption. eapply cause2_unseen; eassumption.
  Qed.

  (** ** The passes get to what is left *)
  Lemma over_reach : forall (R : state -> state -> Prop) f l s s' k, (forall t, In t l -> forall s s', is_gone s t = false -> f t s = Done s' -> star R s s') ->
    (forall a b, star R a b -> incl (gone a) (gone b)) -> over f l s = Done s' -> In k l -> ~ In (num k) (gone s') ->
    exists s1 s2, star R s s1 /\ is_gone s1 k = false /\ f k s1 = Done s2 /\ star R s2 s'.
  Proof.
    intros R f l. induction l as [|t l IH]; intros s s' k F M H K N; [destruct K|].
    assert (F' : forall t, In t l -> forall s s', is_gone s t = false -> f t s = Done s' -> star R s s') by (intros x Hx; apply F; right; exact Hx).
    cbn [over] in H. destruct (is_gone s t) eqn:L.
    - destruct K as [->|K].
      + exfalso. apply N. apply (M s s'); [eapply over_steps; eassumption|]. apply has_num_In. exact L.
      + eapply IH; eassumption.
    - destruct (f t s) as [s1| |] eqn:E; [|discriminate|discriminate]. destruct K as [->|K].
      + exists s, s1. split; [constructor|]. split; [exact L|]. split; [exact E|]. eapply over_steps; eassumption.
      + destruct (IH s1 s' k F' M H K N) as (s2 & s3 & S2 & L2 & E2 & S3). exists s2, s3. split; [|repeat split; assumption].
        eapply star_trans; [|exact S2]. eapply F; [left; reflexivity|exact L|exact E].
  Qed.
  Lemma collect_kids : forall anc n e kids, at' anc (Elem n e kids) -> forall k, In k kids -> forall s s', is_gone s k = false -> collect' (Elem n e kids :: anc) k s = Done s' -> star step1' s s'.
  Proof. intros anc n e kids A k K s s' L C. eapply collect_steps; [|exact L|exact C]. eapply at_down; eassumption. Qed.
  Lemma hide_kids : forall anc n e kids, at' anc (Elem n e kids) -> forall k, In k kids -> forall s s', is_gone s k = false -> hide' (Elem n e kids :: anc) k s = Done s' -> star step2' s s'.
  Proof. intros anc n e kids A k K s s' L C. eapply hide_steps; [|exact L|exact C]. eapply at_down; eassumption. Qed.
  Lemma hrefs_all : forall l n s s', ref_hrefs l n s = Some s' -> incl (uses s) (uses s') /\ forall c i, In (c :: i) l -> In i (map fst (uses s')).
  Proof.
    intros l n. induction l as [|h l IH]; intros s s' H; cbn [ref_hrefs] in H.
    - injection H as <-. split; [apply incl_refl|intros c i []].
    - destruct (slice_one h) as [i|] eqn:E; [|discriminate]. destruct (IH _ _ H) as [I J]. split.
      + eapply incl_tran; [|exact I]. apply incl_tl, incl_refl.
      + intros c i' [->|K]; [|exact (J c i' K)]. destruct (slice_cons _ _ E) as (c' & E'). injection E' as _ <-.
        apply in_map_iff. exists (i', n). split; [reflexivity|]. apply I. left. reflexivity.
  Qed.
  Lemma mono1 : forall a b, star step1' a b -> incl (gone a) (gone b).
  Proof. intros a b H. apply (star1_grows _ _ _ _ _ H). Qed.
  Lemma mono2 : forall a b, star step2' a b -> incl (gone a) (gone b).
  Proof. intros a b H. apply (star2_grows _ _ _ _ _ H). Qed.
  Lemma uses_up : forall a b i, star step1' a b -> In i (map fst (uses a)) -> In i (map fst (uses b)).
  Proof. intros a b i H I. destruct (star1_grows _ _ _ _ _ H) as (_ & U & _). apply in_map_iff in I. destruct I as (x & E & I). apply in_map_iff. exists x. split; [exact E|apply U; exact I]. Qed.

  Lemma collect_uses : forall t anc s s', at' anc t -> is_gone s t = false -> collect' anc t s = Done s' ->
    forall anc' u i, deep anc t anc' u -> left_in (gone s') anc' u -> Forall no_cover anc' -> refers u i -> In i (map fst (uses s')).
  Proof.
    intros t. induction t as [n b|n e kids IH] using tree_induction; intros anc s s' A L H anc' u i D Lf Nc Rf.
    - inversion D; subst. destruct Rf as (? & ? & ? & ? & E & _). discriminate.
    - rewrite collect_eq in H.
      assert (Cov : non_rendering (e_kind e) = false /\ (u = Elem n e kids \/ kind_eqb (e_kind e) KPath = false)).
      { destruct (deep_up _ _ _ _ D) as [[E _]|(up & E)].
        - subst u. destruct Rf as (? & ? & ? & ? & E & K & _). injection E as _ <- _. rewrite K. split; [reflexivity|left; reflexivity].
        - subst anc'. apply Forall_app in Nc. destruct Nc as [_ Nc]. inversion Nc as [|? ? N _]; subst. destruct (N n e kids eq_refl) as [N1 N2]. split; [exact N1|].
          right. destruct (kind_eqb (e_kind e) KPath) eqn:K; [|reflexivity]. apply kind_eqb_eq in K. contradiction. }
      destruct Cov as [NR Cov]. rewrite NR in H.
      destruct (ref_element s (Elem n e kids)) as [s1|] eqn:R; [|discriminate].
      destruct (ref_steps style_of o doc _ _ _ _ A R) as [S1 G1].
      assert (L1 : is_gone s1 (Elem n e kids) = false) by (unfold is_gone in *; rewrite G1; exact L).
      destruct (style_of (chain s1 (Elem n e kids :: anc))) as [st|] eqn:ST; [|discriminate].
      set (s2 := if o_opacity o && s_opacity0 st then remove_element s1 anc (Elem n e kids) else s1) in *.
      assert (Own : u = Elem n e kids -> In i (map fst (uses s1))).
      { intros ->. destruct Rf as (n' & e' & k' & c & E & K & I). injection E as <- <- <-. cbn [ref_element] in R. rewrite K in R. destruct (hrefs_all _ _ _ _ R) as [_ J]. exact (J c i I). }
      destruct (o_opacity o && s_opacity0 st && kind_eqb (e_kind e) KPath) eqn:P.
      { injection H as <-. destruct Cov as [->|Cov]; [exact (Own eq_refl)|]. rewrite Cov, andb_false_r in P. discriminate. }
      assert (U2 : uses s2 = uses s1). { subst s2. destruct (o_opacity o && s_opacity0 st); [|reflexivity]. apply (remove_element_cases s1 anc _ L1). }
      inversion D as [|? ? ? ? k ? ? Hk Dk]; subst.
      + assert (S3 : star step1' s2 s') by (eapply over_steps; [|exact H]; apply collect_kids; exact A).
        eapply uses_up; [exact S3|]. rewrite U2. apply Own. reflexivity.
      + assert (Nk : ~ In (num k) (gone s')).
        { destruct (deep_up _ _ _ _ Dk) as [[-> ->]|(up & ->)].
          - apply Lf. left. reflexivity.
          - apply Lf. right. apply in_or_app. right. left. reflexivity. }
        destruct (over_reach step1' _ _ _ _ k (collect_kids anc n e kids A) mono1 H Hk Nk) as (s3 & s4 & S3 & L3 & C & S4).
        eapply uses_up; [exact S4|]. eapply (IH k Hk); [eapply at_down; eassumption|exact L3|exact C|exact Dk| |exact Nc|exact Rf].
        intros a Ha I. apply (Lf a Ha). apply (mono1 _ _ S4). exact I.
  Qed.

  Lemma acts2_refs : forall s anc n e kids st, is_gone s (Elem n e kids) = false ->
    (forall a, In a (Elem n e kids :: anc) -> ~ In (num a) (gone (acts2 o s anc (Elem n e kids) e st))) ->
    incl (e_refs e) (all_refs (acts2 o s anc (Elem n e kids) e st)).
  Proof.
    intros s anc n e kids st L N. unfold acts2 in *. cbv zeta in *. set (t := Elem n e kids) in *.
    destruct (negb (fst (is_hidden_style o s t e st)) && is_hidden_circle o s t e).
    - exfalso. rewrite orb_true_r in N. cbn [orb] in N. rewrite remove_element_gone in N by apply is_gone_add. apply (N t); left; reflexivity.
    - destruct (fst (is_hidden_style o s t e st) || false || _ || _ || _ || _ || _ || _).
      + exfalso. destruct (remove_element_cases s anc t L) as [[G|(p & rest & E & _ & _ & G)] _]; rewrite G in N.
        * apply (N t); left; reflexivity.
        * apply (N p); [right; rewrite E; left; reflexivity|left; reflexivity].
      + cbn [add_refs all_refs]. apply incl_appl, incl_refl.
  Qed.
  Lemma hide_refs : forall t anc s s', at' anc t -> is_gone s t = false -> from_use s -> hide' anc t s = Done s' ->
    forall anc' n e kids i, deep anc t anc' (Elem n e kids) -> left_in (gone s') anc' (Elem n e kids) -> in_the_open style_of doc anc' -> In i (e_refs e) -> In i (all_refs s').
  Proof.
    intros t. induction t as [n b|n e kids IH] using tree_induction; intros anc s s' A L Fu H anc' n' e' kids' i D Lf Op I.
    - inversion D.
    - rewrite hide_eq in H. destruct (style_of (chain s (Elem n e kids :: anc))) as [st|] eqn:ST; [|discriminate].
      pose proof (acts2_steps style_of o doc s anc n e kids st A L ST) as S1. set (s1 := acts2 o s anc (Elem n e kids) e st) in *.
      inversion D as [|? ? ? ? k ? ? Hk Dk]; subst.
      + assert (S2 : star step2' s1 s').
        { destruct (snd _); [injection H as <-; constructor|]. eapply over_steps; [|exact H]. apply hide_kids. exact A. }
        destruct (star2_grows _ _ _ _ _ S2) as (G & _ & R). apply R. apply (acts2_refs s anc' n' e' kids' st L); [|exact I].
        intros a Ha J. apply (Lf a Ha). apply G. exact J.
      + assert (Path : exists up, anc' = up ++ Elem n e kids :: anc). { destruct (deep_up _ _ _ _ Dk) as [[_ ->]|(up & ->)]; [exists []; reflexivity|]. exists (up ++ [k]). rewrite <- app_assoc. reflexivity. }
        destruct Path as (up & Path).
        assert (S2 : star step2' s s') by (eapply hide_steps; [exact A|exact L|]; rewrite hide_eq, ST; exact H).
        destruct (snd (is_hidden_style o s (Elem n e kids) e st)) eqn:Sk.
        { exfalso. rewrite Path in Op. apply open_app in Op. destruct Op as [Op _]. apply Op.
          unfold is_hidden_style in Sk. cbv zeta in Sk.
          destruct (o_hidden o && s_hidden st && negb (below s e_visible (Elem n e kids)) || o_display o && s_none st && negb (kind_eqb (e_kind e) KMarker)) eqn:Hd; [|discriminate].
          destruct (used_name s e) eqn:N; [|discriminate]. unfold used_name in N. destruct (e_name e) as [j|] eqn:Nm; [|discriminate].
          apply has_text_In in N. apply in_map_iff in N. destruct N as ([j' m] & E & N). cbn [fst] in E. subst j'.
          destruct (Fu j m N) as (a & f & l & c & F1 & F2 & F3).
          exists (Elem n e kids), anc, st, j. split; [reflexivity|]. split.
          - rewrite <- ST. symmetry. f_equal. apply chain_full2; [exact L|]. intros x Hx J. apply (Lf x).
            + rewrite Path. right. apply in_or_app. right. right. exact Hx.
            + apply (mono2 _ _ S2). exact J.
          - split.
            + apply orb_true_iff in Hd. destruct Hd as [Hd|Hd]; repeat rewrite andb_true_iff in Hd; [left|right]; apply Hd.
            + split; [exact Nm|]. exists a, (Elem m f l). split; [exact F1|]. exists m, f, l, c. repeat split; assumption. }
        assert (Nk : ~ In (num k) (gone s')).
        { destruct (deep_up _ _ _ _ Dk) as [[Ek _]|(up' & Ek)].
          - rewrite <- Ek. apply Lf. left. reflexivity.
          - apply Lf. rewrite Ek. right. apply in_or_app. right. left. reflexivity. }
        destruct (over_reach step2' _ _ _ _ k (hide_kids anc n e kids A) mono2 H Hk Nk) as (s3 & s4 & S3 & L3 & C & S4).
        destruct (star2_grows _ _ _ _ _ S4) as (G4 & _ & R4). apply R4.
        eapply (IH k Hk); [eapply at_down; eassumption|exact L3| |exact C|exact Dk| |exact Op|exact I].
        * unfold from_use. destruct (uses2_star _ _ S3) as [E3 _]. destruct (uses2_star _ _ S1) as [E1 _]. rewrite E3. fold s1 in E1. rewrite E1. exact Fu.
        * intros a Ha J. apply (Lf a Ha). apply G4. exact J.
  Qed.

  (** ** All together *)
  Lemma one_left : forall s p c, element_count s p = 1 -> In c (kids_of p) -> is_elem c = true -> is_gone s c = false ->
    forall k, In k (kids_of p) -> is_elem k = true -> k = c \/ In (num k) (gone s).
  Proof.
    intros s p c E I El L k Ik Ek. destruct (is_gone s k) eqn:Lk; [right; apply has_num_In; exact Lk|]. left.
    unfold element_count in E. assert (M : forall x, In x (kids_of p) -> is_elem x = true -> is_gone s x = false -> In x (filter is_elem (live_kids s p))).
    { intros x X1 X2 X3. apply filter_In. split; [|exact X2]. unfold live_kids. apply filter_In. split; [exact X1|]. rewrite X3. reflexivity. }
    pose proof (M c I El L) as Mc. pose proof (M k Ik Ek Lk) as Mk. destruct (filter is_elem (live_kids s p)) as [|x [|y l]]; try discriminate.
    destruct Mc as [<-|[]]. destruct Mk as [<-|[]]. reflexivity.
  Qed.
  Lemma killed : forall g s anc t anc0 t0, unique doc -> at' anc t -> at' anc0 t0 -> is_gone s t = false -> incl (gone s) g -> unseen' g (chain s (t :: anc)) t -> is_elem t = true ->
    ~ In (num t0) (gone s) -> In (num t0) (gone (remove_element s anc t)) -> (forall a, In a anc0 -> ~ In (num a) g) -> why style_of o doc deoptimized g anc0 t0.
  Proof.
    intros g s anc t anc0 t0 Un A A0 L G S El N I Out. destruct (remove_element_cases s anc t L) as [[E|(p & rest & E1 & K & C & E)] _]; rewrite E in I.
    - destruct I as [I|I]; [|contradiction]. destruct (Un _ _ _ _ A A0 I) as [<- <-]. apply why_unseen.
      rewrite chain_full2 in S; [exact S|exact L|]. intros a Ha J. apply (Out a Ha). apply G. exact J.
    - destruct I as [I|I]; [|contradiction]. subst anc. destruct (at_up _ _ _ _ A) as [Ik Ap]. destruct (Un _ _ _ _ Ap A0 I) as [<- <-].
      apply why_last with (c := t); [exact K|exact Ik| |].
      + rewrite chain_full2 in S; [exact S|exact L|]. intros a [<-|Ha] J; [apply N; exact J|]. apply (Out a Ha). apply G. exact J.
      + intros k Hk Ek. destruct (one_left s p t C Ik El L k Hk Ek) as [->|J]; [left; reflexivity|right; apply G; exact J].
  Qed.
  Theorem reasons : forall f anc t, unique doc -> remove_hidden style_of o deoptimized order doc = Done f ->
    at' anc t -> In (num t) (gone f) -> (forall a, In a anc -> ~ In (num a) (gone f)) -> why style_of o doc deoptimized (gone f) anc t.
  Proof.
    intros f anc t Un H A I Out. unfold remove_hidden in H.
    destruct (over (collect' []) doc start) as [s1| |] eqn:H1; [|discriminate|discriminate].
    destruct (over (hide' []) doc s1) as [s2| |] eqn:H2; [|discriminate|discriminate]. injection H as H.
    assert (Roots : forall r, In r doc -> at' [] r) by (intros r Hr; exists r; split; [exact Hr|constructor]).
    assert (F1 : forall r, In r doc -> forall s s', is_gone s r = false -> collect' [] r s = Done s' -> star step1' s s') by (intros r Hr s s' L C; eapply collect_steps; [apply Roots; exact Hr|exact L|exact C]).
    assert (F2 : forall r, In r doc -> forall s s', is_gone s r = false -> hide' [] r s = Done s' -> star step2' s s') by (intros r Hr s s' L C; eapply hide_steps; [apply Roots; exact Hr|exact L|exact C]).
    assert (S1 : star step1' start s1) by (eapply over_steps; [exact F1|exact H1]).
    assert (S2 : star step2' s1 s2) by (eapply over_steps; [exact F2|exact H2]).
    assert (S3 : star step3' s2 f) by (rewrite <- H; apply finish_steps; exact order_incl).
    assert (M3 : incl (gone s2) (gone f)) by apply (star3_grows _ _ _ S3).
    assert (M2 : incl (gone s1) (gone f)) by (eapply incl_tran; [exact (mono2 _ _ S2)|exact M3]).
    set (g := gone f) in *.
    assert (Uses : forall i, used' g i -> In i (map fst (uses s1))).
    { intros i (a & u & (r & Hr & D) & Lf & Nc & Rf).
      assert (Nr : ~ In (num r) (gone s1)).
      { intros J. destruct (deep_up _ _ _ _ D) as [[-> ->]|(up & ->)]; apply (Lf r); [left; reflexivity|apply M2; exact J|right; apply in_or_app; right; left; reflexivity|apply M2; exact J]. }
      destruct (over_reach step1' _ _ _ _ r F1 mono1 H1 Hr Nr) as (x & y & X & L & C & Y).
      eapply uses_up; [exact Y|]. eapply (collect_uses r [] x y); [apply Roots; exact Hr|exact L|exact C|exact D| |exact Nc|exact Rf].
      intros b Hb J. apply (Lf b Hb). apply M2. apply (mono1 _ _ Y). exact J. }
    assert (P1 : from_use s1) by (apply (star_inv _ from_use from_use1 _ _ S1); intros i n []).
    assert (P2 : from_nr s1) by (apply (star_inv _ from_nr from_nr1 _ _ S1); intros x []).
    assert (P3 : from_defs s1) by (apply (star_inv _ from_defs from_defs1 _ _ S1); intros x []).
    assert (P4 : from_ids g s2) by (apply (from_ids2 g s1 s2 S2 M3 Uses); apply (from_ids1 g _ _ S1); intros x []).
    assert (Refs : forall i, referenced style_of doc g i -> In i (all_refs s2)).
    { intros i (a & n & e & kids & (r & Hr & D) & Lf & Op & Ri).
      assert (Nr : ~ In (num r) (gone s2)).
      { intros J. destruct (deep_up _ _ _ _ D) as [[E1 E2]|(up & E1)].
        - subst r a. apply (Lf (Elem n e kids)); [left; reflexivity|apply M3; exact J].
        - subst a. apply (Lf r); [right; apply in_or_app; right; left; reflexivity|apply M3; exact J]. }
      destruct (over_reach step2' _ _ _ _ r F2 mono2 H2 Hr Nr) as (x & y & X & L & C & Y).
      destruct (star2_grows _ _ _ _ _ Y) as (GY & _ & RY). apply RY.
      eapply (hide_refs r [] x y); [apply Roots; exact Hr|exact L| |exact C|exact D| |exact Op|exact Ri].
      - unfold from_use. destruct (uses2_star _ _ X) as [E _]. rewrite E. exact P1.
      - intros b Hb J. apply (Lf b Hb). apply M3. apply GY. exact J. }
    destruct (star_added _ (num t) _ _ S3 I) as [J|(a & b & Sa & St & Na & Ib & Sb)].
    - destruct (star_added _ (num t) _ _ S2 J) as [J1|(a & b & Sa & St & Na & Ib & Sb)].
      + destruct (star_added _ (num t) _ _ S1 J1) as [[]|(a & b & Sa & St & Na & Ib & Sb)].
        assert (Ga : incl (gone a) g). { eapply incl_tran; [|exact M2]. eapply incl_tran; [apply (step1_grows _ _ _ _ _ St)|exact (mono1 _ _ Sb)]. }
        destruct St; try contradiction. eapply killed; try eassumption; [apply cause1_unseen; assumption|]. destruct H4 as (? & ? & ? & -> & _). reflexivity.
      + assert (Ga : incl (gone a) g). { eapply incl_tran; [|exact M3]. eapply incl_tran; [apply (step2_grows _ _ _ _ _ St)|exact (mono2 _ _ Sb)]. }
        assert (Ua : forall i, used' g i -> In i (map fst (uses a))) by (destruct (uses2_star _ _ Sa) as [E _]; rewrite E; exact Uses).
        destruct St as [anc' t' s A' L' C'|anc' t' s A' L' C'|t' s L'|s l].
        * eapply killed; try eassumption; [eapply cause2_unseen; eassumption|]. destruct C' as (? & ? & ? & ? & -> & _). reflexivity.
        * destruct Ib as [Ib|Ib]; [|contradiction]. destruct (Un _ _ _ _ A' A Ib) as [<- <-]. apply why_unseen.
          rewrite <- (chain_full2 s t' anc' L'); [eapply cause2_unseen; eassumption|]. intros x Hx X. apply (Out x Hx). apply Ga. exact X.
        * exfalso. destruct Ib as [Ib|Ib]; [|contradiction]. apply Na. rewrite <- Ib. apply has_num_In. exact L'.
        * contradiction.
    - assert (Ga : incl (gone a) g). { eapply incl_tran; [apply (step3_grows _ _ _ St)|apply (star3_grows _ _ _ Sb)]. }
      destruct (rest3 _ _ Sa) as (E1 & E2 & E3 & E4 & E5). destruct (uses2_star _ _ S2) as (D1 & D2 & D3).
      destruct St as [i n s Iu Ii|t' s De It Cr|t' s It Em]; (destruct Ib as [Ib|Ib]; [|contradiction]).
      + rewrite E1, D1 in Iu. destruct (P1 i n Iu) as (a & e & kids & c & A' & K & Ih). destruct (Un _ _ _ _ A' A Ib) as [<- <-].
        rewrite E5 in Ii. destruct (P4 i Ii) as (p & rest & x & j & X1 & X2 & X3 & X4).
        eapply why_use; [|exact X1|exact X2|exact X3|exact X4]. exists n, e, kids, c. repeat split; assumption.
      + rewrite E2, D2 in It. destruct (P2 t' It) as (a & n & e & kids & -> & A' & Why). destruct (Un _ _ _ _ A' A Ib) as [<- <-].
        apply why_unreferenced; [exact De|exact Why|]. intros u i W N R. apply (can_remove_all s g Ga _ Cr u W i N). rewrite E4. apply Refs. exact R.
      + rewrite E3, D3 in It. destruct (P3 t' It) as (a & A' & K). destruct (Un _ _ _ _ A' A Ib) as [<- <-].
        apply why_empty; [exact K|]. eapply is_empty_bare; eassumption.
  Qed.

  (** ** Definitions that stay *)
  Lemma definition_stays : forall f anc n e kids, unique doc -> remove_hidden style_of o deoptimized order doc = Done f ->
    at' anc (Elem n e kids) -> (forall a, In a anc -> ~ In (num a) (gone f)) -> non_rendering (e_kind e) = true ->
    ~ unseen' (gone f) (Elem n e kids :: anc) (Elem n e kids) ->
    (exists u i, within (gone f) (Elem n e kids) u /\ name_of u = Some i /\ referenced style_of doc (gone f) i) ->
    left_in (gone f) anc (Elem n e kids).
  Proof.
    intros f anc n e kids Un H A Out NR Vis (u & i & W & N & R) x [<-|Hx]; [|apply Out; exact Hx]. intros I.
    pose proof (reasons f anc _ Un H A I Out) as Wy. inversion Wy as [? U|? c K|? j p rest y k Rf|n' e' k' De Y Z|? K B]; subst.
    - contradiction.
    - cbn [is_kind] in K. apply kind_eqb_eq in K. rewrite K in NR. discriminate.
    - destruct Rf as (? & ? & ? & ? & E & K & _). injection E as _ <- _. rewrite K in NR. discriminate.
    - exact (Z u i W N R).
    - cbn [is_kind] in K. apply kind_eqb_eq in K. rewrite K in NR. discriminate.
  Qed.
  (** ** Elements that are used *)
  Lemma used_stays : forall f anc n e kids, unique doc -> remove_hidden style_of o deoptimized order doc = Done f ->
    at' anc (Elem n e kids) -> (forall a, In a anc -> ~ In (num a) (gone f)) ->
    non_rendering (e_kind e) = false -> e_kind e <> KDefs -> e_kind e <> KUse ->
    (forall st, style_of (Elem n e kids :: anc) = Some st -> (o_opacity o = true -> s_opacity0 st = false) /\ ~ void o (gone f) (Elem n e kids) st e) ->
    (e_kind e = KPath -> o_opacity o = false \/ forall j st, style_of (firstn (S j) (Elem n e kids :: anc)) = Some st -> s_opacity0 st = false) ->
    (exists u i, within (gone f) (Elem n e kids) u /\ name_of u = Some i /\ used' (gone f) i) ->
    left_in (gone f) anc (Elem n e kids).
  Proof.
    intros f anc n e kids Un H A Out NR ND NU Vis Pth (u & i & W & N & R) x [<-|Hx]; [|apply Out; exact Hx]. intros I.
    pose proof (reasons f anc _ Un H A I Out) as Wy. inversion Wy as [? U|? c K|? j p rest y k Rf|n' e' k' De Y Z|? K B]; subst.
    - inversion U as [n' e' k' st ST O Z NR' P|n' e' k' st ST Hd Us|n' e' k' st ST V]; subst.
      + destruct (Vis st ST) as [V _]. rewrite (V O) in Z. discriminate.
      + exact (Us u i W N R).
      + destruct (Vis st ST) as [_ V']. contradiction.
    - cbn [is_kind] in K. apply kind_eqb_eq in K. contradiction.
    - destruct Rf as (? & ? & ? & ? & E & K & _). injection E as _ <- _. contradiction.
    - destruct Y as [Y|(K & O & j & st & ST & Z')]; [rewrite Y in NR; discriminate|]. destruct (Pth K) as [P|P]; [congruence|]. rewrite (P j st ST) in Z'. discriminate.
    - cbn [is_kind] in K. apply kind_eqb_eq in K. contradiction.
  Qed.

  (** ** No panic *)
  Lemma hide_no_panic : forall t anc s, hide' anc t s <> Panic.
  Proof.
    intros t. induction t as [n b|n e kids IH] using tree_induction; intros anc s; [discriminate|].
    rewrite hide_eq. destruct (style_of _) as [st|]; [|discriminate]. destruct (snd _); [discriminate|]. generalize (acts2 o s anc (Elem n e kids) e st).
    assert (IH' : forall k, In k kids -> forall s, hide' (Elem n e kids :: anc) k s <> Panic) by (intros k Hk s'; apply IH; exact Hk). revert IH'. generalize (Elem n e kids :: anc). clear. intros l IH'.
    induction kids as [|k kids IHk]; intros s; [discriminate|]. cbn [over]. destruct (is_gone s k); [apply IHk; intros; apply IH'; right; assumption|].
    pose proof (IH' k (or_introl eq_refl) s) as N. destruct (hide' l k s); [apply IHk; intros; apply IH'; right; assumption|discriminate|contradiction].
  Qed.
  Lemma over_no_panic : forall f l s, (forall t s, In t l -> f t s <> Panic) -> over f l s <> Panic.
  Proof.
    intros f l. induction l as [|t l IH]; intros s F; [discriminate|]. cbn [over]. destruct (is_gone s t); [apply IH; intros; apply F; right; assumption|].
    pose proof (F t s (or_introl eq_refl)) as N. destruct (f t s); [apply IH; intros; apply F; right; assumption|discriminate|contradiction].
  Qed.
  Lemma hrefs_no_panic : forall l n s, (forall h, In h l -> ascii_start h) -> ref_hrefs l n s <> None.
  Proof.
    intros l n. induction l as [|h l IH]; intros s F; [discriminate|]. cbn [ref_hrefs]. destruct (F h (or_introl eq_refl)) as (c & i & -> & Lt).
    cbn [slice_one]. apply N.ltb_lt in Lt. rewrite Lt. apply IH. intros h' Hh. apply F. right. exact Hh.
  Qed.
  Lemma collect_no_panic : forall t anc s, (forall anc' n e kids h, deep anc t anc' (Elem n e kids) -> e_kind e = KUse -> In h (e_hrefs e) -> ascii_start h) -> collect' anc t s <> Panic.
  Proof.
    intros t. induction t as [n b|n e kids IH] using tree_induction; intros anc s F; [discriminate|].
    rewrite collect_eq. destruct (non_rendering (e_kind e)); [discriminate|].
    destruct (ref_element s (Elem n e kids)) as [s1|] eqn:R.
    - destruct (style_of _) as [st|]; [|discriminate]. destruct (_ && _ && _); [discriminate|]. apply over_no_panic. intros k s' Hk. apply IH; [exact Hk|].
      intros anc' n' e' k' h D. apply (F anc' n' e' k' h). eapply deep_kid; eassumption.
    - exfalso. cbn [ref_element] in R. destruct (e_kind e) eqn:K; try discriminate. eapply hrefs_no_panic; [|exact R]. intros h Hh. eapply (F anc n e kids h); [constructor|exact K|exact Hh].
  Qed.
  Lemma no_panic : (forall anc n e kids h, at' anc (Elem n e kids) -> e_kind e = KUse -> In h (e_hrefs e) -> ascii_start h) -> remove_hidden style_of o deoptimized order doc <> Panic.
  Proof.
    intros F. unfold remove_hidden.
    assert (C : over (collect' []) doc start <> Panic).
    { apply over_no_panic. intros t s Ht. apply collect_no_panic. intros anc' n e kids h D. apply (F anc' n e kids h). exists t. split; assumption. }
    destruct (over (collect' []) doc start) as [s1| |]; [|discriminate|contradiction].
    assert (C2 : over (hide' []) doc s1 <> Panic) by (apply over_no_panic; intros; apply hide_no_panic).
    destruct (over (hide' []) doc s1); [discriminate|discriminate|contradiction].
  Qed.
End Run.

(** ** Numbers tell nodes apart *)
Lemma numbers_elem : forall n e kids, numbers (Elem n e kids) = n :: flat_map numbers kids.
Proof. intros n e kids. cbn [numbers]. f_equal; induction kids as [|k kids IH]; try reflexivity. Qed.
Lemma deep_number : forall anc0 t0 anc t, deep anc0 t0 anc t -> In (num t) (numbers t0).
Proof.
  intros anc0 t0 anc t H. induction H.
  - destruct t; [rewrite numbers_elem|]; left; reflexivity.
  - rewrite numbers_elem. right. apply in_flat_map. exists k. split; assumption.
Qed.
Lemma flat_apart : forall (l : list tree) x a b, NoDup (flat_map numbers l) -> In a l -> In b l -> In x (numbers a) -> In x (numbers b) -> a = b.
Proof.
  intros l x a b. induction l as [|t l IH]; intros N A B Xa Xb; [destruct A|]. cbn [flat_map] in N. 
  assert (D : forall y, In y (numbers t) -> ~ In y (flat_map numbers l)).
  { clear - N. induction (numbers t) as [|z k IHk]; intros y Hy; [destruct Hy|]. inversion N as [|? ? N1 N2]; subst. destruct Hy as [<-|Hy].
    - intros I. apply N1. apply in_or_app. right. exact I.
    - apply (IHk N2). assumption. }
  assert (N' : NoDup (flat_map numbers l)). { clear - N. induction (numbers t); [exact N|]. inversion N. auto. }
  destruct A as [<-|A]; destruct B as [<-|B]; [reflexivity| | |exact (IH N' A B Xa Xb)].
  - exfalso. apply (D x Xa). apply in_flat_map. exists b. split; assumption.
  - exfalso. apply (D x Xb). apply in_flat_map. exists a. split; assumption.
Qed.
Lemma flat_part : forall (l : list tree) a, NoDup (flat_map numbers l) -> In a l -> NoDup (numbers a).
Proof.
  intros l a. induction l as [|t l IH]; intros N A; [destruct A|]. cbn [flat_map] in N. destruct A as [<-|A].
  - clear - N. induction (numbers t) as [|z k IHk]; [constructor|]. inversion N as [|? ? N1 N2]; subst. constructor; [|exact (IHk N2)].
    intros I. apply N1. apply in_or_app. left. exact I.
  - apply IH; [|exact A]. clear - N. induction (numbers t); [exact N|]. inversion N. auto.
Qed.
Lemma deep_unique : forall t0 anc0, NoDup (numbers t0) -> forall a t b u, deep anc0 t0 a t -> deep anc0 t0 b u -> num t = num u -> a = b /\ t = u.
Proof.
  intros t0. induction t0 as [n b|n e kids IH] using tree_induction; intros anc0 N a t b' u D1 D2 E.
  - inversion D1; inversion D2; subst. split; reflexivity.
  - rewrite numbers_elem in N. inversion N as [|? ? N1 N2]; subst.
    inversion D1 as [|? ? ? ? k1 ? ? K1 G1]; inversion D2 as [|? ? ? ? k2 ? ? K2 G2]; subst.
    + split; reflexivity.
    + exfalso. apply N1. apply in_flat_map. exists k2. split; [exact K2|]. change n with (num (Elem n e kids)). rewrite E. eapply deep_number; exact G2.
    + exfalso. apply N1. apply in_flat_map. exists k1. split; [exact K1|]. change n with (num (Elem n e kids)). rewrite <- E. eapply deep_number; exact G1.
    + assert (k1 = k2) as <-.
      { eapply flat_apart; [exact N2|exact K1|exact K2|eapply deep_number; exact G1|]. rewrite E. eapply deep_number; exact G2. }
      eapply (IH k1 K1); [eapply flat_part; eassumption|exact G1|exact G2|exact E].
Qed.
Lemma numbers_unique : forall doc, NoDup (all_numbers doc) -> unique doc.
Proof.
  intros doc N a t b u (r & R & D) (q & Q & F) E.
  assert (r = q) as <-.
  { eapply flat_apart; [exact N|exact R|exact Q|eapply deep_number; exact D|]. rewrite E. eapply deep_number; exact F. }
  eapply deep_unique; [eapply flat_part; eassumption|exact D|exact F|exact E].
Qed.
Fixpoint elems (t : tree) : list elem :=
  match t with Elem _ e kids => e :: (fix go (l : list tree) : list elem := match l with [] => [] | k :: l => elems k ++ go l end) kids | Node _ _ => [] end.
Lemma elems_eq : forall n e kids, elems (Elem n e kids) = e :: flat_map elems kids.
Proof. intros n e kids. cbn [elems]. f_equal; induction kids as [|k kids IH]; try reflexivity. Qed.
Lemma at_elems : forall doc anc n e kids, at_ doc anc (Elem n e kids) -> In e (flat_map elems doc).
Proof.
  intros doc anc n e kids (r & R & D). apply in_flat_map. exists r. split; [exact R|]. clear R. remember (Elem n e kids) as t eqn:E. induction D; subst.
  - rewrite elems_eq. left. reflexivity.
  - rewrite elems_eq. right. apply in_flat_map. exists k. split; [assumption|apply IHD; reflexivity].
Qed.
