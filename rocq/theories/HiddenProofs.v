From Coq Require Import String List NArith Bool Arith Lia.
From Verif Require Import Chars HiddenModel HiddenSpec.
Import ListNotations.

(** ** Small things *)
Lemma tree_induction : forall P : tree -> Prop, (forall n b, P (Node n b)) -> (forall n e kids, (forall k, In k kids -> P k) -> P (Elem n e kids)) -> forall t, P t.
Proof.
  intros P HN HE. fix IH 1. intros [n e kids|n b]; [|apply HN]. apply HE. induction kids as [|c kids IHk]; intros k Hk; [destruct Hk|].
  destruct Hk as [E|Hk]; [rewrite <- E; apply IH|exact (IHk k Hk)].
Qed.
Lemma kind_eqb_eq : forall a b, kind_eqb a b = true <-> a = b.
Proof. intros [] []; simpl; split; intros H; try reflexivity; discriminate. Qed.
Lemma has_num_In : forall n l, has_num n l = true <-> In n l.
Proof.
  intros n l. unfold has_num. rewrite existsb_exists. split.
  - intros (x & H & E). apply Nat.eqb_eq in E. subst. exact H.
  - intros H. exists n. split; [exact H|apply Nat.eqb_refl].
Qed.
Lemma has_num_out : forall n l, has_num n l = false <-> ~ In n l.
Proof. intros n l. rewrite <- has_num_In. destruct (has_num n l); split; intros; try discriminate; auto; congruence. Qed.
Lemma has_text_In : forall i l, has_text i l = true <-> In i l.
Proof.
  intros n l. unfold has_text. rewrite existsb_exists. split.
  - intros (x & H & E). apply text_eqb_spec in E. subst. exact H.
  - intros H. exists n. split; [exact H|apply text_eqb_refl].
Qed.
Lemma has_text_out : forall i l, has_text i l = false <-> ~ In i l.
Proof. intros n l. rewrite <- has_text_In. destruct (has_text n l); split; intros; try discriminate; auto; congruence. Qed.

Lemma deep_down : forall anc0 t0 anc n e kids, deep anc0 t0 anc (Elem n e kids) -> forall k, In k kids -> deep anc0 t0 (Elem n e kids :: anc) k.
Proof.
  intros anc0 t0 anc n e kids H. remember (Elem n e kids) as t eqn:E. induction H; intros c Hc; subst.
  - eapply deep_kid; [exact Hc|constructor].
  - eapply deep_kid; [eassumption|]. apply IHdeep; [reflexivity|exact Hc].
Qed.
Lemma at_down : forall doc anc n e kids k, at_ doc anc (Elem n e kids) -> In k kids -> at_ doc (Elem n e kids :: anc) k.
Proof. intros doc anc n e kids k (r & Hr & D) Hk. exists r. split; [exact Hr|]. eapply deep_down; eassumption. Qed.
Lemma deep_up : forall anc0 t0 anc t, deep anc0 t0 anc t -> t = t0 /\ anc = anc0 \/ exists up, anc = up ++ t0 :: anc0.
Proof.
  intros anc0 t0 anc t H. induction H.
  - left. split; reflexivity.
  - right. destruct IHdeep as [[-> ->]|(up & ->)].
    + exists []. reflexivity.
    + exists (up ++ [k]). rewrite <- app_assoc. reflexivity.
Qed.

(** The chain at a time is a prefix, and all of it when nothing of it is gone. *)
Lemma chain_firstn : forall s t anc, exists j, chain s (t :: anc) = firstn (S j) (t :: anc).
Proof.
  intros s t anc. revert t. induction anc as [|a anc IH]; intros t.
  - exists 0. simpl. destruct (is_gone s t); reflexivity.
  - cbn [chain]. destruct (is_gone s t).
    + exists 0. reflexivity.
    + destruct (IH a) as (j & E). exists (S j). cbn [chain] in E. rewrite E. reflexivity.
Qed.
Lemma chain_full : forall s l, (forall a, In a l -> ~ In (num a) (gone s)) -> chain s l = l.
Proof.
  intros s l. induction l as [|a l IH]; intros H; [reflexivity|]. simpl. unfold is_gone.
  rewrite (proj2 (has_num_out _ _) (H a (or_introl eq_refl))). rewrite IH; [reflexivity|]. intros b Hb. apply H. right. exact Hb.
Qed.
Lemma chain_full2 : forall s t l, is_gone s t = false -> (forall a, In a l -> ~ In (num a) (gone s)) -> chain s (t :: l) = t :: l.
Proof. intros s t l H F. cbn [chain]. rewrite H, chain_full; auto. Qed.

(** ** Looking below *)
Lemma within_cases : forall g t u, within g t u -> u = t \/ properly g t u.
Proof.
  intros g t u W. induction W as [|u c W IHW Hc Nc]; [left; reflexivity|]. right. destruct IHW as [->|(d & D1 & D2 & D3)].
  - exists c. split; [exact Hc|]. split; [exact Nc|constructor].
  - exists d. split; [exact D1|]. split; [exact D2|]. eapply within_kid; eassumption.
Qed.
Lemma below_kids : forall f s n e kids, below s f (Elem n e kids) = false -> forall k, In k kids -> is_gone s k = false ->
  match k with Elem _ e _ => f e | Node _ _ => false end = false /\ below s f k = false.
Proof.
  intros f s n e kids H k Hk L. cbn [below] in H. induction kids as [|c kids IHk]; [contradiction|].
  apply orb_false_iff in H. destruct H as [H1 H2]. destruct Hk as [->|Hk]; [|exact (IHk H2 Hk)].
  rewrite L in H1. simpl in H1. apply orb_false_iff in H1. exact H1.
Qed.
Lemma below_false : forall f s g, incl (gone s) g -> forall t, below s f t = false -> forall u, properly g t u -> forall m e l, u = Elem m e l -> f e = false.
Proof.
  intros f s g G t. induction t as [n b|n e kids IH] using tree_induction; intros H u (k & K1 & K2 & K3); [destruct K1|].
  cbn [kids_of] in K1. destruct (below_kids f s n e kids H k K1) as [S1 S2].
  { unfold is_gone. apply has_num_out. intro. apply K2, G. assumption. }
  destruct (within_cases _ _ _ K3) as [->|P].
  - intros m e' l ->. exact S1.
  - exact (IH k K1 S2 u P).
Qed.
Lemma can_remove_kids : forall s n e kids, can_remove s (Elem n e kids) = true -> forall k, In k kids -> is_gone s k = false -> can_remove s k = true.
Proof.
  intros s n e kids H k Hk L. cbn [can_remove] in H. apply andb_prop in H. destruct H as [_ H]. induction kids as [|c kids IHk]; [contradiction|].
  apply andb_prop in H. destruct H as [H1 H2]. destruct Hk as [->|Hk]; [|exact (IHk H2 Hk)]. rewrite L in H1. exact H1.
Qed.
Lemma can_remove_all : forall s g, incl (gone s) g -> forall t, can_remove s t = true -> forall u, within g t u -> forall i, name_of u = Some i -> ~ In i (all_refs s).
Proof.
  intros s g G t. induction t as [n b|n e kids IH] using tree_induction; intros H u W i N.
  - destruct (within_cases _ _ _ W) as [->|(k & K1 & _)]; [discriminate|contradiction].
  - destruct (within_cases _ _ _ W) as [->|(k & K1 & K2 & K3)].
    + cbn [can_remove] in H. apply andb_prop in H. destruct H as [H1 _]. cbn [name_of] in N. rewrite N in H1. apply negb_true_iff in H1. apply has_text_out. exact H1.
    + cbn [kids_of] in K1. assert (L : is_gone s k = false) by (unfold is_gone; apply has_num_out; intro; apply K2, G; assumption).
      exact (IH k K1 (can_remove_kids s n e kids H k K1 L) u K3 i N).
Qed.
Lemma is_empty_bare : forall s t g, is_empty s t = true -> incl (gone s) g -> bare g t.
Proof.
  intros s t g H G k Hk. unfold is_empty, live_kids in H. rewrite forallb_forall in H. destruct (is_gone s k) eqn:L.
  - left. apply G. apply has_num_In. exact L.
  - right. assert (In k (filter (fun k => negb (is_gone s k)) (kids_of t))) as I by (apply filter_In; rewrite L; split; [exact Hk|reflexivity]).
    apply H in I. destruct k as [|n b]; [discriminate|]. exists n. rewrite I. reflexivity.
Qed.

Inductive star (R : state -> state -> Prop) : state -> state -> Prop :=
| star_refl : forall s, star R s s
| star_step : forall s t u, R s t -> star R t u -> star R s u.
Lemma star_one : forall (R : state -> state -> Prop) s t, R s t -> star R s t.
Proof. intros. eapply star_step; [eassumption|constructor]. Qed.
Lemma star_trans : forall R s t u, star R s t -> star R t u -> star R s u.
Proof. intros R s t u H K. induction H; [exact K|]. eapply star_step; [eassumption|auto]. Qed.
Lemma star_inv : forall (R : state -> state -> Prop) (P : state -> Prop), (forall s t, R s t -> P s -> P t) -> forall s t, star R s t -> P s -> P t.
Proof. intros R P H s t S. induction S; auto. intros. apply IHS. eapply H; eassumption. Qed.
Lemma star_rel : forall (R : state -> state -> Prop) (Q : state -> state -> Prop), (forall s, Q s s) -> (forall s t u, Q s t -> Q t u -> Q s u) -> (forall s t, R s t -> Q s t) -> forall s t, star R s t -> Q s t.
Proof. intros R Q A B C s t S. induction S; [apply A|]. eapply B; [apply C; eassumption|assumption]. Qed.
(** The step that puts a number on the list. *)
Lemma star_added : forall (R : state -> state -> Prop) n s u, star R s u -> In n (gone u) -> In n (gone s) \/ exists a b, star R s a /\ R a b /\ ~ In n (gone a) /\ In n (gone b) /\ star R b u.
Proof.
  intros R n s u S. induction S as [s|s t u H S IH]; intros I; [left; exact I|].
  destruct (IH I) as [J|(a & b & A & B & C & D & F)].
  - destruct (in_dec Nat.eq_dec n (gone s)) as [K|K]; [left; exact K|]. right. exists s, t. split; [constructor|]. repeat split; assumption.
  - right. exists a, b. split; [eapply star_step; eassumption|]. repeat split; assumption.
Qed.

Section Run.
  Variable style_of : list tree -> option style.
  Variable o : options.
  Variable deoptimized : bool.
  Variable order : list tree -> list tree.
  Variable doc : list tree.
  Hypothesis order_incl : forall l, incl (order l) l.
  Notation at' := (at_ doc).
  Notation collect' := (collect style_of o).
  Notation hide' := (hide style_of o).

  Definition faint (s : state) (anc : list tree) (t : tree) : Prop := o_opacity o = true /\ exists st, style_of (chain s (t :: anc)) = Some st /\ s_opacity0 st = true.
  Definition cause1 (s : state) (anc : list tree) (t : tree) : Prop :=
    exists n e kids, t = Elem n e kids /\ faint s anc t /\ non_rendering (e_kind e) = false /\ e_kind e <> KPath.
  Definition test2 (s : state) (t : tree) (e : elem) (st : style) : bool :=
    fst (is_hidden_style o s t e st) || is_hidden_circle o s t e || is_hidden_ellipse o e || is_hidden_rect o s t e || is_hidden_pattern o e || is_hidden_image o e || is_hidden_path o e st || is_hidden_poly o e.
  Definition cause2 (s : state) (anc : list tree) (t : tree) : Prop :=
    exists n e kids st, t = Elem n e kids /\ style_of (chain s (t :: anc)) = Some st /\ test2 s t e st = true.

  Inductive step1 : state -> state -> Prop :=
  | s1_nr : forall anc n e kids s, at' anc (Elem n e kids) -> (non_rendering (e_kind e) = true \/ e_kind e = KPath /\ faint s anc (Elem n e kids)) -> step1 s (add_non_rendered s (Elem n e kids))
  | s1_defs : forall anc t s, at' anc t -> is_kind t KDefs = true -> step1 s (add_defs s t)
  | s1_use : forall anc n e kids h i s, at' anc (Elem n e kids) -> e_kind e = KUse -> In h (e_hrefs e) -> slice_one h = Some i -> step1 s (add_use s i n)
  | s1_kill : forall anc t s, at' anc t -> is_gone s t = false -> cause1 s anc t -> step1 s (remove_element s anc t).
  Inductive step2 : state -> state -> Prop :=
  | s2_kill : forall anc t s, at' anc t -> is_gone s t = false -> cause2 s anc t -> step2 s (remove_element s anc t)
  | s2_direct : forall anc t s, at' anc t -> is_gone s t = false -> cause2 s anc t -> step2 s (add_gone s (num t))
  | s2_again : forall t s, is_gone s t = true -> step2 s (add_gone s (num t))
  | s2_refs : forall s l, step2 s (add_refs s l).
  Inductive step3 : state -> state -> Prop :=
  | s3_use : forall i n s, In (i, n) (uses s) -> In i (removed_ids s) -> step3 s (add_gone s n)
  | s3_def : forall t s, deoptimized = false -> In t (non_rendered s) -> can_remove s t = true -> step3 s (add_gone s (num t))
  | s3_empty : forall t s, In t (all_defs s) -> is_empty s t = true -> step3 s (add_gone s (num t)).

  (** *** The passes are such steps *)
  Lemma hrefs_steps : forall anc n e kids, at' anc (Elem n e kids) -> e_kind e = KUse ->
    forall l, incl l (e_hrefs e) -> forall s s', ref_hrefs l n s = Some s' -> star step1 s s' /\ gone s' = gone s.
  Proof.
    intros anc n e kids A K l. induction l as [|h l IH]; intros I s s' H; cbn [ref_hrefs] in H.
    - injection H as <-. split; [constructor|reflexivity].
    - destruct (slice_one h) as [i|] eqn:E; [|discriminate]. destruct (IH (fun x Hx => I x (or_intror Hx)) _ _ H) as [S G].
      split; [|exact G]. eapply star_step; [|exact S]. eapply s1_use; [exact A|exact K| |exact E]. apply I. left. reflexivity.
  Qed.
  Lemma ref_steps : forall anc t s s', at' anc t -> ref_element s t = Some s' -> star step1 s s' /\ gone s' = gone s.
  Proof.
    intros anc t s s' A H. destruct t as [n e kids|n b]; cbn [ref_element] in H.
    - destruct (e_kind e) eqn:K; try (injection H as <-; split; [constructor|reflexivity]).
      + injection H as <-. split; [|reflexivity]. apply star_one. eapply s1_defs; [exact A|]. cbn [is_kind]. rewrite K. reflexivity.
      + eapply hrefs_steps; [exact A|exact K|apply incl_refl|exact H].
    - injection H as <-. split; [constructor|reflexivity].
  Qed.
  Lemma collect_eq : forall anc n e kids s, collect' anc (Elem n e kids) s =
    if non_rendering (e_kind e) then Done (add_non_rendered s (Elem n e kids))
    else match ref_element s (Elem n e kids) with
    | None => Panic
    | Some s =>
        match style_of (chain s (Elem n e kids :: anc)) with
        | None => Error
        | Some st =>
            if o_opacity o && s_opacity0 st && kind_eqb (e_kind e) KPath then Done (add_non_rendered s (Elem n e kids))
            else over (collect' (Elem n e kids :: anc)) kids (if o_opacity o && s_opacity0 st then remove_element s anc (Elem n e kids) else s)
        end
    end.
  Proof.
    intros anc n e kids s. cbn [collect]. destruct (non_rendering (e_kind e)); [reflexivity|]. destruct (ref_element s (Elem n e kids)) as [s1|]; [|reflexivity].
    destruct (style_of (chain s1 (Elem n e kids :: anc))) as [st|]; [|reflexivity]. destruct (o_opacity o && s_opacity0 st && kind_eqb (e_kind e) KPath); [reflexivity|].
    generalize (if o_opacity o && s_opacity0 st then remove_element s1 anc (Elem n e kids) else s1).
    generalize (Elem n e kids) at 1 2. intros self. induction kids as [|k kids IH]; intros x; [reflexivity|].
    cbn [over]. destruct (is_gone x k); [apply IH|]. destruct (collect' (self :: anc) k x); [apply IH|reflexivity|reflexivity].
  Qed.
  Lemma over_steps : forall (R : state -> state -> Prop) f l s s', (forall t, In t l -> forall s s', is_gone s t = false -> f t s = Done s' -> star R s s') -> over f l s = Done s' -> star R s s'.
  Proof.
    intros R f l. induction l as [|t l IH]; intros s s' F H; cbn [over] in H.
    - injection H as <-. constructor.
    - destruct (is_gone s t) eqn:L.
      + apply (IH s s'); [intros; eapply F; eauto; right; assumption|exact H].
      + destruct (f t s) as [s1| |] eqn:E; [|discriminate|discriminate]. eapply star_trans; [eapply (F t (or_introl eq_refl)); eassumption|].
        apply (IH s1 s'); [intros; eapply F; eauto; right; assumption|exact H].
  Qed.
  Lemma collect_steps : forall t anc s s', at' anc t -> is_gone s t = false -> collect' anc t s = Done s' -> star step1 s s'.
  Proof.
    intros t. induction t as [n b|n e kids IH] using tree_induction; intros anc s s' A L H.
    - injection H as <-. constructor.
    - rewrite collect_eq in H. destruct (non_rendering (e_kind e)) eqn:NR.
      { injection H as <-. apply star_one. eapply s1_nr; [exact A|left; exact NR]. }
      destruct (ref_element s (Elem n e kids)) as [s1|] eqn:R; [|discriminate].
      destruct (ref_steps _ _ _ _ A R) as [S1 G1].
      assert (L1 : is_gone s1 (Elem n e kids) = false) by (unfold is_gone in *; rewrite G1; exact L).
      destruct (style_of (chain s1 (Elem n e kids :: anc))) as [st|] eqn:ST; [|discriminate].
      destruct (o_opacity o && s_opacity0 st && kind_eqb (e_kind e) KPath) eqn:P.
      { injection H as <-. apply andb_prop in P. destruct P as [P1 P2]. apply andb_prop in P1. destruct P1 as [P0 P1]. apply kind_eqb_eq in P2.
        eapply star_trans; [exact S1|]. apply star_one. eapply s1_nr; [exact A|]. right. split; [exact P2|]. split; [exact P0|]. exists st. split; assumption. }
      set (s2 := if o_opacity o && s_opacity0 st then remove_element s1 anc (Elem n e kids) else s1) in *.
      assert (S2 : star step1 s1 s2).
      { subst s2. destruct (o_opacity o && s_opacity0 st) eqn:Q; [|constructor]. apply star_one. apply s1_kill; [exact A|exact L1|].
        exists n, e, kids. apply andb_prop in Q. destruct Q as [Q1 Q2]. split; [reflexivity|]. split; [split; [exact Q1|exists st; split; assumption]|]. split; [exact NR|].
        intros K. rewrite K in P. rewrite andb_true_l in P. simpl in P. discriminate. }
      eapply star_trans; [exact S1|]. eapply star_trans; [exact S2|]. eapply over_steps; [|exact H].
      intros k Hk s3 s4 L3 C. eapply IH; [exact Hk| |exact L3|exact C]. eapply at_down; eassumption.
  Qed.

  Lemma remove_element_gone : forall s anc t, is_gone s t = true -> remove_element s anc t = add_gone s (num t).
  Proof. intros s anc t H. unfold remove_element. rewrite H. reflexivity. Qed.
  Lemma is_gone_add : forall s t, is_gone (add_gone s (num t)) t = true.
  Proof. intros s t. unfold is_gone, has_num. cbn [add_gone gone existsb]. rewrite Nat.eqb_refl. reflexivity. Qed.
  (** The two flags of [is_hidden_style] are not both set. *)
  Definition acts2 (s : state) (anc : list tree) (t : tree) (e : elem) (st : style) : state :=
    let by_style := fst (is_hidden_style o s t e st) in
    let circle := negb by_style && is_hidden_circle o s t e in
    let s1 := if circle then add_gone s (num t) else s in
    if by_style || circle || is_hidden_ellipse o e || is_hidden_rect o s t e || is_hidden_pattern o e || is_hidden_image o e || is_hidden_path o e st || is_hidden_poly o e
    then remove_element s1 anc t else add_refs s1 (e_refs e).
  Lemma acts2_steps : forall s anc n e kids st, at' anc (Elem n e kids) -> is_gone s (Elem n e kids) = false -> style_of (chain s (Elem n e kids :: anc)) = Some st ->
    star step2 s (acts2 s anc (Elem n e kids) e st).
  Proof.
    intros s anc n e kids st A L ST. unfold acts2. cbv zeta. set (t := Elem n e kids) in *. set (bs := fst (is_hidden_style o s t e st)).
    destruct (negb bs && is_hidden_circle o s t e) eqn:C.
    - rewrite orb_true_r. cbn [orb]. rewrite remove_element_gone by apply is_gone_add.
      apply andb_prop in C. destruct C as [C1 C2].
      eapply star_step; [eapply s2_direct; [exact A|exact L|]|apply star_one; apply s2_again; apply is_gone_add].
      exists n, e, kids, st. split; [reflexivity|]. split; [exact ST|]. unfold test2. rewrite C2, orb_true_r. reflexivity.
    - destruct (bs || false || _ || _ || _ || _ || _ || _) eqn:T.
      + apply star_one. apply s2_kill; [exact A|exact L|]. exists n, e, kids, st. split; [reflexivity|]. split; [exact ST|].
        unfold test2. fold t bs. repeat rewrite orb_true_iff in *. intuition discriminate.
      + apply star_one. apply s2_refs.
  Qed.
  Lemma hide_eq : forall anc n e kids s, hide' anc (Elem n e kids) s =
    match style_of (chain s (Elem n e kids :: anc)) with
    | None => Error
    | Some st =>
        if snd (is_hidden_style o s (Elem n e kids) e st) then Done (acts2 s anc (Elem n e kids) e st)
        else over (hide' (Elem n e kids :: anc)) kids (acts2 s anc (Elem n e kids) e st)
    end.
  Proof.
    intros anc n e kids s. cbn [hide]. destruct (style_of (chain s (Elem n e kids :: anc))) as [st|]; [|reflexivity].
    unfold acts2. destruct (is_hidden_style o s (Elem n e kids) e st) as [bs skip]. cbn [fst snd]. cbv zeta. cbn [num]. destruct skip; [reflexivity|].
    match goal with |- _ kids ?x = over _ kids ?y => change y with x; generalize x end.
    generalize (Elem n e kids) at 1 2. intros self. induction kids as [|k kids IH]; intros x; [reflexivity|].
    cbn [over]. destruct (is_gone x k); [apply IH|]. destruct (hide' (self :: anc) k x); [apply IH|reflexivity|reflexivity].
  Qed.
  Lemma hide_steps : forall t anc s s', at' anc t -> is_gone s t = false -> hide' anc t s = Done s' -> star step2 s s'.
  Proof.
    intros t. induction t as [n b|n e kids IH] using tree_induction; intros anc s s' A L H.
    - injection H as <-. constructor.
    - rewrite hide_eq in H. destruct (style_of (chain s (Elem n e kids :: anc))) as [st|] eqn:ST; [|discriminate].
      pose proof (acts2_steps s anc n e kids st A L ST) as S1.
      destruct (snd _).
      + injection H as <-. exact S1.
      + eapply star_trans; [exact S1|]. eapply over_steps; [|exact H].
        intros k Hk s3 s4 L3 C. eapply IH; [exact Hk| |exact L3|exact C]. eapply at_down; eassumption.
  Qed.

  Definition same_rest (s s' : state) : Prop := uses s' = uses s /\ non_rendered s' = non_rendered s /\ all_defs s' = all_defs s /\ all_refs s' = all_refs s /\ removed_ids s' = removed_ids s.
  Lemma same_rest_trans : forall a b c, same_rest a b -> same_rest b c -> same_rest a c.
  Proof. unfold same_rest. intros a b c (A1 & A2 & A3 & A4 & A5) (B1 & B2 & B3 & B4 & B5). repeat split; congruence. Qed.
  Lemma fold_steps : forall {A} (g : state -> A -> bool) (num' : A -> nat) (P : A -> Prop) (l : list A) s,
    (forall a s1, same_rest s s1 -> In a l -> g s1 a = true -> step3 s1 (add_gone s1 (num' a))) ->
    let s' := fold_left (fun s a => if g s a then add_gone s (num' a) else s) l s in star step3 s s' /\ same_rest s s'.
  Proof.
    intros A g num' P l. induction l as [|a l IH]; intros s H; cbn [fold_left].
    - split; [constructor|repeat split].
    - destruct (g s a) eqn:E.
      + assert (R : same_rest s (add_gone s (num' a))) by (repeat split).
        destruct (IH (add_gone s (num' a))) as [S1 S2].
        * intros b s1 Hs Hb Hg. apply H; [exact (same_rest_trans _ _ _ R Hs)|right; exact Hb|exact Hg].
        * split; [|exact (same_rest_trans _ _ _ R S2)]. eapply star_step; [|exact S1]. apply H; [repeat split|left; reflexivity|exact E].
      + apply IH. intros b s1 Hs Hb Hg. apply H; [exact Hs|right; exact Hb|exact Hg].
  Qed.
  Lemma finish_steps : forall s, star step3 s (finish deoptimized order s).
  Proof.
    intros s. unfold finish. cbv zeta.
    destruct (fold_steps (fun s u => has_text (fst u) (removed_ids s)) snd (fun _ => True) (uses s) s) as [S1 R1].
    { intros [i n] s1 (H1 & _ & _ & _ & H5) Hu Hg. cbn [fst snd] in *. eapply s3_use; [rewrite H1; exact Hu|]. apply has_text_In. exact Hg. }
    eapply star_trans; [exact S1|]. cbv zeta in S1, R1.
    set (s1 := fold_left (fun s u => if has_text (fst u) (removed_ids s) then add_gone s (snd u) else s) (uses s) s) in *. clearbody s1.
    assert (S2 : star step3 s1 (if deoptimized then s1 else fold_left (fun s t => if can_remove s t then add_gone s (num t) else s) (non_rendered s1) s1)).
    { destruct deoptimized eqn:D; [constructor|]. apply (fold_steps can_remove num (fun _ => True)). intros t s2 (_ & H2 & _) Ht Hg. apply s3_def; [exact D|rewrite H2; exact Ht|exact Hg]. }
    eapply star_trans; [exact S2|]. set (s2 := if deoptimized then _ else _) in *. clearbody s2.
    apply (fold_steps is_empty num (fun _ => True)). intros t s3 (_ & _ & H3 & _) Ht Hg. apply s3_empty; [rewrite H3; apply order_incl; exact Ht|exact Hg].
  Qed.

  (** *** What steps keep *)
  Definition grows (s s' : state) : Prop := incl (gone s) (gone s') /\ incl (uses s) (uses s') /\ incl (all_refs s) (all_refs s').
  Lemma grows_refl : forall s, grows s s.
  Proof. intros s. repeat split; apply incl_refl. Qed.
  Lemma grows_trans : forall a b c, grows a b -> grows b c -> grows a c.
  Proof. intros a b c (A & B & C) (D & E & F). repeat split; eapply incl_tran; eassumption. Qed.
  Lemma remove_element_cases : forall s anc t, is_gone s t = false ->
    (gone (remove_element s anc t) = num t :: gone s \/
     exists p rest, anc = p :: rest /\ is_kind p KDefs = true /\ element_count s p = 1 /\ gone (remove_element s anc t) = num p :: gone s) /\
    uses (remove_element s anc t) = uses s /\ non_rendered (remove_element s anc t) = non_rendered s /\ all_defs (remove_element s anc t) = all_defs s /\ all_refs (remove_element s anc t) = all_refs s /\
    (removed_ids (remove_element s anc t) = removed_ids s \/ exists p rest i, anc = p :: rest /\ is_kind p KDefs = true /\ name_of t = Some i /\ removed_ids (remove_element s anc t) = i :: removed_ids s).
  Proof.
    intros s anc t L. unfold remove_element. rewrite L. destruct anc as [|p rest]; [repeat split; left; reflexivity|].
    destruct (is_kind p KDefs) eqn:K; [|repeat split; left; reflexivity].
    assert (C : forall i, element_count (add_removed_id s i) p = element_count s p) by reflexivity.
    destruct (name_of t) as [i|]; cbv zeta; [rewrite C|]; destruct (element_count s p =? 1) eqn:E.
    - apply Nat.eqb_eq in E. split; [right; exists p, rest; repeat split; auto|]. repeat split. right. exists p, rest, i. repeat split; auto.
    - split; [left; reflexivity|]. repeat split. right. exists p, rest, i. repeat split; auto.
    - apply Nat.eqb_eq in E. split; [right; exists p, rest; repeat split; auto|]. repeat split. left. reflexivity.
    - split; [left; reflexivity|]. repeat split. left. reflexivity.
  Qed.
  Lemma incl_cons_r : forall {A} (a : A) l k, k = a :: l -> incl l k.
  Proof. intros A a l k -> x H. right. exact H. Qed.
  Lemma kill_grows : forall s anc t, is_gone s t = false -> grows s (remove_element s anc t).
  Proof.
    intros s anc t L. destruct (remove_element_cases s anc t L) as (G & U & _ & _ & R & _). unfold grows. rewrite U, R.
    split; [|split; apply incl_refl]. destruct G as [G|(p & rest & _ & _ & _ & G)]; rewrite G; apply incl_tl, incl_refl.
  Qed.
  Lemma step1_grows : forall s s', step1 s s' -> grows s s'.
  Proof. intros s s' H. destruct H; try (unfold grows; cbn; repeat split; try apply incl_refl; apply incl_tl, incl_refl). apply kill_grows. assumption. Qed.
  Lemma step2_grows : forall s s', step2 s s' -> grows s s'.
  Proof.
    intros s s' H. destruct H; try (unfold grows; cbn; repeat split; try apply incl_refl; apply incl_tl, incl_refl); [apply kill_grows; assumption|].
    unfold grows; cbn; repeat split; try apply incl_refl. apply incl_appr, incl_refl.
  Qed.
  Lemma step3_grows : forall s s', step3 s s' -> grows s s'.
  Proof. intros s s' H. destruct H; (unfold grows; cbn; repeat split; try apply incl_refl; apply incl_tl, incl_refl). Qed.
  Lemma star1_grows : forall s s', star step1 s s' -> grows s s'.
  Proof. apply star_rel; [apply grows_refl|apply grows_trans|apply step1_grows]. Qed.
  Lemma star2_grows : forall s s', star step2 s s' -> grows s s'.
  Proof. apply star_rel; [apply grows_refl|apply grows_trans|apply step2_grows]. Qed.
  Lemma star3_grows : forall s s', star step3 s s' -> grows s s'.
  Proof. apply star_rel; [apply grows_refl|apply grows_trans|apply step3_grows]. Qed.
End Run.
