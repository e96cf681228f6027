(** Proofs about reusePaths: what is drawn after an addition. *)
From Coq Require Import String List NArith Bool Arith Lia.
From Verif Require Import Chars ClockModel ClockProofs ReuseModel ReuseSpec ReuseProofs.
Import ListNotations.

Lemma graft_subs : forall q f b t x,
  In x (subs (graft q f b t)) <-> (exists s, In s (subs t) /\ x = graft q f b s) \/ (In q (keys t) /\ In x (flat_map subs (f ++ b))).
Proof.
  intros q f b t. induction t as [j l IH] using tree_ind'. intros x. rewrite Forall_forall in IH. rewrite keys_node. cbn [graft subs In].
  rewrite !flat_map_app, !in_app_iff.
  assert (M : In x (flat_map subs (map (graft q f b) l)) <->
    (exists s, In s (flat_map subs l) /\ x = graft q f b s) \/ (In q (flat_map keys l) /\ (In x (flat_map subs f) \/ In x (flat_map subs b)))).
  { rewrite in_flat_map. split.
    - intros (u & U1 & U2). apply in_map_iff in U1. destruct U1 as (s & <- & S1). apply (IH s S1) in U2. rewrite flat_map_app, in_app_iff in U2.
      destruct U2 as [(v & V1 & V2)|(U2 & U3)].
      + left. exists v. split; [apply in_flat_map; exists s; split; assumption|exact V2].
      + right. split; [apply in_flat_map; exists s; split; assumption|exact U3].
    - intros [(v & V1 & V2)|(U1 & U3)].
      + apply in_flat_map in V1. destruct V1 as (s & S1 & S2). exists (graft q f b s). split; [apply in_map; exact S1|]. apply (IH s S1). left. exists v. split; assumption.
      + apply in_flat_map in U1. destruct U1 as (s & S1 & S2). exists (graft q f b s). split; [apply in_map; exact S1|]. apply (IH s S1). right.
        split; [exact S2|]. rewrite flat_map_app, in_app_iff. exact U3. }
  rewrite M. split.
  - intros [E|[I0|[[E|(I0 & I1)]|I0]]].
    + left. exists (Node j l). split; [left; reflexivity|]. symmetry. exact E.
    + right. destruct (Nat.eqb_spec j q) as [->|Nq]; [|destruct I0]. split; [left; reflexivity|left; exact I0].
    + left. destruct E as (s & S1 & S2). exists s. split; [right; exact S1|exact S2].
    + right. split; [right; exact I0|exact I1].
    + right. destruct (Nat.eqb_spec j q) as [->|Nq]; [|destruct I0]. split; [left; reflexivity|right; exact I0].
  - intros [(s & [S1|S1] & S2)|([->|I0] & I1)].
    + left. subst. reflexivity.
    + right. right. left. left. exists s. split; assumption.
    + rewrite Nat.eqb_refl. right. destruct I1 as [I1|I1]; [left; exact I1|right; right; exact I1].
    + right. right. left. right. split; assumption.
Qed.
Lemma graft_nil : forall q t, graft q [] [] t = t.
Proof.
  intros q t. induction t as [j l IH] using tree_ind'. cbn [graft]. f_equal.
  transitivity (map (graft q [] []) l ++ []); [destruct (Nat.eqb j q); reflexivity|]. rewrite app_nil_r.
  induction l as [|s l IHl]; [reflexivity|]. cbn [map]. rewrite (Forall_inv IH), (IHl (Forall_inv_tail IH)). reflexivity.
Qed.

Lemma find_app : forall A (P : A -> bool) l m, find P (l ++ m) = match find P l with Some x => Some x | None => find P m end.
Proof. intros A P l m. induction l as [|x l IH]; [reflexivity|]. cbn [app find]. destruct (P x); [reflexivity|exact IH]. Qed.
Definition says (d : doc) (i : text) (s : tree) : bool := match a_id (snd (cells d (root s))) with Some j => text_eqb i j | None => false end.
Lemma says_spec : forall d i s, says d i s = true <-> has_id d (root s) i.
Proof.
  intros d i s. unfold says, has_id. destruct (a_id (snd (cells d (root s)))) as [j|]; [|split; discriminate]. rewrite text_eqb_spec.
  split; [intros ->; reflexivity|intros E; injection E as ->; reflexivity].
Qed.
Lemma lookup_says : forall d i t, lookup d i t = find (says d i) (subs t).
Proof. reflexivity. Qed.

Section Ext.
  Variables (d d' : doc) (q : nat) (f b : list tree).
  Notation G := (graft q f b).

  Lemma lookup_graft : forall i t,
    (forall k, In k (keys t) -> (has_id d' k i <-> has_id d k i)) -> (forall s, In s (flat_map subs (f ++ b)) -> ~ has_id d' (root s) i) ->
    lookup d' i (G t) = option_map G (lookup d i t).
  Proof.
    intros i t. induction t as [j l IH] using tree_ind'. intros K F. rewrite !lookup_says. cbn [graft subs find].
    assert (E : says d' i (G (Node j l)) = says d i (Node j l)).
    { apply eq_true_iff_eq. rewrite !says_spec. cbn [graft root]. apply K. rewrite keys_node. left. reflexivity. }
    cbn [graft] in E. rewrite E. destruct (says d i (Node j l)); [reflexivity|].
    assert (N0 : forall m, incl m (f ++ b) -> find (says d' i) (flat_map subs m) = None).
    { intros m S0. destruct (find (says d' i) (flat_map subs m)) as [s|] eqn:W; [|reflexivity]. apply find_some in W. destruct W as [W1 W2].
      apply says_spec in W2. exfalso. apply (F s); [|exact W2]. apply in_flat_map in W1. destruct W1 as (u & U1 & U2). apply in_flat_map. exists u. split; [apply S0; exact U1|exact U2]. }
    rewrite !flat_map_app, !find_app. rewrite (N0 (if Nat.eqb j q then f else [])); [|destruct (Nat.eqb j q); [intros x X; apply in_app_iff; left; exact X|intros x []]].
    assert (M : find (says d' i) (flat_map subs (map G l)) = option_map G (find (says d i) (flat_map subs l))).
    { rewrite Forall_forall in IH. assert (K' : forall k, In k (flat_map keys l) -> (has_id d' k i <-> has_id d k i)) by (intros k I0; apply K; rewrite keys_node; right; exact I0).
      clear E K. induction l as [|s l IHl]; [reflexivity|]. cbn [map flat_map]. rewrite !find_app.
      rewrite <- !lookup_says. rewrite (IH s (or_introl eq_refl)); [|intros k I0; apply K'; cbn [flat_map]; apply in_app_iff; left; exact I0|exact F].
      destruct (lookup d i s); [reflexivity|]. cbn [option_map]. apply IHl.
      - intros u U. apply IH. right. exact U.
      - intros k I0. apply K'. cbn [flat_map]. apply in_app_iff. right. exact I0. }
    rewrite M. destruct (find (says d i) (flat_map subs l)); [reflexivity|]. cbn [option_map].
    apply N0. destruct (Nat.eqb j q); [intros x X; apply in_app_iff; right; exact X|intros x []].
  Qed.

  (** A path whose place is taken by a use. *)
  Definition replaced (k : nat) : Prop :=
    exists a a' s i p c, cells d k = (Path, a) /\ a_d a = Some s /\ a_style a = None /\ cells d' k = (Use, a')
      /\ a_turn a' = a_turn a /\ a_rest a' = a_rest a /\ a_fill a' = None /\ a_stroke a' = None /\ a_style a' = None /\ a_shift a' = None
      /\ a_href a' = Some (url i) /\ lookup d' i (shape d') = Some (Node p []) /\ cells d' p = (Path, c)
      /\ a_d c = Some s /\ a_fill c = a_fill a /\ a_stroke c = a_stroke a /\ a_style c = None /\ a_turn c = None /\ a_rest c = [].
  Definition kept (k : nat) : Prop :=
    fst (cells d' k) = fst (cells d k) /\ a_d (snd (cells d' k)) = a_d (snd (cells d k)) /\ a_href (snd (cells d' k)) = a_href (snd (cells d k))
    /\ forall e, within e (snd (cells d' k)) = within e (snd (cells d k)) /\ shifted e (snd (cells d' k)) = shifted e (snd (cells d k)).
  Hypothesis HS : shape d' = G (shape d).
  Hypothesis HR : forall i, referred d i -> lookup d' i (shape d') = option_map G (lookup d i (shape d)).
  Hypothesis HC : forall k, In k (keys (shape d)) -> replaced k \/ kept k.
  Hypothesis HF : fst (cells d q) = Defs \/ (forall e, draws_all d' e f [] /\ draws_all d' e b []).

  Lemma draws_app : forall e l m o o', draws_all d' e l o -> draws_all d' e m o' -> draws_all d' e (l ++ m) (o ++ o').
  Proof.
    intros e l. induction l as [|t l IH]; intros m o o' W W'; inversion W; subst; [exact W'|]. cbn [app]. rewrite <- app_assoc. constructor; [assumption|].
    apply IH; assumption.
  Qed.
  Lemma draws_ext :
    (forall e t o, draws d e t o -> In t (subs (shape d)) -> draws d' e (G t) o)
    /\ (forall e l o, draws_all d e l o -> incl l (subs (shape d)) -> draws_all d' e (map G l) o).
  Proof.
    apply (draws_both d (fun e t o _ => In t (subs (shape d)) -> draws d' e (G t) o) (fun e l o _ => incl l (subs (shape d)) -> draws_all d' e (map G l) o)).
    - intros e k l a s C D I0. destruct (HC k) as [R|(K1 & K2 & K3 & K4)]; [apply keys_In; exists l; exact I0| |].
      + destruct R as (a0 & a' & s' & i & p & c & R1 & R2 & R3 & R4 & R5 & R6 & R7 & R8 & R9 & R10 & R11 & R12 & R13 & R14 & R15 & R16 & R17 & R18 & R19).
        assert (a0 = a) by congruence. subst a0. assert (s' = s) by congruence. subst s'. cbn [graft]. eapply draws_use; [exact R4|exact R11|exact R12|].
        replace (within e a) with (within (shifted (within e a') a') c); [eapply draws_path; eassumption|].
        unfold within, shifted. cbn [e_fill e_stroke e_moves e_rest]. rewrite R5, R6, R7, R8, R9, R10, R15, R16, R17, R18, R19, R3. cbn [or_else].
        rewrite !app_nil_r. reflexivity.
      + rewrite C in K1, K2, K4. cbn [fst snd] in *. destruct (cells d' k) as [g a'] eqn:C'. cbn [fst snd] in *. subst g.
        rewrite <- (proj1 (K4 e)). cbn [graft]. eapply draws_path; [exact C'|congruence].
    - intros e k l a C D I0. destruct (HC k) as [R|(K1 & K2 & K3 & K4)]; [apply keys_In; exists l; exact I0| |].
      + destruct R as (a0 & a' & s' & i & p & c & R1 & R2 & _). congruence.
      + rewrite C in K1, K2. cbn [fst snd] in *. destruct (cells d' k) as [g a'] eqn:C'. cbn [fst snd] in *. subst g.
        cbn [graft]. eapply draws_nopath; [exact C'|congruence].
    - intros e k l a o C W IH I0. destruct (HC k) as [R|(K1 & K2 & K3 & K4)]; [apply keys_In; exists l; exact I0| |].
      + destruct R as (a0 & a' & s' & i & p & c & R1 & _). destruct C; congruence.
      + assert (A : snd (cells d k) = a) by (destruct C as [C|C]; rewrite C; reflexivity). rewrite A in K4.
        cbn [graft]. eapply draws_group with (a := snd (cells d' k)).
        * destruct C as [C|C]; [left|right]; rewrite C in K1; cbn [fst] in K1; rewrite <- K1; apply surjective_pairing.
        * rewrite (proj1 (K4 e)). assert (IH' : draws_all d' (within e a) (map G l) o).
          { apply IH. intros s S0. eapply subs_kid; [exact I0|exact S0]. }
          destruct (Nat.eqb_spec k q) as [->|Nq]; [|cbn [app]; rewrite app_nil_r; exact IH'].
          destruct HF as [F|F]; [destruct C as [C|C]; rewrite C in F; discriminate|]. destruct (F (within e a)) as [F1 F2].
          change o with ([] ++ o). rewrite <- (app_nil_r o). repeat apply draws_app; assumption.
    - intros e k l a C I0. destruct (HC k) as [R|(K1 & K2 & K3 & K4)]; [apply keys_In; exists l; exact I0| |].
      + destruct R as (a0 & a' & s' & i & p & c & R1 & _). destruct C; congruence.
      + cbn [graft]. eapply draws_hidden with (a := snd (cells d' k)). destruct C as [C|C]; [left|right]; rewrite C in K1; cbn [fst] in K1; rewrite <- K1; apply surjective_pairing.
    - intros e k l a i t o C Hh L W IH I0. assert (I1 : In k (keys (shape d))) by (apply keys_In; exists l; exact I0).
      destruct (HC k I1) as [R|(K1 & K2 & K3 & K4)].
      + destruct R as (a0 & a' & s' & i' & p & c & R1 & _). congruence.
      + rewrite C in K1, K3, K4. cbn [fst snd] in *. destruct (cells d' k) as [g a'] eqn:C'. cbn [fst snd] in *. subst g. cbn [graft].
        eapply draws_use; [exact C'|rewrite K3; exact Hh| |].
        * rewrite (HR i); [rewrite L; reflexivity|]. exists k. rewrite C. split; [exact I1|exact Hh].
        * rewrite (proj1 (K4 e)), (proj2 (K4 _)). apply IH. unfold lookup in L. apply find_some in L. exact (proj1 L).
    - intros e k l a C N0 I0. assert (I1 : In k (keys (shape d))) by (apply keys_In; exists l; exact I0).
      destruct (HC k I1) as [R|(K1 & K2 & K3 & K4)].
      + destruct R as (a0 & a' & s' & i' & p & c & R1 & _). congruence.
      + rewrite C in K1, K3. cbn [fst snd] in *. destruct (cells d' k) as [g a'] eqn:C'. cbn [fst snd] in *. subst g. cbn [graft].
        eapply draws_unused; [exact C'|]. intros i J. rewrite K3 in J. rewrite (HR i); [rewrite (N0 i J); reflexivity|]. exists k. rewrite C. split; [exact I1|exact J].
    - intros e I0. constructor.
    - intros e t l o o' W IH W' IH' I0. cbn [map]. constructor; [apply IH; apply I0; left; reflexivity|apply IH'; intros s S0; apply I0; right; exact S0].
  Qed.
  Lemma picture_ext : forall o, picture d o -> picture d' o.
  Proof. intros o W. unfold picture. rewrite HS. apply (proj1 draws_ext); [exact W|apply subs_self]. Qed.
End Ext.
