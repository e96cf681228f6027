(** Lemmas about visitor runs. *)
From Coq Require Import List Bool.
From Verif Require Import VisitModel VisitSpec.
Import ListNotations.

Local Arguments call : simpl never.
Local Arguments andthen : simpl never.

Lemma tree_ind' (P : tree -> Prop) :
  (forall id k cs, Forall P cs -> P (Tree id k cs)) -> forall t, P t.
Proof.
  intros H. fix IH 1. intros [id k cs]. apply H.
  induction cs as [|c cs IHc]; constructor; auto.
Qed.

Lemma until_app bad a b :
  until_failure bad (a ++ b) =
  if existsb bad a then until_failure bad a else a ++ until_failure bad b.
Proof.
  induction a as [|e a IH]; simpl; auto. destruct (bad e); simpl; auto.
  rewrite IH. destruct (existsb bad a); auto.
Qed.

Lemma until_nofail bad a : existsb bad a = false -> until_failure bad a = a.
Proof.
  induction a as [|e a IH]; simpl; auto. destruct (bad e); simpl; [discriminate|].
  intros H. f_equal; auto.
Qed.

(** A run agrees with a trace: it emits the trace up to the first failure, is [Ok] iff nothing
    failed, and then leaves the given flags. *)
Definition agrees (cb : event -> outcome) (r : run) (es : list event) (fl : flags) : Prop :=
  let bad := fun e => fails (cb e) in
  fst (fst r) = until_failure bad es /\ snd r = negb (existsb bad es) /\
  (existsb bad es = false -> snd (fst r) = fl).

Lemma agrees_seq cb r es fl next es' fl' :
  agrees cb r es fl -> agrees cb (next fl) es' fl' -> agrees cb (andthen r next) (es ++ es') fl'.
Proof.
  intros (A1&A2&A3) (B1&B2&B3). destruct r as [[e1 f1] ok]. simpl in *. subst e1 ok.
  unfold agrees, andthen. simpl. rewrite until_app, existsb_app.
  destruct (existsb (fun e => fails (cb e)) es) eqn:E; simpl.
  - repeat split; auto. discriminate.
  - rewrite A3 in * by auto. destruct (next fl) as [[e2 f2] ok2]. simpl in *. subst.
    rewrite (until_nofail _ _ E). repeat split; auto.
Qed.

Lemma agrees_nil cb fl : agrees cb ([], fl, true) [] fl.
Proof. repeat split; auto. Qed.

Lemma agrees_call cb e fl fl' : snd (fst (call cb e fl)) = fl' -> agrees cb (call cb e fl) [e] fl'.
Proof.
  intros E. unfold agrees, call in *. simpl in *. destruct (fails (cb e)); simpl; auto.
Qed.

Lemma visit_trace cb : no_exit_skip cb -> forall t w,
  agrees cb (visit_node cb t (mkFlags w false))
    (trace (fun e => asks_skip (cb e)) w t) (mkFlags w false).
Proof.
  intros NE. apply (tree_ind' (fun t => forall w, agrees cb (visit_node cb t (mkFlags w false))
    (trace (fun e => asks_skip (cb e)) w t) (mkFlags w false))).
  intros id k cs IH w.
  assert (L : forall w, agrees cb (try_for_each (visit_node cb) cs (mkFlags w false))
            (flat_map (trace (fun e => asks_skip (cb e)) w) cs) (mkFlags w false)).
  { clear - IH. intros w. induction IH as [|c cs Hc _ IHc]; simpl; [apply agrees_nil|].
    eapply agrees_seq; [apply Hc|apply IHc]. }
  destruct k; simpl;
    try (apply agrees_call; reflexivity); try apply agrees_nil.
  - change (EvDocument id :: ?x) with ([EvDocument id] ++ x).
    eapply agrees_seq; [apply agrees_call; reflexivity|].
    eapply agrees_seq; [apply L|]. apply agrees_call; reflexivity.
  - set (w' := w || foreign_object).
    assert (Efl : (if negb w && foreign_object then mkFlags true false else mkFlags w false)
                  = mkFlags w' false).
    { unfold w'. destruct w, foreign_object; reflexivity. }
    rewrite Efl. simpl within_fo.
    change (EvElement id w' :: ?x) with ([EvElement id w'] ++ x).
    eapply agrees_seq; [apply agrees_call; reflexivity|]. simpl.
    destruct (asks_skip (cb (EvElement id w'))); simpl.
    + rewrite <- (app_nil_r [EvExitElement id w']).
      change (?f ([EvExitElement id w'] ++ [])) with (f ([] ++ ([EvExitElement id w'] ++ []))).
      eapply agrees_seq; [apply agrees_nil|]. simpl.
      change [EvExitElement id w'] with ([EvExitElement id w'] ++ []).
      eapply agrees_seq; [apply agrees_call; reflexivity|]. simpl. rewrite NE. simpl.
      replace (if negb w && foreign_object then mkFlags false false else mkFlags w' false)
        with (mkFlags w false); [apply agrees_nil|].
      unfold w'. destruct w, foreign_object; reflexivity.
    + eapply agrees_seq; [apply L|]. simpl.
      change [EvExitElement id w'] with ([EvExitElement id w'] ++ []).
      eapply agrees_seq; [apply agrees_call; reflexivity|]. simpl. rewrite NE. simpl.
      replace (if negb w && foreign_object then mkFlags false false else mkFlags w' false)
        with (mkFlags w false); [apply agrees_nil|].
      unfold w'. destruct w, foreign_object; reflexivity.
Qed.

Lemma entered_app a b : entered (a ++ b) = entered a ++ entered b.
Proof. unfold entered. apply flat_map_app. Qed.

(** Without skips every element is entered exactly once, in document order. *)
Lemma trace_elements : forall t w, entered (trace (fun _ => false) w t) = element_ids t.
Proof.
  apply (tree_ind' (fun t => forall w, entered (trace (fun _ => false) w t) = element_ids t)).
  intros id k cs IH w.
  assert (L : forall w, entered (flat_map (trace (fun _ => false) w) cs) = flat_map element_ids cs).
  { clear - IH. intros w. induction IH as [|c cs Hc _ IHc]; simpl; auto.
    rewrite entered_app, Hc, IHc. reflexivity. }
  destruct k; simpl; auto.
  - rewrite entered_app, L. simpl. apply app_nil_r.
  - change (entered (EvElement id (w || foreign_object) :: ?x)) with (id :: entered x).
    rewrite entered_app, L. simpl. rewrite app_nil_r. reflexivity.
Qed.

(** Every event of a trace is about a node of the tree. *)
Definition event_id (e : event) : nat :=
  match e with
  | EvDocument i | EvExitDocument i | EvElement i _ | EvExitElement i _ | EvStyle i | EvText i
  | EvComment i | EvDoctype i | EvPI i => i
  end.

Lemma trace_ids sk : forall t w e, In e (trace sk w t) -> In (event_id e) (tree_ids t).
Proof.
  apply (tree_ind' (fun t => forall w e, In e (trace sk w t) -> In (event_id e) (tree_ids t))).
  intros id k cs IH w e.
  assert (L : forall w, In e (flat_map (trace sk w) cs) -> In (event_id e) (flat_map tree_ids cs)).
  { intros w' H. rewrite in_flat_map in *. destruct H as (c & Hc & He). exists c; split; auto.
    rewrite Forall_forall in IH. eapply IH; eauto. }
  destruct k; simpl; try (intros [<-|[]]; left; reflexivity); try tauto.
  - rewrite in_app_iff. intros [<-|[H|[<-|[]]]]; eauto; left; reflexivity.
  - rewrite in_app_iff. destruct (sk _); intros [<-|[H|[<-|[]]]]; eauto; try (left; reflexivity).
    destruct H.
Qed.


Lemma nodup_app_intro {A} (l1 l2 : list A) :
  NoDup l1 -> NoDup l2 -> (forall x, In x l1 -> In x l2 -> False) -> NoDup (l1 ++ l2).
Proof.
  induction 1 as [|x l1 Hx H IH]; simpl; auto. intros N D. constructor.
  - rewrite in_app_iff. intros [E|E]; [auto|]. apply (D x); simpl; auto.
  - apply IH; auto. intros y Hy. apply D. right; auto.
Qed.

Lemma nodup_app_elim {A} (l1 l2 : list A) :
  NoDup (l1 ++ l2) -> NoDup l1 /\ NoDup l2 /\ (forall x, In x l1 -> In x l2 -> False).
Proof.
  induction l1 as [|x l1 IH]; simpl; intros H.
  - split; [constructor|]. split; [exact H|]. intros x [].
  - inversion H as [|? ? Hx H']; subst. destruct (IH H') as (A1&A2&A3).
    rewrite in_app_iff in Hx. repeat split; auto.
    + constructor; tauto.
    + intros y [<-|Hy] Hy2; [tauto|eauto].
Qed.

(** With distinct node ids no callback is called twice. *)
Lemma trace_nodup sk : forall t w, NoDup (tree_ids t) -> NoDup (trace sk w t).
Proof.
  apply (tree_ind' (fun t => forall w, NoDup (tree_ids t) -> NoDup (trace sk w t))).
  intros id k cs IH w N. simpl in N. inversion N as [|? ? Hid N']; subst.
  assert (L : forall w, NoDup (flat_map (trace sk w) cs)).
  { clear - IH N'. intros w. induction IH as [|c cs Hc _ IHc]; simpl; [constructor|].
    simpl in N'. apply nodup_app_elim in N' as (A1&A2&A3). apply nodup_app_intro; auto.
    intros e He1 He2. apply trace_ids in He1. apply (A3 _ He1).
    rewrite in_flat_map in *. destruct He2 as (c' & Hc' & He'). exists c'; split; auto.
    eapply trace_ids; eauto. }
  assert (M : forall w e, In e (flat_map (trace sk w) cs) -> event_id e <> id).
  { intros w' e He E. apply Hid. rewrite <- E. rewrite in_flat_map in *.
    destruct He as (c' & Hc' & He'). exists c'; split; auto. eapply trace_ids; eauto. }
  destruct k; simpl; try (solve [repeat (constructor; try (intros []))]).
  - constructor.
    + rewrite in_app_iff. intros [H|[H|[]]]; [|discriminate]. exact (M _ _ H eq_refl).
    + apply nodup_app_intro; auto; [constructor; [intros []|constructor]|].
      intros e He [<-|[]]. exact (M _ _ He eq_refl).
  - set (w' := w || foreign_object).
    assert (L' : NoDup (if sk (EvElement id w') then [] else flat_map (trace sk w') cs))
      by (destruct (sk _); [constructor|auto]).
    assert (M' : forall e, In e (if sk (EvElement id w') then [] else flat_map (trace sk w') cs) ->
                 event_id e <> id)
      by (destruct (sk _); [intros e []|apply M]).
    constructor.
    + rewrite in_app_iff. intros [H|[H|[]]]; [|discriminate]. exact (M' _ H eq_refl).
    + apply nodup_app_intro; auto; [constructor; [intros []|constructor]|].
      intros e He [<-|[]]. exact (M' _ He eq_refl).
Qed.

Lemma start_trace cb root w :
  no_exit_skip cb ->
  fst (fst (start PVisit cb root (mkFlags w false))) =
    until_failure (fun e => fails (cb e)) (trace (fun e => asks_skip (cb e)) w root) /\
  snd (start PVisit cb root (mkFlags w false)) =
    negb (existsb (fun e => fails (cb e)) (trace (fun e => asks_skip (cb e)) w root)).
Proof. intros H. destruct (visit_trace cb H root w) as (A & B & _). split; auto. Qed.
