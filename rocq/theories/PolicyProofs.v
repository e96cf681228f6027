From Coq Require Import List Arith Bool Lia.
From Verif Require Import DomModel DomSpec WalkModel WalkSpec WalkProofs WalkOps WalkOps2 WalkOps3 PolicyModel PolicySpec.
Import ListNotations.

Section Proofs.
  Context {D : Type}.
  Variable is_elem : D -> bool.
  Variable plan : nat -> edit.
  Notation X := (list call).
  Notation edited := (edited is_elem plan).
  Notation calls := (calls is_elem).

  Definition p_enter (x : X) (c : @around D) (t : wtree D) (x' : X) (act : @enter_act D) : Prop :=
    x' = x ++ [CElement (wid t)] /\
    act = match plan (wid t) with RemoveFirst => ERemove | _ => EKeep false (wdata t) (wkids t) end.
  Definition p_exit (x : X) (c : @around D) (t : wtree D) (x' : X) (out : list (wtree D)) : Prop :=
    x' = x ++ [CExit (wid t)] /\
    out = match plan (wid t) with RemoveLast => [] | Unwrap => wkids t | _ => [t] end.
  Definition p_leaf (x : X) (c : @around D) (t : wtree D) (x' : X) (out : list (wtree D)) : Prop :=
    x' = x ++ [CNode (wid t)] /\ out = match plan (wid t) with Leave => [t] | _ => [] end.
  Definition p_gone (x : X) (t : wtree D) (x' : X) : Prop := x' = x ++ [CExit (wid t)] /\ plan (wid t) = RemoveFirst.

  Lemma aux_place (s : wstate D X) anc l x : place s anc l -> place (put_aux s x) anc l.
  Proof.
    assert (Hab : forall anc, above s anc -> above (put_aux s x) anc).
    { induction anc0 as [|[p d] r IH]; [auto|]. cbn [above]. intros (a & b & c). split; [exact a|]. split; [exact b|]. apply IH, c. }
    assert (Hh : forall t, holds s t -> holds (put_aux s x) t).
    { intros t H. eapply holds_same; [exact H|]. intros m _. split; reflexivity. }
    destruct anc as [|[p d] r]; [auto|]. intros (a & (b1 & b2) & c). split; [apply Hab, a|]. split; [|exact c]. split; [exact b1|].
    eapply Forall_impl; [|exact b2]. exact Hh.
  Qed.

  Lemma p_enter_ok : enter_ok p_enter (plan_enter D plan).
  Proof.
    intros x anc A B t x' act (Ex & Ha). exists 0. intros f s _ Hx P. apply (aux_place _ _ _ x') in P. unfold plan_enter.
    rewrite Hx, <- Ex, Ha.
    assert (K : forall (skip : bool), skip = false -> made_of t [W (wid t) (wdata t) (wkids t)] /\
      exists s', Some (put_aux s x', skip) = Some (s', false) /\ w_aux s' = x' /\
        below s' (owner anc) (A ++ W (wid t) (wdata t) (wkids t) :: B) /\ only (owner anc) (all_ids (A ++ t :: B)) s s').
    { intros skip ->. destruct (keep_ok _ _ _ _ _ P) as (M & Hb & Ho). rewrite <- wtree_eta. split; [exact M|]. exists (put_aux s x').
      split; [reflexivity|]. split; [reflexivity|]. split; [exact Hb|exact Ho]. }
    destruct (plan (wid t)); try (apply K; reflexivity).
    destruct (op_remove _ _ _ _ _ P) as (Hb & Hh & Ho & R). eexists. split; [reflexivity|]. split; [reflexivity|]. split; [exact Hb|].
    split; [exact Hh|]. split; [exact Ho|exact R].
  Qed.
  Lemma p_exit_ok : put_ok (plan_exit D plan) p_exit.
  Proof.
    intros x anc A B t x' out (Ex & Ho). exists (length (wkids t)). intros f s Hf Hx P. apply (aux_place _ _ _ x') in P. unfold plan_exit.
    rewrite Hx, <- Ex, Ho.
    assert (K : made_of t [t] /\ exists s', Some (put_aux s x') = Some s' /\ w_aux s' = x' /\
        below s' (owner anc) (A ++ [t] ++ B) /\ only (owner anc) (all_ids (A ++ t :: B)) s s').
    { destruct (keep_ok _ _ _ _ _ P) as (M & Hb & Hn). split; [exact M|]. exists (put_aux s x').
      split; [reflexivity|]. split; [reflexivity|]. split; [exact Hb|exact Hn]. }
    destruct (plan (wid t)); try exact K.
    - destruct (op_remove _ _ _ _ _ P) as (Hb & Hh & Hn & R). split; [split; [intros m []|constructor]|]. eexists. split; [reflexivity|]. split; [reflexivity|].
      split; [exact Hb|exact Hn].
    - destruct t as [n d kids]. cbn [wid wkids] in *. destruct (op_flatten _ anc A n d kids B f P Hf) as (M & h' & E & Hb & Hn). split; [exact M|].
      rewrite E. eexists. split; [reflexivity|]. split; [reflexivity|]. split; [exact Hb|exact Hn].
  Qed.
  Lemma p_leaf_ok : put_ok (plan_leaf D plan) p_leaf.
  Proof.
    intros x anc A B t x' out (Ex & Ho). exists 0. intros f s _ Hx P. apply (aux_place _ _ _ x') in P. unfold plan_leaf.
    rewrite Hx, <- Ex, Ho.
    assert (K : made_of t [] /\ exists s', Some (put_heap (put_aux s x') (remove (w_heap (put_aux s x')) (wid t))) = Some s' /\ w_aux s' = x' /\
        below s' (owner anc) (A ++ [] ++ B) /\ only (owner anc) (all_ids (A ++ t :: B)) s s').
    { destruct (op_remove _ _ _ _ _ P) as (Hb & Hh & Hn & R). split; [split; [intros m []|constructor]|]. eexists. split; [reflexivity|]. split; [reflexivity|].
      split; [exact Hb|exact Hn]. }
    destruct (plan (wid t)); try exact K.
    destruct (keep_ok _ _ _ _ _ P) as (M & Hb & Hn). split; [exact M|]. exists (put_aux s x').
    split; [reflexivity|]. split; [reflexivity|]. split; [exact Hb|exact Hn].
  Qed.
  Lemma p_gone_ok : gone_ok p_gone (plan_exit D plan).
  Proof.
    intros x t x' (Ex & Hp). exists 0. intros f s _ Hx _ _ _ _ _. unfold plan_exit. rewrite Hx, <- Ex, Hp. eexists. split; [reflexivity|]. split; [reflexivity|].
    intros m _. split; reflexivity.
  Qed.

  Notation runs := (runs is_elem p_enter p_exit p_leaf p_gone).
  Notation runs_list := (runs_list is_elem p_enter p_exit p_leaf p_gone).
  Definition goes (t : wtree D) : Prop := forall anc A B x, runs (anc, A, B) x t (x ++ calls t) (edited t).
  Lemma goes_list anc : forall l A x, Forall goes l -> runs_list anc A x l (x ++ flat_map calls l) (flat_map edited l).
  Proof.
    induction l as [|t r IH]; intros A x HF; cbn [flat_map]; [rewrite app_nil_r; constructor|]. inversion HF; subst.
    econstructor; [apply H1|]. rewrite app_assoc. apply IH. assumption.
  Qed.
  Lemma goes_all : forall t, goes t.
  Proof.
    apply wtree_ind'. intros n d kids IH anc A B x. cbn [PolicySpec.calls PolicySpec.edited].
    destruct (is_elem d) eqn:E; [|apply R_leaf; [exact E|split; reflexivity]].
    assert (Ec : x ++ CElement n :: flat_map calls kids ++ [CExit n] = ((x ++ [CElement n]) ++ flat_map calls kids) ++ [CExit n]).
    { rewrite <- !app_assoc. reflexivity. }
    rewrite Ec. destruct (plan n) eqn:Ep.
    - eapply R_keep with (d := d) (kids := kids); [exact E|split; [reflexivity|cbn [wid wdata wkids]; rewrite Ep; reflexivity]|apply goes_list, IH|].
      split; [reflexivity|]. cbn [wid]. rewrite Ep. reflexivity.
    - eapply R_gone; [exact E|split; [reflexivity|cbn [wid]; rewrite Ep; reflexivity]|cbn [wkids]; apply goes_list, IH|].
      split; [reflexivity|exact Ep].
    - eapply R_keep with (d := d) (kids := kids); [exact E|split; [reflexivity|cbn [wid wdata wkids]; rewrite Ep; reflexivity]|apply goes_list, IH|].
      split; [reflexivity|]. cbn [wid]. rewrite Ep. reflexivity.
    - eapply R_keep with (d := d) (kids := kids); [exact E|split; [reflexivity|cbn [wid wdata wkids]; rewrite Ep; reflexivity]|apply goes_list, IH|].
      split; [reflexivity|]. cbn [wid wkids]. rewrite Ep. reflexivity.
  Qed.

  Theorem policy_document : forall root d l, exists f0, forall f s,
    f0 <= f -> w_info s root = d -> w_aux s = [] -> below s root l -> NoDup (root :: all_ids l) ->
    exists s', visit_document D X is_elem (plan_enter D plan) (plan_exit D plan) (plan_leaf D plan) f s root = Some s' /\
      w_aux s' = flat_map calls l /\ below s' root (flat_map edited l) /\
      (exists g, read_all g s' 0 (child_nodes_iter (w_heap s') root) = Some (flat_map (depths 0) (flat_map edited l))) /\
      (forall m, ~ In m (root :: all_ids l) -> w_heap s' m = w_heap s m) /\ (forall m, ~ In m (all_ids l) -> w_info s' m = w_info s m).
  Proof.
    intros root d l. assert (Q : runs_list [(root, d)] [] [] l (flat_map calls l) (flat_map edited l)).
    { apply (goes_list _ l [] []). apply Forall_forall. intros t _. apply goes_all. }
    destruct (document_correct is_elem p_enter p_exit p_leaf p_gone _ _ _ p_enter_ok p_exit_ok p_leaf_ok p_gone_ok root d [] l _ _ Q) as (f0 & H).
    exists f0. intros f s Hf Hd Hx Hb N. destruct (H f s Hf Hx Hd Hb N) as (s' & E & Ex & Eb & _ & No & On). exists s'.
    split; [exact E|]. split; [exact Ex|]. split; [exact Eb|]. split.
    - destruct (read_below s' root _ Eb No 0) as (g & Hg). exists g. apply Hg, le_n.
    - destruct On as (O1 & _ & O3). split; [|exact O3]. intros m Hm. apply O1; intros Hc; apply Hm; [left; auto|right; exact Hc].
  Qed.
End Proofs.
