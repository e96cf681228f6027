(** Witnesses for the refuted DOM properties, on a concrete forest. *)
From Coq Require Import List Arith Bool Lia Relations Permutation.
From Verif Require Import DomModel DomSpec DomProofs DomProofs2 DomProofs3 DomProofs4.
Import ListNotations.

Lemma demo_detached n : 5 < n -> detached demo_kids n.
Proof.
  intros H p Hp. destruct p as [|[|p]]; simpl in Hp; intuition lia.
Qed.

Lemma before_witness : exists h k e n p,
  Repr h k /\ In e (k p) /\ n <> e /\ detached k n /\ ~ within k n p /\
  last (before h e n p) = None /\ forall k', ~ Repr (before h e n) k'.
Proof.
  exists demo, demo_kids, 2, 6, 0. split; [exact demo_repr|].
  split; [simpl; auto|]. split; [lia|]. split; [apply demo_detached; lia|].
  split; [apply nokids_within; [reflexivity|lia]|]. split; [reflexivity|].
  apply before_corrupts with (k := demo_kids) (p := 0); try lia; [exact demo_repr|simpl; auto].
Qed.

Lemma retain_witness : exists h k self f h',
  Repr h k /\ retain_children 10 h self f = Some h' /\
  filter f (k self) = [1; 3] /\
  collect 10 h' (child_nodes_iter h' self) = Some [1; 2] /\
  forall k', ~ Repr h' k'.
Proof.
  set (f := fun n => negb (n =? 2)).
  destruct (retain_children_other demo demo_kids 0 f 10 demo_repr) as (h' & E & N).
  - simpl; lia.
  - intros (d & r & Ed & Hd & Hr). simpl in Ed.
    destruct d as [|a d]; simpl in Ed.
    + subst r. specialize (Hr 2). simpl in Hr. discriminate Hr; auto.
    + injection Ed as <- _. specialize (Hd 1). simpl in Hd. discriminate Hd; auto.
  - exists demo, demo_kids, 0, f, h'. split; [exact demo_repr|]. split; [exact E|].
    split; [reflexivity|]. split; [|exact N].
    assert (C : match retain_children 10 demo 0 f with
                | Some h1 => collect 10 h1 (child_nodes_iter h1 0) | None => None end = Some [1; 2])
      by (vm_compute; reflexivity).
    rewrite E in C. exact C.
Qed.

Definition desc_order (a b : nat) : comparison := Nat.compare b a.
Lemma desc_order_preorder : total_preorder desc_order.
Proof.
  constructor; unfold desc_order; intros.
  - apply Nat.compare_gt_iff in H. apply Nat.compare_lt_iff. lia.
  - rewrite Nat.compare_le_iff in *. lia.
Qed.

Lemma sort_witness : exists h k self f h',
  Repr h k /\ total_preorder f /\
  (forall c, In c (k self) -> is_element_or_document (ndata (h c)) = true) /\
  sort_child_elements 10 h self f = Some h' /\
  collect 10 h' (child_nodes_iter h' self) = Some [3; 2; 1] /\
  prev (h' 3) = Some 2 /\
  forall k', ~ Repr h' k'.
Proof.
  destruct (sort_child_elements_exact demo demo_kids 0 desc_order 10 demo_repr)
    as (_&_&_&h'&E&_&N).
  - simpl; lia.
  - exact desc_order_preorder.
  - simpl. intuition (subst; reflexivity).
  - exists demo, demo_kids, 0, desc_order, h'. split; [exact demo_repr|].
    split; [exact desc_order_preorder|].
    split; [simpl; intuition (subst; reflexivity)|]. split; [exact E|].
    assert (C : match sort_child_elements 10 demo 0 desc_order with
                | Some h1 => (collect 10 h1 (child_nodes_iter h1 0), prev (h1 3))
                | None => (None, None) end = (Some [3; 2; 1], Some 2))
      by (vm_compute; reflexivity).
    rewrite E in C. injection C as C1 C2. split; [exact C1|]. split; [exact C2|].
    apply N. vm_compute. discriminate.
Qed.

(** The comparator handed to the sort is not an order as soon as two children are not
    elements. *)
Lemma sort_cmp_witness : exists h f a b,
  total_preorder f /\ a <> b /\ sort_cmp h f a b = Lt /\ sort_cmp h f b a = Lt.
Proof.
  exists (fun _ => mkNode None None None None None (DText 0)), desc_order, 1, 2.
  split; [exact desc_order_preorder|]. repeat split; auto.
Qed.

Lemma set_local_name_general h k e p n nm attrs nm' :
  Repr h k -> In e (k p) -> ndata (h e) = DElement nm attrs ->
  detached k n -> k n = [] -> n <> p ->
  exists h' k', set_local_name h e n nm' = Some h' /\ Repr h' k' /\
    k' p = subst_by e [n] (k p) /\ k' n = [] /\ k' e = k e /\ detached k' e /\
    (forall q, q <> p -> k' q = k q) /\
    ndata (h' n) = DElement nm' attrs /\ forall m, m <> n -> ndata (h' m) = ndata (h m).
Proof.
  intros R Hin D Dn En Hnp.
  destruct (set_local_name_repr h k e p n nm attrs nm' R Hin D Dn En Hnp) as (h'&E&R'&ND).
  exists h', (upd k p (subst_by e [n] (k p))). split; [exact E|]. split; [exact R'|].
  unfold upd. rewrite Nat.eqb_refl.
  assert (Hpe : e <> p). { intros ->. exact (not_own_child h k p R Hin). }
  assert (Hne : n <> e) by (intros ->; eapply Dn; eauto).
  split; [reflexivity|]. split.
  { apply Nat.eqb_neq in Hnp. rewrite Hnp. exact En. }
  split. { apply Nat.eqb_neq in Hpe. rewrite Hpe. reflexivity. }
  split.
  { intros q Hq. cbv beta in Hq. destruct (Nat.eqb_spec q p) as [Eqp|Hqp].
    - subst q. destruct (in_split _ _ Hin) as (l1&l2&El). rewrite El in Hq.
      pose proof (r_nodup h k R p) as NDp. rewrite El in NDp.
      destruct (nodup_mid _ _ _ NDp) as (N1&N2&_).
      rewrite subst_by_split in Hq by exact N1.
      apply in_app_or in Hq. simpl in Hq. intuition.
    - apply Hqp. exact (repr_unique h k q p e R Hq Hin). }
  split. { intros q Hq. apply Nat.eqb_neq in Hq. rewrite Hq. reflexivity. }
  split. { rewrite ND, Nat.eqb_refl. reflexivity. }
  intros m Hm. rewrite ND. apply Nat.eqb_neq in Hm. rewrite Hm. reflexivity.
Qed.

Lemma set_local_name_witness : exists h k e p n h' k',
  Repr h k /\ In e (k p) /\ k e = [4; 5] /\ detached k n /\ k n = [] /\
  set_local_name h e n 7 = Some h' /\ Repr h' k' /\ k' p = [n; 2; 3] /\ k' n = [].
Proof.
  destruct (set_local_name_general demo demo_kids 1 0 6 0 [] 7 demo_repr) as (h'&k'&E&R'&P&Q&_);
    auto; try (simpl; auto; fail); try (apply demo_detached; lia).
  exists demo, demo_kids, 1, 0, 6, h', k'.
  repeat (split; [first [exact demo_repr | exact E | exact R' | reflexivity
                        | simpl; auto; fail | apply demo_detached; lia ]|]).
  - exact Q.
Qed.

Lemma append_child_exact h k self n :
  Repr h k -> is_element_or_document (ndata (h self)) = true -> ~ within k n self ->
  (detached k n -> Repr (append_child h self n) (upd k self (k self ++ [n]))) /\
  (forall q, In n (k q) -> forall k', ~ Repr (append_child h self n) k').
Proof.
  intros R K W. split.
  - intros D. apply append_child_repr; auto.
  - intros q Hq. apply append_child_attached with (k := k) (q := q); auto.
    intros ->. apply W. left; reflexivity.
Qed.

Lemma prepend_exact h k self n :
  Repr h k -> is_element_or_document (ndata (h self)) = true -> ~ within k n self ->
  (detached k n -> Repr (prepend h self n) (upd k self (n :: k self))) /\
  (forall q, In n (k q) -> forall k', ~ Repr (prepend h self n) k').
Proof.
  intros R K W. split.
  - intros D. apply prepend_repr; auto.
  - intros q Hq. assert (n <> self) by (intros ->; apply W; left; reflexivity).
    destruct (Nat.eq_dec q self) as [->|].
    + apply prepend_attached_self with (k := k); auto.
    + apply prepend_attached with (k := k) (q := q); auto.
Qed.

Lemma append_child_witness : exists h k self n q,
  Repr h k /\ In n (k q) /\ ~ within k n self /\
  first (append_child h self n q) = Some n /\ parent (append_child h self n n) = Some self /\
  q <> self /\ forall k', ~ Repr (append_child h self n) k'.
Proof.
  exists demo, demo_kids, 2, 4, 1. split; [exact demo_repr|]. split; [simpl; auto|].
  split; [apply nokids_within; [reflexivity|lia]|].
  repeat (split; [first [reflexivity|lia]|]).
  apply append_child_attached with (k := demo_kids) (q := 1); try lia;
    [exact demo_repr|simpl; auto].
Qed.
