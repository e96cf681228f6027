(** Property theorems C01-C06 (document structure). *)
From Coq Require Import List Arith Bool Permutation.
From Verif Require Import DomModel DomSpec DomProofs DomProofs2 DomProofs3 DomProofs4 DomProofs5.
Import ListNotations.

(** * C01 *)

(** Every edit except [before]: a history of edits whose arguments play their documented roles
    terminates, ends in a consistent forest whose child lists are those of the abstract list
    edits, and changes no node's data.  Missing from the full claim: [before] (refuted
    below). *)
Theorem C01_edit_histories_partial el es k k' :
  edits_spec el k es k' -> exists fuel0, forall h fuel,
  Repr h k -> (forall n, el n = is_element_or_document (ndata (h n))) -> fuel0 <= fuel ->
  exists h', run_edits fuel h es = Some h' /\
    Repr h' k' /\ forall m, ndata (h' m) = ndata (h m).
Proof. exact (run_edits_repr el es k k'). Qed.
Print Assumptions C01_edit_histories_partial.

(** The abstract edits are never stuck on arguments that play their documented roles. *)
Theorem C01_edits_total h k e : Repr h k ->
  edit_ok (fun n => is_element_or_document (ndata (h n))) k e -> exists k', edit_spec k e k'.
Proof. exact (edit_spec_total h k e). Qed.
Print Assumptions C01_edits_total.

(** New nodes enter the forest detached and childless. *)
Theorem C01_alloc h k n d :
  Repr h k -> detached k n -> k n = [] -> Repr (alloc h n d) k.
Proof. exact (alloc_repr h k n d). Qed.
Print Assumptions C01_alloc.

(** [before] leaves an inconsistent document: the full claim is false. *)
Theorem C01_before_refuted : exists h k e n p,
  Repr h k /\ In e (k p) /\ n <> e /\ detached k n /\ ~ within k n p /\
  last (before h e n p) = None /\ forall k', ~ Repr (before h e n) k'.
Proof. exact before_witness. Qed.
Print Assumptions C01_before_refuted.

(** It does so on every attached receiver. *)
Theorem C01_before_always_corrupts h k e n p :
  Repr h k -> In e (k p) -> n <> e -> n <> p -> forall k', ~ Repr (before h e n) k'.
Proof. exact (before_corrupts h k e n p). Qed.
Print Assumptions C01_before_always_corrupts.

(** A consistent forest meeting the hypotheses, and a history that uses several edits. *)
Example C01_demo : Repr demo demo_kids.
Proof. exact demo_repr. Qed.
Example C01_demo_run :
  match run_edits 10 demo [EFlatten 1; EInsertBefore 0 3 2; EReplaceWith 2 6; EAfter 4 7; EInsert 0 1 8] with
  | Some h => collect 10 h (child_nodes_iter h 0)
  | None => None
  end = Some [4; 8; 7; 5; 3; 6].
Proof. vm_compute. reflexivity. Qed.
Example C01_demo_ok :
  edit_ok (fun n => is_element_or_document (ndata (demo n))) demo_kids (EFlatten 1) /\
  edit_ok (fun n => is_element_or_document (ndata (demo n))) demo_kids (EInsertBefore 0 3 2) /\
  edit_ok (fun n => is_element_or_document (ndata (demo n))) demo_kids (EAppend 2 4).
Proof.
  split; [exists 0; simpl; auto|]. split.
  - split; [simpl; auto|]. split; [discriminate|]. apply nokids_within; [reflexivity|discriminate].
  - split; [reflexivity|]. apply nokids_within; [reflexivity|discriminate].
Qed.

(** * C02 *)

(** Pulling from the two ends in any order answers like a double-ended queue holding the child
    list. *)
Theorem C02_iteration_is_deque h k self sched :
  Repr h k -> snd (drive h (child_nodes_iter h self) sched) = deque (k self) sched.
Proof.
  exact (fun R => drive_deque h k self sched R [] (k self) [] _ (iter_start h k self R)).
Qed.
Print Assumptions C02_iteration_is_deque.

(** Forward and backward iteration, indexing and position queries. *)
Theorem C02_forward h k self fuel : Repr h k -> length (k self) < fuel ->
  collect fuel h (child_nodes_iter h self) = Some (k self).
Proof.
  exact (fun R => collect_spec h k self R fuel [] (k self) [] _ (iter_start h k self R)).
Qed.
Print Assumptions C02_forward.

Theorem C02_backward h k self fuel : Repr h k -> length (k self) < fuel ->
  collect_back fuel h (child_nodes_iter h self) = Some (rev (k self)).
Proof.
  exact (fun R => collect_back_spec h k self R fuel [] (k self) [] _ (iter_start h k self R)).
Qed.
Print Assumptions C02_backward.

Theorem C02_item h k self i : Repr h k -> item h self i = nth_error (k self) i.
Proof. exact (item_spec h k self i). Qed.
Print Assumptions C02_item.

Theorem C02_child_index h k self c fuel : Repr h k -> length (k self) < fuel ->
  child_index fuel h self c = Some (option_map (fun j => 0 + j) (index_of c (k self))).
Proof.
  exact (fun R => child_index_spec h k self c R fuel [] (k self) [] _ 0 (iter_start h k self R)).
Qed.
Print Assumptions C02_child_index.

Example C02_mixed :
  snd (drive demo (child_nodes_iter demo 0) [true; false; true; true; false])
  = [Some 1; Some 3; Some 2; None; None].
Proof. vm_compute. reflexivity. Qed.

(** * C03 *)

(** Filtering children: when the dropped children form a prefix of the child list the result is
    the filtered list and nothing else changes.  Missing from the full claim: any other
    predicate (refuted below). *)
Theorem C03_retain_prefix_partial h k self f fuel :
  Repr h k -> length (k self) < fuel -> drops_prefix f (k self) ->
  exists h', retain_children fuel h self f = Some h' /\
    Repr h' (upd k self (filter f (k self))) /\ forall m, ndata (h' m) = ndata (h m).
Proof. exact (retain_children_prefix h k self f fuel). Qed.
Print Assumptions C03_retain_prefix_partial.

(** Dropping the middle of three children: the rejected child is still iterated, the accepted
    last child is lost, and the links are inconsistent. *)
Theorem C03_retain_children_refuted : exists h k self f h',
  Repr h k /\ retain_children 10 h self f = Some h' /\
  filter f (k self) = [1; 3] /\
  collect 10 h' (child_nodes_iter h' self) = Some [1; 2] /\
  forall k', ~ Repr h' k'.
Proof. exact retain_witness. Qed.
Print Assumptions C03_retain_children_refuted.

(** Exactly the prefix-dropping predicates leave a consistent document. *)
Theorem C03_retain_children_exact h k self f fuel :
  Repr h k -> length (k self) < fuel ->
  exists h', retain_children fuel h self f = Some h' /\
    ((exists k', Repr h' k') <-> drops_prefix f (k self)).
Proof. exact (retain_children_exact h k self f fuel). Qed.
Print Assumptions C03_retain_children_exact.

Example C03_demo : drops_prefix (fun n => 1 <? n) (demo_kids 0).
Proof.
  exists [1], [2; 3]. split; [reflexivity|].
  split; simpl; intros x Hx; intuition (subst; reflexivity).
Qed.

(** * C04 *)

(** Sorting element children by a total preorder: the new order is a sorted, stable permutation;
    the links are consistent exactly when the first child stays first.  Missing from the full
    claim: the other inputs (refuted below). *)
Theorem C04_sort_child_elements_partial h k self f fuel :
  Repr h k -> length (k self) < fuel -> total_preorder f ->
  (forall c, In c (k self) -> is_element_or_document (ndata (h c)) = true) ->
  let l := sort_by f (k self) in
  Permutation l (k self) /\ sorted f l /\
  (forall c, filter (fun x => match f c x, f x c with Eq, Eq => true | _, _ => false end) l =
             filter (fun x => match f c x, f x c with Eq, Eq => true | _, _ => false end) (k self)) /\
  exists h', sort_child_elements fuel h self f = Some h' /\
    (hd_error l = hd_error (k self) ->
       Repr h' (upd k self l) /\ forall m, ndata (h' m) = ndata (h m)) /\
    (hd_error l <> hd_error (k self) -> forall k', ~ Repr h' k').
Proof. exact (sort_child_elements_exact h k self f fuel). Qed.
Print Assumptions C04_sort_child_elements_partial.

(** Reversing three children leaves the new first child with a previous sibling. *)
Theorem C04_sort_links_refuted : exists h k self f h',
  Repr h k /\ total_preorder f /\
  (forall c, In c (k self) -> is_element_or_document (ndata (h c)) = true) /\
  sort_child_elements 10 h self f = Some h' /\
  collect 10 h' (child_nodes_iter h' self) = Some [3; 2; 1] /\
  prev (h' 3) = Some 2 /\
  forall k', ~ Repr h' k'.
Proof. exact sort_witness. Qed.
Print Assumptions C04_sort_links_refuted.

(** With two non-element children the comparison given to the sort calls each smaller than the
    other. *)
Theorem C04_sort_order_refuted : exists h f a b,
  total_preorder f /\ a <> b /\ sort_cmp h f a b = Lt /\ sort_cmp h f b a = Lt.
Proof. exact sort_cmp_witness. Qed.
Print Assumptions C04_sort_order_refuted.

Example C04_demo : hd_error (sort_by Nat.compare [1; 3; 2]) = hd_error [1; 3; 2].
Proof. reflexivity. Qed.

(** * C05 *)

(** Renaming an attached element keeps its position, its attributes and every other node, but
    the node that takes its place has no children: they stay with the detached old node.
    Missing from the full claim: the children (refuted below). *)
Theorem C05_set_local_name_partial h k e p n nm attrs nm' :
  Repr h k -> In e (k p) -> ndata (h e) = DElement nm attrs ->
  detached k n -> k n = [] -> n <> p ->
  exists h' k', set_local_name h e n nm' = Some h' /\ Repr h' k' /\
    k' p = subst_by e [n] (k p) /\ k' n = [] /\ k' e = k e /\ detached k' e /\
    (forall q, q <> p -> k' q = k q) /\
    ndata (h' n) = DElement nm' attrs /\ forall m, m <> n -> ndata (h' m) = ndata (h m).
Proof. exact (set_local_name_general h k e p n nm attrs nm'). Qed.
Print Assumptions C05_set_local_name_partial.

Theorem C05_rename_keeps_children_refuted : exists h k e p n h' k',
  Repr h k /\ In e (k p) /\ k e = [4; 5] /\ detached k n /\ k n = [] /\
  set_local_name h e n 7 = Some h' /\ Repr h' k' /\ k' p = [n; 2; 3] /\ k' n = [].
Proof. exact set_local_name_witness. Qed.
Print Assumptions C05_rename_keeps_children_refuted.

Example C05_demo : In 2 (demo_kids 0) /\ demo_kids 2 = [] /\ ndata (demo 2) = DElement 0 [].
Proof. simpl; auto. Qed.

(** * C06 *)

(** Adding a detached node makes it the last (first) child and changes nothing else; adding an
    attached node always leaves an inconsistent document.  Missing from the full claim: attached
    nodes (refuted). *)
Theorem C06_append_child_partial h k self n :
  Repr h k -> is_element_or_document (ndata (h self)) = true -> ~ within k n self ->
  (detached k n -> Repr (append_child h self n) (upd k self (k self ++ [n]))) /\
  (forall q, In n (k q) -> forall k', ~ Repr (append_child h self n) k').
Proof. exact (append_child_exact h k self n). Qed.
Print Assumptions C06_append_child_partial.

Theorem C06_prepend_partial h k self n :
  Repr h k -> is_element_or_document (ndata (h self)) = true -> ~ within k n self ->
  (detached k n -> Repr (prepend h self n) (upd k self (n :: k self))) /\
  (forall q, In n (k q) -> forall k', ~ Repr (prepend h self n) k').
Proof. exact (prepend_exact h k self n). Qed.
Print Assumptions C06_prepend_partial.

Theorem C06_append_child_moves_refuted : exists h k self n q,
  Repr h k /\ In n (k q) /\ ~ within k n self /\
  first (append_child h self n q) = Some n /\ parent (append_child h self n n) = Some self /\
  q <> self /\ forall k', ~ Repr (append_child h self n) k'.
Proof. exact append_child_witness. Qed.
Print Assumptions C06_append_child_moves_refuted.

Example C06_demo : detached demo_kids 6 /\ ~ within demo_kids 6 2.
Proof.
  split; [apply demo_detached; repeat constructor|].
  apply nokids_within; [reflexivity|discriminate].
Qed.
