From Coq Require Import List Arith Bool.
From Verif Require Import DomModel DomSpec WalkModel WalkSpec WalkProofs WalkOps3 WalkDoc PolicyModel PolicySpec PolicyProofs.
Import ListNotations.

(** C64: whatever nodes a visitor removes (on the way down or up) or unwraps while the document is walked, every node of the
    document gets its callbacks exactly once and in document order (also below removed nodes), the document that is left
    is the one with the edits done, with all links consistent, and nothing outside the document changes. *)
Theorem C64_walk_with_edits : forall D is_elem plan root (d : D) l, exists f0, forall f s,
  f0 <= f -> w_info s root = d -> w_aux s = [] -> below s root l -> NoDup (root :: all_ids l) ->
  exists s', visit_document D (list call) is_elem (plan_enter D plan) (plan_exit D plan) (plan_leaf D plan) f s root = Some s' /\
    w_aux s' = flat_map (calls is_elem) l /\ below s' root (flat_map (edited is_elem plan) l) /\
    (exists g, read_all g s' 0 (child_nodes_iter (w_heap s') root) = Some (flat_map (depths 0) (flat_map (edited is_elem plan) l))) /\
    (forall m, ~ In m (root :: all_ids l) -> w_heap s' m = w_heap s m) /\ (forall m, ~ In m (all_ids l) -> w_info s' m = w_info s m).
Proof. exact @policy_document. Qed.
Print Assumptions C64_walk_with_edits.

(** Neighbouring nodes removed, an unwrapped element with an unwrapped last child, a removed element with children. *)
Definition doc : list (wtree bool) :=
  [W 1 true [W 2 true [W 3 false []]; W 4 true [W 5 false []; W 6 true [W 7 false []; W 8 false []]]; W 9 false []; W 10 true []]].
Definition plan (n : nat) : edit := match n with 2 => RemoveFirst | 4 | 6 => Unwrap | 7 => RemoveFirst | 9 => RemoveLast | 10 => RemoveLast | _ => Leave end.
Example C64_hypotheses_met : below (layout (X := list call) true 0 true [] doc) 0 doc /\ NoDup (0 :: all_ids doc).
Proof.
  assert (N : NoDup (0 :: all_ids doc)) by (repeat (constructor; [cbn; intuition discriminate|]); constructor).
  split; [apply layout_below, N|exact N].
Qed.
Example C64_result :
  match visit_document bool (list call) (fun b => b) (plan_enter bool plan) (plan_exit bool plan) (plan_leaf bool plan) 40 (layout true 0 true [] doc) 0 with
  | Some s => (w_aux s, read_all 40 s 0 (child_nodes_iter (w_heap s) 0))
  | None => ([], None)
  end = ([CElement 1; CElement 2; CNode 3; CExit 2; CElement 4; CNode 5; CElement 6; CNode 7; CNode 8; CExit 6; CExit 4; CNode 9; CElement 10; CExit 10; CExit 1],
         Some [(0, 1); (1, 5); (1, 8)]).
Proof. vm_compute. reflexivity. Qed.
