From Coq Require Import String List NArith Bool Arith.
From Verif Require Import Chars NameModel AttrTable ElemModel ElemProps DomModel DomSpec WalkModel WalkSpec WalkProofs WalkOps3 WalkDoc NodeModel ScriptsSpec ScriptsProps DefsModel DefsSpec DefsProofs DefsProofs2.
Import ListNotations.

(** C49: exactly the hollow elements (white space and unexcused containers all the way down) are removed, no unexcused empty
    container is left, and all nodes that are neither containers nor white space stay in order.  Missing: an element
    referred to by id is not kept (refuted below). *)
Theorem C49_containers_partial : forall filtered root d l, Forall leafy l -> exists f0, forall f s,
  f0 <= f -> w_info s root = d -> below s root l -> NoDup (root :: all_ids l) ->
  exists s', remove_empty_containers filtered true f s root = Some s' /\
    below s' root (flat_map (pruned filtered d) l) /\ Forall (lean filtered d) (flat_map (pruned filtered d) l) /\
    filter (fun x => solid (snd x)) (flat_map nodes_of (flat_map (pruned filtered d) l)) = filter (fun x => solid (snd x)) (flat_map nodes_of l) /\
    exists g, read_all g s' 0 (child_nodes_iter (w_heap s') root) = Some (flat_map (depths 0) (flat_map (pruned filtered d) l)).
Proof. exact containers_document. Qed.
Print Assumptions C49_containers_partial.
Theorem C49_disabled : forall filtered f s root, remove_empty_containers filtered false f s root = Some s.
Proof. exact (fun _ f s root => eq_refl). Qed.
Print Assumptions C49_disabled.

(** C50: what is left is what the specification says, with the parents it says; in particular all elements with an id or a
    class and all style elements, in order. *)
Theorem C50_definitions : forall root d l, Forall leafy l -> Forall (all_nodes recognised) l -> exists f0, forall f s,
  f0 <= f -> w_info s root = d -> below s root l -> NoDup (root :: all_ids l) ->
  exists s' out, remove_useless_defs true f s root = Some s' /\ below s' root out /\
    flat_map (rows root) out = flat_map (survivors root false) l /\
    filter (fun x => useful (snd x)) (flat_map nodes_of out) = filter (fun x => useful (snd x)) (flat_map nodes_of l) /\
    exists g, read_all g s' 0 (child_nodes_iter (w_heap s') root) = Some (flat_map (depths 0) out).
Proof. exact defs_document. Qed.
Print Assumptions C50_definitions.
Theorem C50_disabled : forall f s root, remove_useless_defs false f s root = Some s.
Proof. exact (fun f s root => eq_refl). Qed.
Print Assumptions C50_disabled.

Local Open Scope string_scope.
(** Nested empty groups, a group with a filter, a branch of a switch, a pattern with an attribute, an empty marker. *)
Definition hollow_doc : list (wtree ninfo) :=
  [W 1 (el "svg" [])
     [W 2 (el "g" []) [W 3 (tx " ") []; W 4 (el "defs" []) [W 5 (el "g" []) []]];
      W 6 (el "g" [("filter", "url(#f)")]) [];
      W 7 (el "switch" []) [W 8 (el "g" []) []];
      W 9 (el "pattern" [("x", "1")]) [];
      W 10 (el "g" []) [W 11 (el "rect" []) []; W 12 (el "a" []) []]]].
Example C49_hypotheses_met : Forall leafy hollow_doc /\ below (start hollow_doc) 0 hollow_doc /\ NoDup (0 :: all_ids hollow_doc).
Proof.
  assert (N : NoDup (0 :: all_ids hollow_doc)).
  { repeat (constructor; [cbn; intuition discriminate|]). constructor. }
  split; [|split; [apply layout_below, N|exact N]].
  unfold hollow_doc. repeat (constructor; [first [intros H; vm_compute in H; discriminate | reflexivity | intros _; reflexivity]|]); repeat constructor; intros H; vm_compute in H; discriminate.
Qed.
Example C49_result : output 30 (remove_empty_containers (Nat.eqb 6) true 30 (start hollow_doc) 0) =
  Some [(0, 1); (1, 6); (1, 7); (2, 8); (1, 9); (1, 10); (2, 11)].
Proof. vm_compute. reflexivity. Qed.

(** Empty containers that are referred to are removed. *)
Definition referred_doc : list (wtree ninfo) :=
  [W 1 (el "svg" [])
     [W 2 (el "marker" [("id", "m")]) []; W 3 (el "g" [("id", "x")]) [];
      W 4 (el "use" [("href", "#x")]) []; W 5 (el "path" [("marker-end", "url(#m)")]) []]].
Theorem C49_referenced_removed_refuted : exists l f, NoDup (0 :: all_ids l) /\ below (start l) 0 l /\
  In (3, el "g" [("id", "x")]) (flat_map nodes_of l) /\ In (4, el "use" [("href", "#x")]) (flat_map nodes_of l) /\
  output f (remove_empty_containers (fun _ => false) true f (start l) 0) = Some [(0, 1); (1, 4); (1, 5)].
Proof.
  exists referred_doc, 30.
  assert (N : NoDup (0 :: all_ids referred_doc)) by (repeat (constructor; [cbn; intuition discriminate|]); constructor).
  split; [exact N|]. split; [apply layout_below, N|]. split; [right; right; left; reflexivity|]. split; [right; right; right; left; reflexivity|].
  vm_compute. reflexivity.
Qed.
Print Assumptions C49_referenced_removed_refuted.

(** Definitions inside definitions, a class below a group without one, a style sheet, and a mask outside [defs]. *)
Definition defs_doc : list (wtree ninfo) :=
  [W 1 (el "svg" [])
     [W 2 (el "defs" [])
        [W 3 (el "g" []) [W 4 (tx "t") []; W 5 (el "path" [("class", "c")]) [W 6 (tx "u") []; W 7 (el "clipPath" []) [W 8 (el "rect" []) []]]];
         W 9 (el "rect" []) []; W 10 (el "style" []) [W 11 (tx ".c{}") []]];
      W 12 (el "mask" []) [W 13 (el "circle" []) []];
      W 14 (el "mask" []) [W 15 (el "circle" [("id", "i")]) []];
      W 16 (el "g" []) [W 17 (tx "v") []]]].
Example C50_hypotheses_met : Forall leafy defs_doc /\ Forall (all_nodes recognised) defs_doc /\ below (start defs_doc) 0 defs_doc /\ NoDup (0 :: all_ids defs_doc).
Proof.
  assert (N : NoDup (0 :: all_ids defs_doc)).
  { repeat (constructor; [cbn; intuition discriminate|]). constructor. }
  split; [|split; [|split; [apply layout_below, N|exact N]]].
  - unfold defs_doc. repeat (constructor; [first [intros H; vm_compute in H; discriminate | reflexivity | intros _; reflexivity]|]); repeat constructor; intros H; vm_compute in H; discriminate.
  - unfold defs_doc. repeat (constructor; [first [exact Logic.I | unfold recognised, el, svg_elem; do 2 eexists; reflexivity]|]); repeat constructor; unfold recognised, el, svg_elem; do 2 eexists; reflexivity.
Qed.
Example C50_result : output 30 (remove_useless_defs true 30 (start defs_doc) 0) =
  Some [(0, 1); (1, 2); (2, 5); (3, 6); (2, 10); (3, 11); (1, 14); (2, 15); (1, 16); (2, 17)].
Proof. vm_compute. reflexivity. Qed.
