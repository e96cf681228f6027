(** C86, C87: sorting attributes and the children of [defs]. *)
From Coq Require Import String List NArith Bool Arith Sorting.Permutation.
From Verif Require Import Chars SortModel SortSpec SortProofs.
Import ListNotations.

(** No attribute is lost, added or changed. *)
Theorem C86_same : forall o al l, Permutation l (sort_attrs o al l) /\ forall n, Permutation (get (sort_attrs o al l) n) (get l n).
Proof. exact (fun o al l => conj (attrs_perm o al l) (attrs_get o al l)). Qed.
Print Assumptions C86_same.
(** The comparison is an order, as the standard library asks. *)
Theorem C86_order : forall order front, order_like (attr_cmp order front).
Proof. exact attr_order. Qed.
Print Assumptions C86_order.
(** The order of the attributes is predictable: it does not depend on the one they had. *)
Theorem C86_predictable : forall o al l m, well_formed l -> Permutation l m -> sort_attrs o al l = sort_attrs o al m.
Proof. exact attrs_predictable. Qed.
Print Assumptions C86_predictable.
Theorem C86_idempotent : forall o al l, sort_attrs o al (sort_attrs o al l) = sort_attrs o al l.
Proof. exact attrs_twice. Qed.
Print Assumptions C86_idempotent.
(** Attributes that the list stands for come in its order, before others. *)
Theorem C86_listed_partial : forall order al l a b i s, before (sort_attrs (Some order) al l) a b -> ordinary (fst a) -> ordinary (fst b) -> nth_error order i = Some s -> stands_for s (local (fst b)) ->
  exists j s', nth_error order j = Some s' /\ stands_for s' (local (fst a)) /\ j <= i.
Proof. exact listed. Qed.
Print Assumptions C86_listed_partial.
(** Otherwise they are in the order of their names. *)
Theorem C86_named : forall order al l a b, before (sort_attrs (Some order) al l) a b -> ordinary (fst a) -> ordinary (fst b) -> prefix (fst a) = prefix (fst b) ->
  (exists s, stands_for s (local (fst a)) /\ stands_for s (local (fst b))) \/ (forall s, In s order -> ~ stands_for s (local (fst a)) /\ ~ stands_for s (local (fst b))) ->
  alphabetical (local (fst a)) (local (fst b)).
Proof. exact alike. Qed.
Print Assumptions C86_named.
(** Declarations of namespaces come first, unless asked otherwise. *)
Theorem C86_front : forall o l a b, before (sort_attrs o false l) a b -> declares (fst b) -> declares (fst a).
Proof. exact attrs_front. Qed.
Print Assumptions C86_front.

Definition svg (s : string) : name := mkName SVG None (lit s).
Definition decl (s : string) : name := mkName XMLNS (Some (lit "xmlns")) (lit s).
Definition sample : list (name * text) := map (fun n => (n, [])) [svg "b"; svg "stroke-width"; decl "xlink"; svg "fill"; mkName (Other (lit "u")) (Some (lit "xlink")) (lit "href"); svg "stroke"; svg "id"; svg "a"; svg "xmlns"].
Example C86_sample : well_formed sample /\ map fst (sort_attrs None false sample) = [svg "xmlns"; decl "xlink"; mkName (Other (lit "u")) (Some (lit "xlink")) (lit "href"); svg "id"; svg "fill"; svg "stroke"; svg "stroke-width"; svg "a"; svg "b"] /\
  map fst (sort_attrs (Some [lit "stroke"]) true sample) = [mkName (Other (lit "u")) (Some (lit "xlink")) (lit "href"); decl "xlink"; svg "stroke"; svg "stroke-width"; svg "a"; svg "b"; svg "fill"; svg "id"; svg "xmlns"].
Proof.
  split; [|split; vm_compute; reflexivity]. unfold well_formed. vm_compute. repeat (constructor; [cbn; intros H; repeat (destruct H as [H|H]; [discriminate H|]); exact H|]). constructor.
Qed.
(** A name with a hyphen in the list has no effect: [order: ["stroke-width", "fill"]] leaves [fill] before [stroke-width]. *)
Theorem C86_hyphen_refuted : exists order l a b, nth_error order 0 = Some (local (fst a)) /\ nth_error order 1 = Some (local (fst b)) /\ ordinary (fst a) /\ ordinary (fst b) /\ before (sort_attrs (Some order) false l) b a.
Proof.
  exists [lit "stroke-width"; lit "fill"], [(svg "stroke-width", []); (svg "fill", [])], (svg "stroke-width", []), (svg "fill", []). split; [reflexivity|split; [reflexivity|split; [split; [reflexivity|vm_compute; discriminate]|split; [split; [reflexivity|vm_compute; discriminate]|]]]]. exists [], [], []. vm_compute. reflexivity.
Qed.
Print Assumptions C86_hyphen_refuted.

(** The children of [defs] are the same. *)
Theorem C87_same : forall on l, Permutation l (sort_defs on l).
Proof. exact defs_perm. Qed.
Print Assumptions C87_same.
(** Ids refer to the same elements, if there are none twice. *)
Theorem C87_refers_partial : forall on ids l i, NoDup (ids_of ids l) -> refers ids (sort_defs on l) i = refers ids l i.
Proof. exact defs_refers. Qed.
Print Assumptions C87_refers_partial.
(** Elements of the same name, such as [style], keep their order. *)
Theorem C87_stable : forall on n l, filter (named n) (sort_defs on l) = filter (named n) l.
Proof. exact defs_same_name. Qed.
Print Assumptions C87_stable.
(** What is more frequent comes first. *)
Theorem C87_frequent : forall l a x b y, before (sort_defs true l) (Elem a x) (Elem b y) -> times b l <= times a l.
Proof. exact frequent. Qed.
Print Assumptions C87_frequent.
(** Elements are compared by an order, and a second run changes nothing if there are no other nodes. *)
Theorem C87_elements : forall l, order_like (element_cmp l).
Proof. exact element_order. Qed.
Print Assumptions C87_elements.
Theorem C87_idempotent_partial : forall l, Forall (fun c => is_elem c = true) l -> sort_defs true (sort_defs true l) = sort_defs true l.
Proof. exact defs_twice. Qed.
Print Assumptions C87_idempotent_partial.

Definition defs_sample : list child := [Elem (svg "style") 1; Elem (svg "path") 2; Elem (svg "style") 3; Elem (svg "filter") 4; Elem (svg "path") 5; Elem (svg "g") 6; Elem (svg "path") 7].
Example C87_sample : NoDup (ids_of (fun x => Some x) defs_sample) /\ sort_defs true defs_sample = [Elem (svg "path") 2; Elem (svg "path") 5; Elem (svg "path") 7; Elem (svg "style") 1; Elem (svg "style") 3; Elem (svg "filter") 4; Elem (svg "g") 6].
Proof. split; [|vm_compute; reflexivity]. vm_compute. repeat (constructor; [cbn; intros H; repeat (destruct H as [H|H]; [discriminate H|]); exact H|]). constructor. Qed.
(** Text and comments are compared by what is not an order: each of two is less than the other.  The standard library may panic with more than twenty children. *)
Theorem C87_order_refuted : exists l a b, In a l /\ In b l /\ child_cmp l a b = Lt /\ child_cmp l b a = Lt.
Proof. exists [Node 1; Node 2], (Node 1), (Node 2). repeat split; [left; reflexivity|right; left; reflexivity]. Qed.
Print Assumptions C87_order_refuted.
(** So comments change their order, again with every run, and lose the elements that they are about. *)
Theorem C87_comments_refuted : exists l, others (sort_defs true l) <> others l /\ sort_defs true (sort_defs true l) <> sort_defs true l.
Proof. exists [Node 1; Elem (svg "a") 2; Node 3; Elem (svg "b") 4]. split; vm_compute; discriminate. Qed.
Print Assumptions C87_comments_refuted.
(** Of elements with the same id, another one may come first. *)
Theorem C87_refers_refuted : exists ids l i, refers ids (sort_defs true l) i <> refers ids l i.
Proof. exists (fun _ => Some 0), [Elem (svg "path") 1; Elem (svg "linearGradient") 2], 0. vm_compute. discriminate. Qed.
Print Assumptions C87_refers_refuted.
