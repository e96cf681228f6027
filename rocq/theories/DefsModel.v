(** Model of the jobs removeEmptyContainers and removeUselessDefs
    (crates/oxvg_optimiser/src/jobs/remove_empty_containers.rs and remove_useless_defs.rs). *)
From Coq Require Import String List NArith Bool.
From Verif Require Import Chars NameModel AttrTable ElemModel DomModel WalkModel NodeModel.
Import ListNotations.

(** [n.node_type() == Type::Text && n.text_content().is_none_or(|t| t.trim().is_empty())]
    (crates/oxvg_ast/src/node.rs:452). *)
Definition blank_text (d : ninfo) : bool := match d with NText t => forallb is_whitespace t | _ => false end.
(** [Node::is_empty] (crates/oxvg_ast/src/node.rs:449-455). *)
Definition is_empty {X} (fuel : nat) (s : wstate ninfo X) (n : nat) : option bool :=
  match first (w_heap s n) with
  | None => Some true
  | Some _ => option_map (forallb (fun c => blank_text (w_info s c))) (collect fuel (w_heap s) (child_nodes_iter (w_heap s) n))
  end.
(** element/category.rs:18 (crates/oxvg_collections/src) [ElementCategory::Container]. *)
Definition c_container : N := 4.
(** element/category.rs:96 [ElementInfo::NonRendering]. *)
Definition i_non_rendering : N := 1.
(** [element.parent_element()] being an element of this name (crates/oxvg_ast/src/element.rs:527-532). *)
Definition parent_is {X} (s : wstate ninfo X) (n : nat) (id : text) : bool :=
  match parent (w_heap s n) with Some p => node_is (w_info s p) id | None => false end.

Section EmptyContainers.
  (** Whether the computed style of an element has a filter (remove_empty_containers.rs:79-82).  Simplification: an oracle on
      nodes that the removals of the job do not change. *)
  Variable filtered : nat -> bool.
  (** remove_empty_containers.rs:52-89 [exit_element]. *)
  Definition empty_exit (fuel : nat) (s : wstate ninfo unit) (n : nat) : option (wstate ninfo unit) :=
    match w_info s n with
    | NElem e attrs =>
        if negb (contains (elem_cats e) c_container) then Some s
        else match is_empty fuel s n with
        | None => None
        | Some false => Some s
        | Some true =>
            let finish := if elem_is e (lit "G") && filtered n then Some s else Some (put_heap s (remove (w_heap s) n)) in
            if elem_is e (lit "Svg") then Some s
            else if elem_is e (lit "Pattern") then (match attrs with [] => finish | _ => Some s end)
            else if elem_is e (lit "Mask") then (if has_attr (NElem e attrs) (lit "Id") then Some s else finish)
            else if parent_is s n (lit "Switch") then Some s
            else finish
        end
    | _ => None
    end.
  (** visitor.rs:138-224: [element] at its default. *)
  Definition keep_enter (fuel : nat) (s : wstate ninfo unit) (n : nat) : option (wstate ninfo unit * bool) := Some (s, false).
  (** visitor.rs:138-224: callbacks at their default. *)
  Definition keep_leaf (fuel : nat) (s : wstate ninfo unit) (n : nat) : option (wstate ninfo unit) := Some s.
  (** The job ([prepare], remove_empty_containers.rs:38-50; the queries for stylesheets and scripts only read). *)
  Definition remove_empty_containers (enabled : bool) (fuel : nat) (s : wstate ninfo unit) (root : nat) : option (wstate ninfo unit) :=
    if enabled then visit_document ninfo unit is_elem keep_enter empty_exit keep_leaf fuel s root else Some s.
End EmptyContainers.

(** [has_attribute!(element, Id | Class)] (remove_useless_defs.rs:58, 87). *)
Definition id_or_class (d : ninfo) : bool := has_attr d (lit "Id") || has_attr d (lit "Class").
(** remove_useless_defs.rs:82-93 [collect_useful_nodes]: over the element children ([children_iter],
    crates/oxvg_ast/src/element.rs:552-554). *)
Fixpoint collect_useful (fuel : nat) (s : wstate ninfo unit) (n : nat) : option (list nat) :=
  match fuel with
  | O => None
  | S fuel =>
      match collect fuel (w_heap s) (child_nodes_iter (w_heap s) n) with
      | None => None
      | Some l =>
          (fix each (l : list nat) : option (list nat) :=
             match l with
             | [] => Some []
             | c :: r =>
                 if negb (is_elem (w_info s c)) then each r
                 else
                   match (if node_is (w_info s c) (lit "Style") || id_or_class (w_info s c) then Some [c] else collect_useful fuel s c), each r with
                   | Some a, Some b => Some (a ++ b)
                   | _, _ => None
                   end
             end) l
      end
  end.
(** remove_useless_defs.rs:53-79 [element]. *)
Definition defs_enter (fuel : nat) (s : wstate ninfo unit) (n : nat) : option (wstate ninfo unit * bool) :=
  match w_info s n with
  | NElem e attrs =>
      if id_or_class (NElem e attrs) then Some (s, false)
      else if negb (elem_is e (lit "Defs") || elem_is e (lit "SolidColor")) && negb (contains (elem_info e) i_non_rendering) then Some (s, false)
      else
        match collect_useful fuel s n with
        | None => None
        | Some [] => Some (put_heap s (remove (w_heap s) n), false)
        | Some l => Some (put_heap s (replace_children (w_heap s) n l), false)
        end
  | _ => None
  end.
(** visitor.rs:138-224: [exit_element] at its default. *)
Definition keep_exit (fuel : nat) (s : wstate ninfo unit) (n : nat) : option (wstate ninfo unit) := Some s.
(** The job ([prepare], remove_useless_defs.rs:41-51). *)
Definition remove_useless_defs (enabled : bool) (fuel : nat) (s : wstate ninfo unit) (root : nat) : option (wstate ninfo unit) :=
  if enabled then visit_document ninfo unit is_elem defs_enter keep_exit keep_leaf fuel s root else Some s.
