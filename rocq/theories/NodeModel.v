(** What the nodes of a document carry, as the jobs that edit the tree see it. *)
From Coq Require Import String List NArith Bool.
From Verif Require Import Chars NameModel AttrTable ElemModel DomModel WalkModel.
Import ListNotations.

(** crates/oxvg_ast/src/node.rs:77-112 [NodeData]: elements with name and attributes, text, and the other
    kinds of nodes.  Simplification: an attribute is its id with its value as text. *)
Inductive ninfo : Type :=
| NElem (e : elem_id) (attrs : list (attr_id * text))
| NText (t : text)
| NOther (kind : N) (t : text).

(** [node_type() == Type::Element] (node.rs:752-761). *)
Definition is_elem (d : ninfo) : bool := match d with NElem _ _ => true | _ => false end.
(** [node_type() == Type::Text] (node.rs:752-761). *)
Definition is_text (d : ninfo) : bool := match d with NText _ => true | _ => false end.
(** [qual_name] of a node known to be an element compared to a known element: [is_element!] (element.rs:29-39). *)
Definition node_is (d : ninfo) (id : text) : bool := match d with NElem e _ => elem_is e id | _ => false end.
(** Comparing an attribute's name to a known attribute: [attr.name().unaliased()] against [AttrId::...]
    (crates/oxvg_collections/src/attribute.rs:509-519; crates/oxvg_ast/src/attribute.rs:49-59, the macro [has_attribute!]). *)
Definition attr_is (a : attr_id) (id : text) : bool :=
  match id_unaliased a with BKnown k => text_eqb (kind_id k) id | BUnknown _ => false end.
(** [has_attribute!] (crates/oxvg_ast/src/attribute.rs:49-59). *)
Definition has_attr (d : ninfo) (id : text) : bool :=
  match d with NElem _ attrs => existsb (fun a => attr_is (fst a) id) attrs | _ => false end.
