(** Model of the jobs that remove elements by a test on the element alone:
    crates/oxvg_optimiser/src/jobs/remove_raster_images.rs, remove_elements_by_attr.rs and remove_style_element.rs. *)
From Coq Require Import String List NArith Bool.
From Verif Require Import Chars NameModel AttrTable ElemModel TextModel ParseModel ListModel ScriptModel.
Import ListNotations.

(** [str::split] by a character (Rust core library; used at remove_raster_images.rs:67). *)
Fixpoint split_char (c : N) (s : text) : list text :=
  match s with
  | [] => [[]]
  | x :: r => if N.eqb x c then [] :: split_char c r else match split_char c r with p :: ps => (x :: p) :: ps | [] => [[x]] end
  end.
(** [str::split] by a text that is not empty, with the number of characters to pass over of the last match
    (Rust core library; used at remove_raster_images.rs:68). *)
Fixpoint split_text (pat : text) (skip : nat) (s : text) : list text :=
  match s with
  | [] => [[]]
  | x :: r =>
      match skip with
      | S k => split_text pat k r
      | O => if starts_with pat s then [] :: split_text pat (pred (List.length pat)) r
             else match split_text pat 0 r with p :: ps => (x :: p) :: ps | [] => [[x]] end
      end
  end.
(** remove_raster_images.rs 69: the names that are looked for.  [ext.get(0..3)] is the first three bytes, here characters:
    a slice that is not at a character boundary is none of the names. *)
Definition raster_name (e : text) : bool :=
  starts_with (lit "jpeg") e || starts_with (lit "jpg") e || starts_with (lit "png") e || starts_with (lit "gif") e.
(** remove_raster_images.rs 66-70 [is_raster_image]. *)
Definition is_raster_image (href : text) : bool := existsb raster_name (split_char 46 href ++ split_text (lit "image/") 0 href).
(** remove_raster_images.rs 49-63 [element]: whether the element is removed. *)
Definition raster_test (e : elem_id) (attrs : list (attr_id * text)) : bool :=
  if elem_is e (lit "Image") then match get_known (lit "XLinkHref") attrs with Some v => is_raster_image v | None => false end else false.

(** crates/oxvg_collections/src/attribute/core_attrs.rs 44-57 and crates/oxvg_collections/src/attribute.rs 1118: the id that an attribute id holds; one that does not parse holds none. *)
Definition id_value (v : text) : option text := match parse_string non_whitespace v with Ok t _ => Some t | _ => None end.
(** crates/oxvg_collections/src/attribute/list_of.rs 236-311 and crates/oxvg_collections/src/attribute.rs 861: the classes that an attribute class holds. *)
Definition class_value (v : text) : option (list text) :=
  match parse_string (parse_list non_whitespace (parse_string non_whitespace) Space) v with Ok l _ => Some l | _ => None end.
(** crates/oxvg_ast/src/class_list.rs 25-51: the attribute class is found without taking off an alias. *)
Definition class_list (attrs : list (attr_id * text)) : list text :=
  match find (fun a => match fst a with ABase (BKnown k) => text_eqb (kind_id k) (lit "Class") | _ => false end) attrs with
  | Some a => match class_value (snd a) with Some l => l | None => [] end
  | None => []
  end.
(** remove_elements_by_attr.rs 41-65 [element]: whether the element is removed. *)
Definition attr_test (ids classes : list text) (e : elem_id) (attrs : list (attr_id * text)) : bool :=
  match get_known (lit "Id") attrs with
  | Some v => match id_value v with Some i => existsb (text_eqb i) ids | None => false end
  | None => false
  end || existsb (fun c => existsb (text_eqb c) classes) (class_list attrs).
(** remove_style_element.rs 47-57 [element]. *)
Definition style_test (e : elem_id) (attrs : list (attr_id * text)) : bool := elem_is e (lit "Style").

(** crates/oxvg_ast/src/visitor.rs:320-378 with [Element::remove] (crates/oxvg_ast/src/node.rs:593-621) in the [element] hook: the next sibling is
    read before a child is visited (node.rs:245-255), and what is inside a removed element is visited too, to no effect on the document. *)
Fixpoint prune_node (test : elem_id -> list (attr_id * text) -> bool) (n : node) : list node :=
  match n with
  | Elem e attrs kids => if test e attrs then [] else [Elem e attrs (flat_map (prune_node test) kids)]
  | Other => [Other]
  end.
(** visitor.rs 355-377: the same on the children of the document. *)
Definition prune (test : elem_id -> list (attr_id * text) -> bool) (l : list node) : list node := flat_map (prune_node test) l.
(** The three jobs on the children of the document; a job that is off is skipped (remove_raster_images.rs:37-47, remove_style_element.rs:35-45). *)
Definition remove_raster_images (on : bool) (l : list node) : list node := if on then prune raster_test l else l.
(** remove_elements_by_attr.rs 38-66. *)
Definition remove_elements_by_attr (ids classes : list text) (l : list node) : list node := prune (attr_test ids classes) l.
(** remove_style_element.rs 32-58. *)
Definition remove_style_element (on : bool) (l : list node) : list node := if on then prune style_test l else l.
