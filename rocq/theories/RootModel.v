(** Model of the jobs that edit the attributes of svg elements: crates/oxvg_optimiser/src/jobs/add_attributes_to_s_v_g_element.rs, add_classes_to_s_v_g_element.rs and
    remove_x_m_l_n_s.rs.  Values of attributes are given as they are written. *)
From Coq Require Import String List NArith Bool.
From Verif Require Import Chars NameModel AttrTable ElemModel TextModel ParseModel ListModel ScriptModel PruneModel.
Import ListNotations.

(** crates/oxvg_ast/src/element.rs 129-160 [find_xmlns], of the root: it has no parent element. *)
Definition find_xmlns (attrs : list (attr_id * text)) (p : option text) : text :=
  match find (fun a => match fst a, p with
                       | ABase (BKnown k), None => text_eqb (kind_id k) (lit "XMLNS")
                       | ABase (BUnknown (mkName (PKnown XMLNS) local)), Some p => text_eqb p local
                       | _, _ => false
                       end) attrs with
  | Some a => snd a
  | None => known_uri SVG
  end.
(** crates/oxvg_ast/src/element.rs 168-186 [Element::parse_attr_id]; [None]: a panic (174-178). *)
Definition root_attr_id (e : elem_id) (attrs : list (attr_id * text)) (name : text) : option attr_id :=
  match split_char 58 name with
  | [local] => Some (parse_attr_id e (prefix_new (find_xmlns attrs None) None) local)
  | [p; local] => Some (parse_attr_id e (prefix_new (find_xmlns attrs (Some p)) (Some p)) local)
  | _ => None
  end.
(** crates/oxvg_ast/src/element.rs 305-307 [has_attribute] (attribute.rs:154-159): names are compared behind aliases. *)
Definition has_attribute (attrs : list (attr_id * text)) (i : attr_id) : bool := existsb (fun a => id_eqb (fst a) i) attrs.
(** crates/oxvg_ast/src/attribute.rs 222-233 [set_named_item]. *)
Fixpoint set_attribute (attrs : list (attr_id * text)) (x : attr_id * text) : list (attr_id * text) :=
  match attrs with
  | [] => [x]
  | a :: l => if prefix_eqb (id_prefix (fst a)) (id_prefix (fst x)) && text_eqb (id_local (fst a)) (id_local (fst x)) then x :: l else a :: set_attribute l x
  end.
(** add_attributes_to_s_v_g_element.rs 81-91: the loop, over the pairs in the order of their names. *)
Fixpoint add_loop (e : elem_id) (pairs : list (text * text)) (attrs : list (attr_id * text)) : option (list (attr_id * text)) :=
  match pairs with
  | [] => Some attrs
  | (name, value) :: pairs =>
      match root_attr_id e attrs name with
      | None => None
      | Some i => add_loop e pairs (if has_attribute attrs i then attrs else set_attribute attrs (i, value))
      end
  end.
(** add_attributes_to_s_v_g_element.rs 72-93 [element]. *)
Definition add_attributes (pairs : list (text * text)) (root : bool) (e : elem_id) (attrs : list (attr_id * text)) : option (list (attr_id * text)) :=
  if negb root || negb (elem_is e (lit "Svg")) then Some attrs else add_loop e pairs attrs.

(** [HashSet::insert] and [extend] (add_classes_to_s_v_g_element.rs:103-111): as a list without duplicates. *)
Fixpoint distinct (l : list text) : list text := match l with [] => [] | t :: l => if existsb (text_eqb t) l then distinct l else t :: distinct l end.
Section Classes.
  (** The order in which the set is read out (add_classes_to_s_v_g_element.rs:112). *)
  Variable shuffle : list text -> list text.
  (** add_classes_to_s_v_g_element.rs 101-128: the new classes, if they change. *)
  Definition new_classes (names : option (list text)) (name : option text) (old : list text) : option (list text) :=
    match names with
    | Some names => Some (shuffle (distinct (old ++ names)))
    | None => match name with Some n => Some (split_whitespace n) | None => None end
    end.
  (** crates/oxvg_ast/src/attribute.rs 99-111 [get_attribute_mut!] and add_classes_to_s_v_g_element.rs 97-128: the first attribute with the local name class in the
      namespace; an alias is a panic ([None]); one that does not parse is left alone. *)
  Fixpoint class_loop (names : option (list text)) (name : option text) (attrs : list (attr_id * text)) : option (list (attr_id * text)) :=
    match attrs with
    | [] => Some []
    | (a, v) :: l =>
        if prefix_eqb (id_prefix a) (PKnown SVG) && text_eqb (id_local a) (lit "class") then
          match a with
          | AAliased _ _ => None
          | ABase (BUnknown _) => Some ((a, v) :: l)
          | ABase (BKnown _) =>
              match class_value v with
              | None => Some ((a, v) :: l)
              | Some old => match new_classes names name old with Some new => Some ((a, print_list (fun t => t) Space new) :: l) | None => Some ((a, v) :: l) end
              end
          end
        else match class_loop names name l with Some l => Some ((a, v) :: l) | None => None end
    end.
  (** add_classes_to_s_v_g_element.rs 88-129 [element]. *)
  Definition add_classes (names : option (list text)) (name : option text) (root : bool) (e : elem_id) (attrs : list (attr_id * text)) : option (list (attr_id * text)) :=
    if negb root || negb (elem_is e (lit "Svg")) then Some attrs else class_loop names name attrs.
End Classes.

(** crates/oxvg_ast/src/attribute.rs 212-216 [remove_named_item], of a known attribute. *)
Fixpoint remove_known (id : text) (attrs : list (attr_id * text)) : list (attr_id * text) :=
  match attrs with
  | [] => []
  | a :: l => if match id_unaliased (fst a) with BKnown k => text_eqb (kind_id k) id | BUnknown _ => false end then l else a :: remove_known id l
  end.
(** remove_x_m_l_n_s.rs 51-62 [element]. *)
Definition remove_xmlns (e : elem_id) (attrs : list (attr_id * text)) : list (attr_id * text) :=
  if elem_is e (lit "Svg") then remove_known (lit "XMLNS") attrs else attrs.
