(** Model of the jobs that move attributes between groups and their children
    (crates/oxvg_optimiser/src/jobs/move_group_attrs_to_elems.rs, move_elems_attrs_to_group.rs,
    collapse_groups.rs). *)
From Coq Require Import String List NArith ZArith Bool Arith.
From Verif Require Import Chars.
Import ListNotations.

(** A transform function with its arguments (crates/oxvg_collections/src/attribute/transform.rs:24-40); kind 0 is
    [translate].  Simplification: arguments are whole numbers, the jobs only move and compare them. *)
Inductive tf : Type := TF (kind : N) (args : list Z).
(** The value of an attribute as written, and whether [visit_id] or [visit_url] finds a reference
    into the document in it (crates/oxvg_collections/src/content_type.rs:243-362). *)
Record value : Type := Val { v_text : text; v_ref : bool }.
(** Values of the type [Inheritable] (crates/oxvg_collections/src/attribute/inheritable.rs:10-17), and values of a
    presentation attribute that were not readable ([Attr::Unparsed]). *)
Inductive pval : Type := PDef (v : value) | PInherit | PUnparsed (t : text).
(** Presentation attributes (crates/oxvg_collections/src/attribute.rs:2244-2606): those whose property is inherited
    ([AttributeInfo::Inheritable], such as [fill]) and those whose property is not (such as
    [opacity]); both have values of the type [Inheritable]. *)
Inductive prop : Type := Inh (k : nat) | Non (k : nat).
(** [clip-path] (collapse_groups.rs:203). *)
Definition p_clip_path : prop := Non 0.
(** [mask] (collapse_groups.rs:203). *)
Definition p_mask : prop := Non 1.
(** [filter] (collapse_groups.rs:208-212). *)
Definition p_filter : prop := Non 2.
(** [opacity] (crates/oxvg_collections/src/attribute.rs:2244-2606), used in examples. *)
Definition p_opacity : prop := Non 3.
(** Declarations of a [style] attribute: a property or [transform] (collapse_groups.rs:208-212). *)
Inductive sdecl : Type := SDecl (p : prop) (v : value) | STransform (l : list tf).
(** Attributes (crates/oxvg_collections/src/attribute.rs:2566-2573 for [transform] and [transform-origin]); [KOther] stands for
    the attributes these jobs do not name. *)
Inductive other : Type := KId | KClass | KAttributeName | KOther (k : nat).
(** An attribute: [Attr] (crates/oxvg_collections/src/attribute.rs:305-335), as far as these jobs tell attributes apart. *)
Inductive gattr : Type :=
| ATransform (l : list tf) | ATransformInherit | ATransformUnparsed (t : text)
| AOrigin (x y : Z)
| AProp (p : prop) (v : pval)
| AStyle (decls : list sdecl)
| AOther (o : other) (v : value).
(** Elements as these jobs tell them apart: [g], [text], those with a [d] attribute ([path] and the
    like), [switch], animation elements, elements that are not drawn where they stand ([clipPath] and
    the like), and others (collapse_groups.rs:67-70, 168, 183; move_group_attrs_to_elems.rs:58, 82). *)
Inductive ename : Type := EG | EText | ED | ESwitch | EAnimation | EResource | EOther (k : nat).
(** A node is an element or any other node (crates/oxvg_ast/src/node.rs:166-184). *)
Inductive gnode : Type :=
| GE (name : ename) (attrs : list gattr) (kids : list gnode)
| GT (t : text).

(** [Attr::name] (crates/oxvg_collections/src/attribute.rs:435-442). *)
Inductive aname : Type := NTransform | NOrigin | NProp (p : prop) | NStyle | NOther (o : other).
(** [Attr::name] (crates/oxvg_collections/src/attribute.rs:435-442). *)
Definition name_of (a : gattr) : aname :=
  match a with
  | ATransform _ | ATransformInherit | ATransformUnparsed _ => NTransform
  | AOrigin _ _ => NOrigin
  | AProp p _ => NProp p
  | AStyle _ => NStyle
  | AOther o _ => NOther o
  end.
(** Equality of names ([PartialEq] for [AttrId]) and of attributes ([PartialEq] for [Attr],
    crates/oxvg_collections/src/attribute.rs:533-543). *)
Definition prop_dec (a b : prop) : {a = b} + {a <> b}.
Proof. decide equality; apply Nat.eq_dec. Defined.
(** [PartialEq] for [AttrId] (crates/oxvg_collections/src/attribute.rs:533-543). *)
Definition aname_dec (a b : aname) : {a = b} + {a <> b}.
Proof. decide equality; try apply prop_dec. decide equality; apply Nat.eq_dec. Defined.
(** [PartialEq] for the transforms in an attribute (crates/oxvg_collections/src/attribute.rs:533-543). *)
Definition tf_dec (a b : tf) : {a = b} + {a <> b}.
Proof. decide equality; [apply (list_eq_dec Z.eq_dec)|apply N.eq_dec]. Defined.
(** [PartialEq] for values (crates/oxvg_collections/src/attribute.rs:533-543). *)
Definition value_dec (a b : value) : {a = b} + {a <> b}.
Proof. decide equality; [apply bool_dec|apply (list_eq_dec N.eq_dec)]. Defined.
(** [PartialEq] for [Attr] (crates/oxvg_collections/src/attribute.rs:533-543). *)
Definition gattr_dec (a b : gattr) : {a = b} + {a <> b}.
Proof.
  decide equality; try apply (list_eq_dec tf_dec); try apply (list_eq_dec N.eq_dec); try apply Z.eq_dec; try apply prop_dec;
    try apply value_dec.
  - decide equality; [apply value_dec|apply (list_eq_dec N.eq_dec)].
  - apply list_eq_dec. decide equality; [apply value_dec|apply prop_dec|apply (list_eq_dec tf_dec)].
  - decide equality; apply Nat.eq_dec.
Defined.
(** [PartialEq] for [AttrId], as a boolean (crates/oxvg_collections/src/attribute.rs:533-543). *)
Definition name_eqb (a b : aname) : bool := if aname_dec a b then true else false.

(** [get_named_item], [set_named_item], [remove_named_item] (crates/oxvg_ast/src/attribute.rs:154-159,
    212-233).  Simplification: names are compared as a whole; see AttrModel for ids and prefixes. *)
Definition get_attr (n : aname) (l : list gattr) : option gattr := find (fun a => name_eqb (name_of a) n) l.
(** [has_attribute!] (crates/oxvg_ast/src/attribute.rs:49-59). *)
Definition has_attr (n : aname) (l : list gattr) : bool := match get_attr n l with Some _ => true | None => false end.
(** [set_named_item] (crates/oxvg_ast/src/attribute.rs:222-233). *)
Fixpoint set_attr (x : gattr) (l : list gattr) : list gattr :=
  match l with
  | [] => [x]
  | a :: l => if name_eqb (name_of a) (name_of x) then x :: l else a :: set_attr x l
  end.
(** [remove_named_item] (crates/oxvg_ast/src/attribute.rs:212-216). *)
Fixpoint remove_attr (n : aname) (l : list gattr) : list gattr :=
  match l with
  | [] => []
  | a :: l => if name_eqb (name_of a) n then l else a :: remove_attr n l
  end.

(** [Element::new] succeeds (crates/oxvg_ast/src/element.rs:552-554). *)
Definition is_elem (n : gnode) : bool := match n with GE _ _ _ => true | GT _ => false end.
(** [is_element!(.., G)] (move_group_attrs_to_elems.rs:58, move_elems_attrs_to_group.rs:65, collapse_groups.rs:70). *)
Definition is_g (e : ename) : bool := match e with EG => true | _ => false end.
(** [expected_attributes().contains(&AttrId::D)] (crates/oxvg_collections/src/element.rs:248-254). *)
Definition expects_d (e : ename) : bool := match e with ED => true | _ => false end.
(** [Node::is_empty] (crates/oxvg_ast/src/node.rs:449-455). *)
Definition is_blank (t : text) : bool := forallb is_whitespace t.
(** [Node::is_empty] (crates/oxvg_ast/src/node.rs:449-455). *)
Definition is_empty (kids : list gnode) : bool :=
  forallb (fun k => match k with GE _ _ _ => false | GT t => is_blank t end) kids.

(** ** move_group_attrs_to_elems.rs *)

(** Whether [visit_id] or [visit_url] finds a reference in the attribute
    (move_group_attrs_to_elems.rs:67-77; [Id] is passed over). *)
Definition attr_refs (a : gattr) : bool :=
  match a with
  | AProp _ (PDef v) => v_ref v
  | AStyle l => existsb (fun d => match d with SDecl _ v => v_ref v | STransform _ => false end) l
  | AOther KId _ => false
  | AOther _ v => v_ref v
  | _ => false
  end.
(** The children a transform may be handed to (move_group_attrs_to_elems.rs:80-84). *)
Definition takes_transform (k : gnode) : bool :=
  match k with
  | GE name attrs _ =>
      (match name with EG | EText => true | _ => expects_d name end) && negb (has_attr (NOther KId) attrs)
  | GT _ => true
  end.
(** The changed attributes of a group and the transform handed to its children
    (move_group_attrs_to_elems.rs:58-94). *)
Definition take_transform (name : ename) (attrs : list gattr) (kids : list gnode) : list gattr * option (list tf) :=
  if negb (is_g name) then (attrs, None)
  else if is_empty kids then (attrs, None)
  else match get_attr NTransform attrs with
       | None => (attrs, None)
       | Some t =>
           if existsb attr_refs attrs then (attrs, None)
           else if negb (forallb takes_transform kids) then (attrs, None)
           else let rest := remove_attr NTransform attrs in
                match t with
                | ATransform l => (rest, Some l)
                | ATransformInherit => (set_attr t rest, None)
                | _ => (rest, None)
                end
       end.
(** A child given the transform of its group (move_group_attrs_to_elems.rs:95-103). *)
Definition give_transform (l : list tf) (attrs : list gattr) : list gattr :=
  match get_attr NTransform attrs with
  | Some (ATransform c) => set_attr (ATransform (l ++ c)) attrs
  | _ => set_attr (ATransform l) attrs
  end.
(** The transform given to a child, if there is one to give (move_group_attrs_to_elems.rs:95-103). *)
Definition given (o : option (list tf)) (attrs : list gattr) : list gattr :=
  match o with Some l => give_transform l attrs | None => attrs end.
(** The job on an element and, after it, on its children (move_group_attrs_to_elems.rs:53-106;
    crates/oxvg_ast/src/visitor.rs:312-377).  [o] is what the parent's visit put on this element. *)
Fixpoint push_down (o : option (list tf)) (n : gnode) {struct n} : gnode :=
  match n with
  | GT t => GT t
  | GE name attrs kids =>
      let (attrs, o) := take_transform name (given o attrs) kids in
      GE name attrs (map (push_down o) kids)
  end.

(** ** move_elems_attrs_to_group.rs *)

(** The attributes of the first child that may be moved (move_elems_attrs_to_group.rs:119-121). *)
Definition movable (a : gattr) : bool :=
  match name_of a with NTransform | NProp (Inh _) => true | _ => false end.
(** [get_common_attributes] (move_elems_attrs_to_group.rs:111-131).  Simplification: the map keeps the
    order of the first child, the order of the ids only decides the order on the group. *)
Definition elem_attrs (k : gnode) : list (list gattr) := match k with GE _ attrs _ => [attrs] | GT _ => [] end.
(** [get_common_attributes] (move_elems_attrs_to_group.rs:111-131). *)
Definition common_attributes (kids : list gnode) : list gattr :=
  match flat_map elem_attrs kids with
  | [] => []
  | first :: _ =>
      filter (fun a => forallb (fun attrs => match get_attr (name_of a) attrs with
                                             | Some b => if gattr_dec b a then true else false
                                             | None => false
                                             end) (flat_map elem_attrs kids))
        (filter movable first)
  end.
(** Putting a common attribute on the group (move_elems_attrs_to_group.rs:93-106). *)
Definition put_on_group (attrs : list gattr) (a : gattr) : list gattr :=
  match a with
  | ATransform l =>
      match get_attr NTransform attrs with
      | Some (ATransform g) => set_attr (ATransform (g ++ l)) attrs
      | _ => set_attr a attrs
      end
  | _ => set_attr a attrs
  end.
(** Taking the common attributes off a child (move_elems_attrs_to_group.rs:93-106). *)
Definition strip_common (common : list gattr) (k : gnode) : gnode :=
  match k with
  | GE name attrs kids => GE name (fold_left (fun l a => remove_attr (name_of a) l) common attrs) kids
  | GT t => GT t
  end.
(** [exit_element] (move_elems_attrs_to_group.rs:60-108). *)
Definition hoist (name : ename) (attrs : list gattr) (kids : list gnode) : gnode :=
  if negb (is_g name) then GE name attrs kids
  else match filter is_elem kids with
       | _ :: _ :: _ =>
           let common := common_attributes kids in
           let all_d := forallb (fun k => match k with GE e _ _ => expects_d e | GT _ => true end) kids in
           let common := if all_d || has_attr (NProp p_filter) attrs || has_attr (NProp p_clip_path) attrs || has_attr (NProp p_mask) attrs
                         then filter (fun a => negb (name_eqb (name_of a) NTransform)) common else common in
           GE name (fold_left put_on_group common attrs) (map (strip_common common) kids)
       | _ => GE name attrs kids
       end.
(** The job: children first (crates/oxvg_ast/src/visitor.rs:312-349). *)
Fixpoint hoist_all (n : gnode) : gnode :=
  match n with
  | GT t => GT t
  | GE name attrs kids => hoist name attrs (map hoist_all kids)
  end.

(** ** collapse_groups.rs *)

(** The local name of an attribute: what [attributeName] of an animation is compared with
    (collapse_groups.rs:121, 184).  The names themselves are an argument of the model. *)
Section Collapse.
Variable local_name : aname -> text.

(** Whether an element is an animation of the given attribute (collapse_groups.rs:180-187). *)
Definition animates (n : aname) (name : ename) (attrs : list gattr) : bool :=
  match name with
  | EAnimation => match get_attr (NOther KAttributeName) attrs with
                  | Some (AOther _ v) => text_eqb (v_text v) (local_name n)
                  | _ => false
                  end
  | _ => false
  end.
(** Whether some descendant-or-self satisfies a test ([breadth_first], crates/oxvg_ast/src/element.rs:706-708). *)
Fixpoint any_elem (p : ename -> list gattr -> bool) (n : gnode) {struct n} : bool :=
  match n with
  | GT _ => false
  | GE name attrs kids => p name attrs || existsb (any_elem p) kids
  end.
(** [is_group_identifiable], [is_position_visually_unstable], [is_node_with_filter] (collapse_groups.rs:192-212). *)
Definition is_group_identifiable (g c : list gattr) : bool :=
  has_attr (NOther KId) c && (negb (has_attr (NOther KClass) g) || negb (has_attr (NOther KClass) c)).
(** collapse_groups.rs:199-206. *)
Definition is_position_visually_unstable (g : list gattr) (name : ename) (c : list gattr) : bool :=
  (has_attr (NProp p_clip_path) g || has_attr (NProp p_mask) g) || (is_g name && has_attr NTransform c).
(** collapse_groups.rs:208-212. *)
Definition is_node_with_filter (g : list gattr) : bool :=
  has_attr (NProp p_filter) g ||
  match get_attr NStyle g with
  | Some (AStyle l) => existsb (fun d => match d with SDecl p _ => if prop_dec p p_filter then true else false | STransform _ => false end) l
  | _ => false
  end.
(** The outcome of the loop over the attributes of the group (collapse_groups.rs:116-154). *)
Inductive moved : Type :=
| Panicked                                  (** a second borrow of the child's attributes *)
| Moved (group child : list gattr).
(** [ContentType::Inheritable] for the value of the child (collapse_groups.rs:140): readable values of
    presentation attributes, [transform] among them. *)
Inductive how : Type := HInherit | HDefined | HNot.
(** [ContentType::Inheritable] (collapse_groups.rs:140). *)
Definition how_inheritable (a : gattr) : how :=
  match a with
  | ATransformInherit | AProp _ PInherit => HInherit
  | ATransform _ | AProp _ (PDef _) => HDefined
  | _ => HNot
  end.
(** The loop (collapse_groups.rs:116-154).  [todo] are the attributes not looked at, [done] the ones
    looked at as they are now, [gone] the names to be removed. [cname], [ckids] are the child's name and
    children. Looking for animations borrows the attributes of the child when it is an animation itself,
    which panics while one of them is borrowed mutably (line 120). *)
Definition is_anim (name : ename) : bool := match name with EAnimation => true | _ => false end.
(** The removal after the loop (collapse_groups.rs:152-154). *)
Definition remove_all (gone : list aname) (l : list gattr) : list gattr := fold_left (fun l n => remove_attr n l) gone l.
(** The loop (collapse_groups.rs:116-154). *)
Fixpoint move_loop (cname : ename) (ckids : list gnode) (todo done : list gattr) (gone : list aname) (child : list gattr) {struct todo} : moved :=
  match todo with
  | [] => Moved (remove_all gone done) child
  | a :: todo =>
      let n := name_of a in
      if is_anim cname && has_attr n child then Panicked
      else if animates n cname child || existsb (any_elem (animates n)) ckids then Moved (done ++ a :: todo) child
      else match get_attr n child with
           | None => move_loop cname ckids todo (done ++ [a]) (gone ++ [n]) (set_attr a child)
           | Some c =>
               match a with
               | ATransform l =>
                   match c with
                   | ATransform cl => move_loop cname ckids todo (done ++ [ATransform []]) (gone ++ [n]) (set_attr (ATransform (l ++ cl)) child)
                   | _ => move_loop cname ckids todo (done ++ [a]) (gone ++ [n]) child
                   end
               | _ =>
                   match how_inheritable c with
                   | HInherit => move_loop cname ckids todo (done ++ [a]) (gone ++ [n]) (set_attr a child)
                   | HDefined => move_loop cname ckids todo (done ++ [a]) (gone ++ [n]) child
                   | HNot => if gattr_dec a c then move_loop cname ckids todo (done ++ [a]) (gone ++ [n]) child
                             else Moved (remove_all gone (done ++ a :: todo)) child
                   end
               end
           end
  end.
(** [move_attributes_to_child] (collapse_groups.rs:86-155): the group's attributes and the new children. *)
Definition set_child (attrs : list gattr) (k : gnode) : gnode :=
  match k with GE name _ kids => GE name attrs kids | GT t => GT t end.
(** [move_attributes_to_child] (collapse_groups.rs:86-155). *)
Definition move_attributes (g : list gattr) (kids : list gnode) : option (list gattr * list gnode) :=
  match filter is_elem kids with
  | [GE cname c ckids] =>
      match g with
      | [] => Some (g, kids)
      | _ =>
          if is_group_identifiable g c || is_position_visually_unstable g cname c || is_node_with_filter g then Some (g, kids)
          else match move_loop cname ckids g [] [] c with
               | Panicked => None
               | Moved g c => Some (g, map (set_child c) kids)
               end
      end
  | _ => Some (g, kids)
  end.
(** [flatten_when_all_attributes_moved] (collapse_groups.rs:157-176). *)
Definition flatten_group (g : list gattr) (kids : list gnode) : list gnode :=
  match g with
  | [] => if existsb (any_elem (fun name _ => is_anim name)) kids then [GE EG g kids] else kids
  | _ => [GE EG g kids]
  end.
(** [exit_element] (collapse_groups.rs:58-77) for an element that may be collapsed ([free]: its parent
    is an element other than [switch]). *)
Definition exit_group (free : bool) (name : ename) (attrs : list gattr) (kids : list gnode) : option (list gnode) :=
  if negb free || negb (is_g name) || negb (existsb is_elem kids) then Some [GE name attrs kids]
  else match move_attributes attrs kids with
       | None => None
       | Some (attrs, kids) => Some (flatten_group attrs kids)
       end.
(** The job, children first; [None] is a panic ([is_element!(.., Switch)] (collapse_groups.rs:67)). *)
Definition is_switch (name : ename) : bool := match name with ESwitch => true | _ => false end.
(** [exit_element] (collapse_groups.rs:58-77), children first; [None] is a panic. *)
Fixpoint collapse (free : bool) (n : gnode) {struct n} : option (list gnode) :=
  match n with
  | GT t => Some [GT t]
  | GE name attrs kids =>
      match (fix go (l : list gnode) : option (list gnode) :=
               match l with
               | [] => Some []
               | k :: l => match collapse (negb (is_switch name)) k, go l with
                           | Some a, Some b => Some (a ++ b)
                           | _, _ => None
                           end
               end) kids with
      | None => None
      | Some kids => exit_group free name attrs kids
      end
  end.
End Collapse.
