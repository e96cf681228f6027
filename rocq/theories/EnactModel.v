(** Model of what the actions of an actor do to the document (crates/oxvg_actions/src/actions/manipulate.rs,
    transform.rs, structure/creation.rs, manipulate/path.rs).  A document is a list of nodes; a node is its
    position in it, as in SelectModel.  Which nodes the ids of the selection name, how the selection is
    kept and how the tree is put in order again is the subject of C41; the history is that of C40.  The numbers,
    the declarations of CSS and path data are parameters, and so are their readers and the operations on them.
    Attributes under other prefixes are attributes with other names here. *)
From Coq Require Import String List NArith ZArith Bool Arith.
From Verif Require Import Chars ActionModel.
Import ListNotations.

Section Enact.
  (** The types of numbers, declarations and path data; [0.0] (transform.rs:48, 82). *)
  Context {num decl path : Type}.
  Variable zero : num.

  (** [SVGTransform] (crates/oxvg_collections/src/attribute/transform.rs:24-37). *)
  Inductive tf : Type :=
  | TMatrix (a b c d e f : num) | TTranslate (x y : num) | TScale (x y : num) | TRotate (angle x y : num) | TSkewX (x : num) | TSkewY (y : num).
  (** [Attr] (crates/oxvg_collections/src/attribute.rs:407-428): the kinds that the actions look at.  [Transforms None] is
      [Inheritable::Inherited]; [Data] is the path data and [Rule] whether the fill rule is evenodd. *)
  Inductive value : Type :=
  | Transforms (l : option (list tf)) | Declared (important normal : list decl) | Classes (l : list text)
  | Data (p : path) | Rule (evenodd : bool) | Unparsed (t : text) | Valued (t : text).
  (** [ElementId] (crates/oxvg_collections/src/element.rs:157-167): the prefix that is written, the local name and whether the
      table of elements has it. *)
  Inductive ename : Type := EName (prefix : option text) (local : text) (known : bool).
  (** A node (crates/oxvg_ast/src/node.rs:77-98, 166-184): elements have a name. *)
  Record node : Type := Node { n_name : option ename; n_attrs : list (text * value); n_kids : list nat }.

  (** [Attributes::get_named_item_mut] (crates/oxvg_ast/src/attribute.rs:171-177). *)
  Definition find_attr (name : text) (l : list (text * value)) : option value :=
    option_map snd (find (fun a => text_eqb (fst a) name) l).
  (** [Attributes::set_named_item] (crates/oxvg_ast/src/attribute.rs:222-233). *)
  Fixpoint set_attr (name : text) (v : value) (l : list (text * value)) : list (text * value) :=
    match l with
    | [] => [(name, v)]
    | a :: r => if text_eqb (fst a) name then (name, v) :: r else a :: set_attr name v r
    end.
  (** [Attributes::remove_named_item] (crates/oxvg_ast/src/attribute.rs:212-216). *)
  Fixpoint remove_attr (name : text) (l : list (text * value)) : list (text * value) :=
    match l with [] => [] | a :: r => if text_eqb (fst a) name then r else a :: remove_attr name r end.
  (** A change of one node (crates/oxvg_ast/src/element.rs:384-387). *)
  Fixpoint change (i : nat) (f : node -> node) (d : list node) : list node :=
    match d, i with
    | [], _ => []
    | n :: d, 0 => f n :: d
    | n :: d, S i => n :: change i f d
    end.
  (** A change of the attributes of a node (crates/oxvg_ast/src/element.rs:384-387). *)
  Definition with_attrs (f : list (text * value) -> list (text * value)) (n : node) : node := Node (n_name n) (f (n_attrs n)) (n_kids n).

  (** What an action comes to (error.rs:11-39); a panic is one of [parse_attr_id]
      (crates/oxvg_ast/src/element.rs:168-186). *)
  Inductive outcome : Type := Done (d : list node) | Failed | Panicked.

  (** [Allocator::get] and [Node::element] (manipulate.rs:33-38, transform.rs:120-126). *)
  Definition element_of (table : list nat) (d : list node) (id : Z) : option (nat * ename) :=
    if (id <? 0)%Z then None
    else match nth_error table (Z.to_nat id) with
         | None => None
         | Some i => match nth_error d i with Some n => match n_name n with Some e => Some (i, e) | None => None end | None => None end
         end.
  (** The loop over the selection (manipulate.rs:31-46, transform.rs:119-145), which is left by [?]. *)
  Fixpoint each (table : list nat) (f : nat -> ename -> list node -> outcome) (ids : list Z) (d : list node) : outcome :=
    match ids with
    | [] => Done d
    | id :: ids =>
      match element_of table d id with
      | None => each table f ids d
      | Some (i, e) => match f i e d with Done d => each table f ids d | o => o end
      end
    end.

  (** [ElementId::parse_attr_id] finds the attribute (crates/oxvg_collections/src/element.rs:321-343), and [Attr::new] reads its value. *)
  Variable accepts : ename -> text -> bool.
  Variable read_attr : text -> text -> value.
  (** The colons of a name (crates/oxvg_ast/src/element.rs:169-178). *)
  Definition colons (name : text) : nat := List.length (filter (N.eqb 58) name).
  (** [Actor::attr] (manipulate.rs:22-50). *)
  Definition attr (table : list nat) (name value : text) : list Z -> list node -> outcome :=
    each table (fun i e d =>
      if 2 <=? colons name then Panicked
      else if negb (accepts e name) then Done d
      else Done (change i (with_attrs (set_attr name (read_attr name value))) d)).

  (** [ClassList::attr] (crates/oxvg_ast/src/class_list.rs:25-52). *)
  Fixpoint class_attr (l : list (text * value)) : option (list text) :=
    match l with [] => None | (_, Classes c) :: _ => Some c | _ :: l => class_attr l end.
  (** Writing through [ClassList::attr] (crates/oxvg_ast/src/class_list.rs:25-52). *)
  Fixpoint put_classes (c : list text) (l : list (text * value)) : list (text * value) :=
    match l with [] => [] | (n, Classes _) :: l => (n, Classes c) :: l | a :: l => a :: put_classes c l end.
  (** [ClassList::toggle] with [contains], [remove] and [add] (crates/oxvg_ast/src/class_list.rs:73-97, 131-140, 165-173). *)
  Definition toggle (c : text) (l : list (text * value)) : list (text * value) :=
    match class_attr l with
    | None => set_attr (lit "class") (Classes [c]) l
    | Some old =>
      if existsb (text_eqb c) old then
        match filter (fun x => negb (text_eqb c x)) old with
        | [] => remove_attr (lit "class") l
        | kept => put_classes kept l
        end
      else put_classes (old ++ [c]) l
    end.
  (** [Actor::class] (manipulate.rs:61-81). *)
  Definition class (table : list nat) (c : text) : list Z -> list node -> outcome :=
    each table (fun i _ d => Done (change i (with_attrs (toggle c)) d)).

  (** [ElementId::is_permitted_attribute] of [style], an attribute of the core group, which every element has
      (crates/oxvg_collections/src/element.rs:236-267, attribute.rs:1810-1813). *)
  Definition permits_style (e : ename) : bool := true.
  (** [str::split_once] (manipulate.rs:117). *)
  Fixpoint split_once (p s : text) : option (text * text) :=
    if starts_with p s then Some ([], skipn (List.length p) s)
    else match s with
         | [] => None
         | c :: s => match split_once p s with Some (a, b) => Some (c :: a, b) | None => None end
         end.
  (** The white space of [char::is_whitespace] under 128 (manipulate.rs:117, [trim_end]); other white space is left out. *)
  Definition white (c : N) : bool := ((9 <=? c) && (c <=? 13) || (c =? 32))%N.
  (** [str::trim_end] (manipulate.rs:117). *)
  Fixpoint drop_white (s : text) : text := match s with [] => [] | c :: r => if white c then drop_white r else s end.
  (** [str::trim_end] (manipulate.rs:117). *)
  Definition trim_end (s : text) : text := rev (drop_white (rev s)).
  (** Taking [!important] from a value (manipulate.rs:117-120). *)
  Definition importance (v : text) : text * bool :=
    match split_once (lit "!important") (trim_end v) with
    | Some (v, []) => (v, true)
    | _ => (v, false)
    end.
  (** [PropertyId::parse_string] and [Property::parse_string] (manipulate.rs:114-127). *)
  Variable read_decl : text -> text -> option decl.
  (** [Vec::push] on one of the lists (manipulate.rs:130-134, 140-144). *)
  Definition pushed (imp : bool) (x : decl) (i n : list decl) : value := if imp then Declared (i ++ [x]) n else Declared i (n ++ [x]).
  (** The change of the style attribute (manipulate.rs:129-147). *)
  Definition add_style (imp : bool) (x : decl) (l : list (text * value)) : list (text * value) :=
    match find_attr (lit "style") l with
    | Some (Declared i n) => set_attr (lit "style") (pushed imp x i n) l
    | _ => set_attr (lit "style") (pushed imp x [] []) l
    end.
  (** [Actor::style] (manipulate.rs:93-150). *)
  Definition style (table : list nat) (property v : text) : list Z -> list node -> outcome :=
    each table (fun i e d =>
      if negb (permits_style e) then Done d
      else match read_decl property (fst (importance v)) with
           | None => Failed
           | Some x => Done (change i (with_attrs (add_style (snd (importance v)) x)) d)
           end).

  (** The change of the transform attribute (transform.rs:130-144). *)
  Definition add_transform (t : tf) (l : list (text * value)) : list (text * value) :=
    match find_attr (lit "transform") l with
    | Some (Transforms (Some ts)) => set_attr (lit "transform") (Transforms (Some (ts ++ [t]))) l
    | _ => set_attr (lit "transform") (Transforms (Some [t])) l
    end.
  (** [Actor::append_transform] (transform.rs:115-147). *)
  Definition append_transform (table : list nat) (t : tf) : list Z -> list node -> outcome :=
    each table (fun i e d =>
      if negb (permits_style e) then Done d else Done (change i (with_attrs (add_transform t)) d)).

  (** [Actor::insert] reads a name (structure/creation.rs:31-39; crates/oxvg_collections/src/element.rs:157-167). *)
  Variable known_element : text -> bool.
  (** [Actor::insert] reads a name (structure/creation.rs:31-39). *)
  Definition element_id (q : text) : ename :=
    match split_once [58%N] q with
    | Some (p, l) => EName (Some p) l (known_element l)
    | None => EName None q (known_element q)
    end.
  (** The elements among the selected nodes (structure/creation.rs:41-46). *)
  Definition elements (table : list nat) (d : list node) (ids : list Z) : list nat :=
    flat_map (fun id => match element_of table d id with Some (i, _) => [i] | None => [] end) ids.
  (** [Element::append] of a new node (crates/oxvg_ast/src/element.rs:472-484). *)
  Definition with_kid (k : nat) (n : node) : node := Node (n_name n) (n_attrs n) (n_kids n ++ [k]).
  (** The loop of [Actor::insert] (structure/creation.rs:47-52): the document and the new elements. *)
  Fixpoint insert_each (e : ename) (sel : list nat) (d : list node) : list node * list nat :=
    match sel with
    | [] => (d, [])
    | i :: sel =>
      let new := List.length d in
      let (d, l) := insert_each e sel (change i (with_kid new) d ++ [Node (Some e) [] []]) in
      (d, new :: l)
    end.
  (** [Actor::insert] (structure/creation.rs:21-63). *)
  Definition insert (table : list nat) (q : text) (ids : list Z) (d : list node) : list node * list nat :=
    insert_each (element_id q) (elements table d ids) d.

  (** [OverlayRule] (manipulate/path.rs:24-80). *)
  Inductive overlay : Type := Intersect | Union | Difference | Xor.
  (** [Path::from_svg], [boolean_op] and [Path::to_svg] (manipulate/path.rs:104, 115-126, 138), each path with whether it is evenodd. *)
  Variable from_svg to_svg : path -> path.
  Variable combine : overlay -> path * bool -> path * bool -> path.
  (** The computed fill rule (manipulate/path.rs:106-114). *)
  Variable evenodd : list node -> nat -> bool.
  (** The paths among the selected elements, without those that are written with a prefix; data is always read, C20 (manipulate/path.rs:95-101). *)
  Definition path_of (d : list node) (i : nat) : option path :=
    match nth_error d i with
    | Some (Node (Some (EName None l true)) a []) =>
      if text_eqb l (lit "path") then match find_attr (lit "d") a with Some (Data p) => Some p | _ => None end else None
    | _ => None
    end.
  (** [Node::remove] (crates/oxvg_ast/src/node.rs:593-617). *)
  Definition detach (i : nat) (d : list node) : list node :=
    map (fun n => Node (n_name n) (n_attrs n) (filter (fun k => negb (k =? i)) (n_kids n))) d.
  (** The loop of [boolean_op] (manipulate/path.rs:102-132); [None]: [unwrap] of a path without data. *)
  Fixpoint merge (o : overlay) (paths : list nat) (cumulative : option (path * bool)) (previous : option nat) (d : list node) :
    option (option (path * bool) * option nat * list node) :=
    match paths with
    | [] => Some (cumulative, previous, d)
    | i :: paths =>
      match path_of d i with
      | None => None
      | Some p =>
        let p := (from_svg p, evenodd d i) in
        let cumulative := match cumulative with Some q => (combine o q p, true) | None => p end in
        let d := match previous with Some k => detach k d | None => d end in
        merge o paths (Some cumulative) (Some i) d
      end
    end.
  (** [boolean_op] (manipulate/path.rs:85-149): the document and the element that is selected afterwards. *)
  Definition boolean_op (table : list nat) (o : overlay) (ids : list Z) (d : list node) : option (list node * option nat) :=
    let paths := filter (fun i => match path_of d i with Some _ => true | None => false end) (elements table d ids) in
    match merge o paths None None d with
    | None => None
    | Some (Some c, Some k, d) =>
      Some (change k (with_attrs (fun l => set_attr (lit "fill-rule") (Rule true) (set_attr (lit "d") (Data (to_svg (fst c))) l))) d, Some k)
    | Some (_, k, d) => Some (d, k)
    end.

  (** The function that a transform action appends (transform.rs:23-113). *)
  Definition transform_of (a : @action num) : option tf :=
    match a with
    | Matrix a b c d e f => Some (TMatrix a b c d e f)
    | Translate x y => Some (TTranslate x (match y with Some y => y | None => zero end))
    | Scale x y => Some (TScale x (match y with Some y => y | None => x end))
    | Rotate angle origin => let (x, y) := match origin with Some o => o | None => (zero, zero) end in Some (TRotate angle x y)
    | SkewX x => Some (TSkewX x)
    | SkewY y => Some (TSkewY y)
    | _ => None
    end.
  (** [Actor::dispatch] (actions.rs:188-209) of the actions on attributes; the selection is left alone by them, and the other actions are
      [insert] and [boolean_op] above and those of SelectModel. *)
  Definition enact (table : list nat) (a : @action num) (ids : list Z) (d : list node) : outcome :=
    match a with
    | Attr name v => attr table name v ids d
    | Class c => class table c ids d
    | Style p v => style table p v ids d
    | _ => match transform_of a with Some t => append_transform table t ids d | None => Done d end
    end.
End Enact.
