(** Model of the recorded history of an actor (crates/oxvg_actions/src/state.rs, utils.rs and
    actions.rs).  Elements are the [xnode]s of XmlModel, whose names are written names; the prefix
    "oxvg" stands for the OXVG namespace (utils.rs:13-20, 80-88), which the state element's
    document declares on its root. *)
From Coq Require Import String List NArith Bool Arith.
From Verif Require Import Chars XmlModel XmlSpec.
Import ListNotations.

(** The errors of error.rs that can occur here (error.rs:11-39). *)
Inductive error : Type :=
| NoRootElement
| InvalidStateXMLNS
| InvalidStateElement (local : text)
| InvalidStateAttribute (value : text)
| MissingStateAttribute (name : text)
| InvalidStateValue (value : text).
(** Rust's [Result] and [?] (state.rs, throughout; state.rs:75-103). *)
Inductive res (A : Type) : Type := Ok (a : A) | Err (e : error).
Arguments Ok {A}. Arguments Err {A}.
(** [?] (state.rs:75-103 and on). *)
Definition bind {A B} (r : res A) (f : A -> res B) : res B :=
  match r with Ok a => f a | Err e => Err e end.

(** [collect::<Result<Vec<_>, _>>] (state.rs:212-217). *)
Fixpoint map_res {A B} (f : A -> res B) (l : list A) : res (list B) :=
  match l with
  | [] => Ok []
  | a :: l => bind (f a) (fun b => bind (map_res f l) (fun r => Ok (b :: r)))
  end.

(** The constants (lib.rs OXVG_PREFIX, OXVG_XMLNS; state.rs:236-239, 563-566). *)
Definition oxvg (local : text) : text := lit "oxvg:" ++ local.
(** lib.rs:28 [OXVG_XMLNS]. *)
Definition oxvg_xmlns : text := lit "https://oxvg.noahwbaldwin.me".
(** state.rs:236. *)
Definition ACTION : text := lit "action".
(** state.rs:238. *)
Definition ARG : text := lit "arg".
(** state.rs:239. *)
Definition ID : text := lit "id".
(** state.rs:563. *)
Definition STATE : text := lit "state".
(** state.rs:564. *)
Definition HISTORY : text := lit "history".
(** state.rs:565. *)
Definition SELECTION : text := lit "selection".

(** [is_oxvg_xmlns] with the local part (utils.rs:13-20). *)
Definition strip_oxvg (name : text) : option text :=
  if starts_with (lit "oxvg:") name then Some (skipn 5 name) else None.

(** [assert_oxvg_element] (utils.rs:30-41). *)
Definition assert_oxvg_element (name local : text) : res unit :=
  match strip_oxvg name with
  | None => Err InvalidStateXMLNS
  | Some l => if text_eqb l local then Ok tt else Err (InvalidStateElement l)
  end.

(** [get_oxvg_attr] (utils.rs:43-60). *)
Definition get_oxvg_attr (attrs : list (text * text)) (local : text) : option text :=
  option_map snd (find (fun a => text_eqb (fst a) (oxvg local)) attrs).

(** [children_iter]: the child elements (crates/oxvg_ast/src/element.rs:552-554). *)
Definition is_elem (n : xnode) : bool := match n with XElem _ _ _ => true | _ => false end.
(** [children_iter] (crates/oxvg_ast/src/element.rs:552-554). *)
Definition child_elements (l : list xnode) : list xnode := filter is_elem l.

(** [text_content] of an element (node.rs:192-214, 496-513). *)
Fixpoint text_of (n : xnode) : text :=
  match n with
  | XElem _ _ kids => flat_map text_of kids
  | XText s | XComment s | XStyle s => s
  | XPI _ v => match v with Some v => v | None => [] end
  | XDoctype => []
  end.

Section Action.
  (** [f32], its [to_string] and its [parse]. *)
  Context {num : Type}.
  Variable show : num -> text.
  Variable parse_f32 : text -> option num.

  (** [Action] (actions.rs:42-89). *)
  Inductive action : Type :=
  | Attr (name value : text)
  | Class (name : text)
  | PathIntersect | PathUnion | PathSubtract | PathXor
  | Style (property value : text)
  | Matrix (a b c d e f : num)
  | Translate (x : num) (y : option num)
  | Scale (x : num) (y : option num)
  | Rotate (angle : num) (origin : option (num * num))
  | SkewX (x : num)
  | SkewY (y : num)
  | Insert (name : text)
  | Forget
  | Select (query : text)
  | SelectMore (query : text)
  | Deselect.

  (** [Action::name] (state.rs:466-487) with the constants of state.rs:241-258. *)
  Definition action_name (a : action) : text :=
    match a with
    | Attr _ _ => lit "Attr"
    | Class _ => lit "Class"
    | PathIntersect => lit "PathIntersect"
    | PathUnion => lit "PathUnion"
    | PathSubtract => lit "PathSubtract"
    | PathXor => lit "PathXor"
    | Style _ _ => lit "Style"
    | Matrix _ _ _ _ _ _ => lit "Matrix"
    | Translate _ _ => lit "Translate"
    | Scale _ _ => lit "Scale"
    | Rotate _ _ => lit "Rotate"
    | SkewX _ => lit "SkewX"
    | SkewY _ => lit "SkewY"
    | Insert _ => lit "Insert"
    | Forget => lit "Forget"
    | Select _ => lit "Select"
    | SelectMore _ => lit "SelectMore"
    | Deselect => lit "Deselect"
    end.

  (** The arguments written by [Action::embed] (state.rs:407-452). *)
  Definition action_args (a : action) : list text :=
    match a with
    | Attr x y | Style x y => [x; y]
    | Matrix a b c d e f => [show a; show b; show c; show d; show e; show f]
    | Translate x y | Scale x y => show x :: match y with Some y => [show y] | None => [] end
    | Rotate angle origin => show angle :: match origin with Some (x, y) => [show x; show y] | None => [] end
    | SkewX x | SkewY x => [show x]
    | Class x | Select x | SelectMore x | Insert x => [x]
    | PathIntersect | PathUnion | PathSubtract | PathXor | Forget | Deselect => []
    end.
  (** [embed_arg] (state.rs:455-464): [set_text_content] always makes one text child. *)
  Definition embed_arg (t : text) : xnode := XElem (oxvg ARG) [] [XText t].
  (** [Action::embed] (state.rs:396-453). *)
  Definition embed_action (a : action) : xnode :=
    XElem (oxvg ACTION) [(oxvg ID, action_name a)] (map embed_arg (action_args a)).

  (** [args] of [Action::from_state] (state.rs:267-270). *)
  Definition read_arg (n : xnode) : res text :=
    match n with
    | XElem name _ _ => bind (assert_oxvg_element name ARG) (fun _ => Ok (text_of n))
    | _ => Err InvalidStateXMLNS
    end.
  (** [n_args] (state.rs:271-281). *)
  Definition n_arg (r : res text) : res num :=
    bind r (fun t => match parse_f32 t with Some x => Ok x | None => Err (InvalidStateValue t) end).
  (** [args.next().transpose()?] (state.rs:285-389): with and without the [else] branch. *)
  Definition required {A B} (l : list (res A)) (k : A -> list (res A) -> res B) : res B :=
    match l with [] => Err (MissingStateAttribute ARG) | r :: l => bind r (fun a => k a l) end.
  (** The fields that may be missing (state.rs:32-39). *)
  Definition optional {A B} (l : list (res A)) (k : option A -> list (res A) -> res B) : res B :=
    match l with [] => k None [] | r :: l => bind r (fun a => k (Some a) l) end.

  (** [Action::from_state] (state.rs:261-393). *)
  Definition from_state (n : xnode) : res action :=
    match n with
    | XElem name attrs kids =>
      bind (assert_oxvg_element name ACTION) (fun _ =>
      match get_oxvg_attr attrs ID with
      | None => Err (MissingStateAttribute ID)
      | Some id =>
        let args := map read_arg (child_elements kids) in
        let nums := map n_arg args in
        if text_eqb id (lit "Attr") then
          required args (fun x l => required l (fun y _ => Ok (Attr x y)))
        else if text_eqb id (lit "Class") then required args (fun x _ => Ok (Class x))
        else if text_eqb id (lit "PathIntersect") then Ok PathIntersect
        else if text_eqb id (lit "PathUnion") then Ok PathUnion
        else if text_eqb id (lit "PathSubtract") then Ok PathSubtract
        else if text_eqb id (lit "PathXor") then Ok PathXor
        else if text_eqb id (lit "Style") then
          required args (fun x l => required l (fun y _ => Ok (Style x y)))
        else if text_eqb id (lit "Matrix") then
          required nums (fun a l => required l (fun b l => required l (fun c l =>
          required l (fun d l => required l (fun e l => required l (fun f _ => Ok (Matrix a b c d e f)))))))
        else if text_eqb id (lit "Translate") then
          required nums (fun x l => optional l (fun y _ => Ok (Translate x y)))
        else if text_eqb id (lit "Scale") then
          required nums (fun x l => optional l (fun y _ => Ok (Scale x y)))
        else if text_eqb id (lit "Rotate") then
          required nums (fun deg l => optional l (fun x l => optional l (fun y _ =>
            match x, y with
            | Some _, None => Err (MissingStateAttribute ARG)
            | Some x, Some y => Ok (Rotate deg (Some (x, y)))
            | None, _ => Ok (Rotate deg None)
            end)))
        else if text_eqb id (lit "SkewX") then required nums (fun x _ => Ok (SkewX x))
        else if text_eqb id (lit "SkewY") then required nums (fun y _ => Ok (SkewY y))
        else if text_eqb id (lit "Forget") then Ok Forget
        else if text_eqb id (lit "Select") then required args (fun x _ => Ok (Select x))
        else if text_eqb id (lit "SelectMore") then required args (fun x _ => Ok (SelectMore x))
        else if text_eqb id (lit "Deselect") then Ok Deselect
        else Err (InvalidStateAttribute id)
      end)
    | _ => Err InvalidStateXMLNS
    end.

  (** [State] (state.rs:33-39): the children of the cached history element, and the cached selection
      element while it is a child of the state element.  Which of the two comes first among the
      children is not kept, nor are other attributes of the elements. *)
  Record state : Type := mkState { st_history : option (list xnode); st_selection : option xnode }.
  (** The state without history and selection (state.rs:91-95). *)
  Definition empty_state : state := mkState None None.

  (** [State::record] with [get_history] (state.rs:153-156, 175-190); every action calls it first
      (actions.rs:188-209, effects.rs:40-42). *)
  Definition record (s : state) (a : action) : state :=
    mkState (Some (match st_history s with Some h => h | None => [] end ++ [embed_action a])) (st_selection s).
  (** The history part of [DerivedState::from_state] (state.rs:212-217). *)
  Definition derive_history (s : state) : res (list action) :=
    map_res from_state (child_elements (match st_history s with Some h => h | None => [] end)).
End Action.
Arguments action : clear implicits.

(** The state element with its children (state.rs:32-39, 105-133). *)
Definition state_element (s : state) : xnode :=
  XElem (oxvg STATE) []
    (match st_history s with Some h => [XElem (oxvg HISTORY) [] h] | None => [] end ++
     match st_selection s with Some e => [e] | None => [] end).

(** [set_attribute] on the root (state.rs:115-121, 125-131). *)
Fixpoint set_attr (l : list (text * text)) (n v : text) : list (text * text) :=
  match l with
  | [] => [(n, v)]
  | a :: l => if text_eqb (fst a) n then (n, v) :: l else a :: set_attr l n v
  end.
(** [State::embed] (state.rs:105-135) into a root element that does not contain the state element. *)
Definition embed (s : state) (root : xnode) : xnode :=
  match st_history s, st_selection s, root with
  | None, None, _ => root
  | _, _, XElem name attrs kids =>
    XElem name (set_attr attrs (lit "xmlns:oxvg") oxvg_xmlns) (kids ++ [state_element s])
  | _, _, _ => root
  end.

(** [Actor::snapshot] (actions.rs:166-171) of a document with other nodes around the root element;
    [serialize] uses the default options (serialize.rs:53-55). *)
Definition snapshot (s : state) (before : list xnode) (root : xnode) (after : list xnode) : wres text :=
  serialize_document default_options (before ++ embed s root :: after).

(** A document as it is built again from what a reader reports (crates/oxvg_ast/src/parse/roxmltree.rs:193-224, without the namespace map, for which see NsModel). *)
Fixpoint load (n : rnode) : xnode :=
  match n with
  | RElem name attrs kids => XElem name attrs (map load kids)
  | RText s => XText s
  | RComment s => XComment s
  | RPI t v => XPI t (match v with [] => None | _ => Some v end)
  end.

(** [debed_field] (state.rs:137-151). *)
Definition debed_field (s : state) (n : xnode) : res state :=
  match n with
  | XElem name _ kids =>
    match strip_oxvg name with
    | None => Err InvalidStateXMLNS
    | Some l =>
      if text_eqb l HISTORY then Ok (mkState (Some kids) (st_selection s))
      else if text_eqb l SELECTION then Ok (mkState (st_history s) (Some n))
      else Err (InvalidStateElement l)
    end
  | _ => Ok s
  end.
(** The loop of [State::debed] (state.rs:98-100). *)
Fixpoint debed_fields (s : state) (l : list xnode) : res state :=
  match l with [] => Ok s | n :: l => bind (debed_field s n) (fun s => debed_fields s l) end.
(** [State::debed] (state.rs:77-103): [find_element] finds the first element of the document. *)
Definition debed (document : list xnode) : res state :=
  match child_elements document with
  | XElem _ _ kids :: _ =>
    match rev (child_elements kids) with
    | XElem name _ fields :: _ =>
      match assert_oxvg_element name STATE with
      | Ok _ => debed_fields empty_state (child_elements fields)
      | Err _ => Ok empty_state
      end
    | _ => Ok empty_state
    end
  | _ => Err NoRootElement
  end.
(** Reading a snapshot into a new actor: [parse], then [Actor::new] (actions.rs:150-159). *)
Definition reload (t : text) : option (res state) := option_map (fun l => debed (map load l)) (read t).
