(** What removing scripts should leave. *)
From Coq Require Import String List NArith Bool.
From Verif Require Import Chars NameModel AttrTable ElemModel WalkSpec NodeModel TextModel.
Import ListNotations.

(** A script element. *)
Definition is_script (d : ninfo) : bool := node_is d (lit "Script").
(** The attribute is in one of the event groups of the table. *)
Definition handler (a : attr_id * text) : bool := intersects (id_groups (fst a)) g_event.
(** The attribute is a link to a script. *)
Definition js_url (a : attr_id * text) : bool :=
  (attr_is (fst a) (lit "Href") || attr_is (fst a) (lit "XLinkHref")) && starts_with (lit "javascript:") (trim_start (snd a)).
(** A link to a script. *)
Definition js_link (d : ninfo) : bool :=
  match d with NElem e attrs => elem_is e (lit "A") && existsb js_url attrs | _ => false end.
(** The element without its event handlers. *)
Definition unhandled (d : ninfo) : ninfo :=
  match d with NElem e attrs => NElem e (filter (fun a => negb (handler a)) attrs) | d => d end.

(** A tree as the list of its nodes in document order, each with its parent. *)
Definition row : Type := (nat * nat * ninfo)%type.
Fixpoint rows (parent : nat) (t : wtree ninfo) : list row :=
  match t with W n d kids => (parent, n, d) :: flat_map (rows n) kids end.
(** What should be left of a tree: not the scripts and what is inside them, not the links to scripts themselves and
    the text directly inside them; all other nodes in order, with the nearest node left above as parent. *)
Fixpoint left_over (parent : nat) (in_link : bool) (t : wtree ninfo) : list row :=
  match t with W n d kids =>
    if is_script d then []
    else if js_link d then flat_map (left_over parent true) kids
    else if is_text d && in_link then []
    else (parent, n, unhandled d) :: (if is_elem d then flat_map (left_over n false) kids else flat_map (rows n) kids)
  end.

(** No trace of a script in what a node carries. *)
Definition harmless (d : ninfo) : Prop :=
  is_script d = false /\ js_link d = false /\
  match d with NElem _ attrs => Forall (fun a => handler a = false) attrs | _ => True end.
Inductive all_nodes (P : ninfo -> Prop) : wtree ninfo -> Prop :=
| AllNodes n d kids : P d -> Forall (all_nodes P) kids -> all_nodes P (W n d kids).
(** Only elements have children. *)
Inductive leafy : wtree ninfo -> Prop :=
| Leafy n d kids : (is_elem d = false -> kids = []) -> Forall leafy kids -> leafy (W n d kids).

(** What becomes of the children of an element, at the end. *)
Fixpoint cleaned (t : wtree ninfo) : list (wtree ninfo) :=
  match t with W n d kids =>
    if negb (is_elem d) then [t]
    else if is_script d then []
    else if js_link d then filter (fun k => negb (is_text (wdata k))) (flat_map cleaned kids)
    else [W n (unhandled d) (flat_map cleaned kids)]
  end.
(** The condition under which the job does this: in a link to a script, text only at the start and at the end, and
    text at the end, after other nodes, only if a node follows the link. *)
Definition tidy_kids (followed : bool) (l : list (wtree ninfo)) : Prop :=
  exists k1 mid k2, l = k1 ++ mid ++ k2 /\ Forall (fun t => is_text (wdata t) = true) k1 /\
    Forall (fun t => is_text (wdata t) = false) mid /\ Forall (fun t => is_text (wdata t) = true) k2 /\
    (mid = [] \/ k2 = [] \/ followed = true).
Fixpoint tidy (followed : bool) (t : wtree ninfo) : Prop :=
  match t with W _ d kids =>
    (is_script d = false -> js_link d = true -> tidy_kids followed (flat_map cleaned kids)) /\
    (fix all (l : list (wtree ninfo)) : Prop :=
       match l with [] => True | k :: r => tidy (match r with [] => false | _ => true end) k /\ all r end) kids
  end.
Definition tidy_all : list (wtree ninfo) -> Prop :=
  fix all (l : list (wtree ninfo)) : Prop :=
    match l with [] => True | k :: r => tidy (match r with [] => false | _ => true end) k /\ all r end.
