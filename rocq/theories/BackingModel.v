(** Model of the job cleanupEnableBackground: crates/oxvg_optimiser/src/jobs/cleanup_enable_background.rs. *)
From Coq Require Import String List NArith QArith Bool.
From Verif Require Import Chars ViewModel.
Import ListNotations.

(** The elements the job tells apart (cleanup_enable_background.rs:165-178, 188-190). *)
Inductive bkind : Type := BSvg | BMask | BPattern | BFilter | BOther (n : N).
(** crates/oxvg_collections/src/attribute/presentation.rs 330-337 [EnableBackground]; numbers are rationals. *)
Inductive back : Type := BAccumulate | BNew (area : option (Q * Q * Q * Q)).
(** The attribute, as [Inheritable] (crates/oxvg_collections/src/attribute/inheritable.rs:11-16) or as text that could not be read. *)
Inductive battr : Type := BDefined (b : back) | BInherit | BUnread (n : N).
(** A token of the value of a custom property (cleanup_enable_background.rs:91). *)
Inductive token : Type := TIdent (t : text) | TElse (n : N).
(** A declaration: one the CSS parser does not know (cleanup_enable_background.rs:93-95), or one that it does. *)
Inductive decl : Type := DCustom (name : text) (value : list token) | DKnown (n : N).
(** The attribute style: declarations with and without [!important] (cleanup_enable_background.rs:98-101), or text that could not be read. *)
Inductive bstyle : Type := BStyle (important normal : list decl) | BText (n : N).
(** An element: its kind, the attributes the job reads, and everything else (cleanup_enable_background.rs:109-182). *)
Record belem : Type := mkBelem { b_kind : bkind; b_style : option bstyle; b_back : option battr; b_width : option vlen; b_height : option vlen; b_rest : N }.
(** The elements of the document, from the root (cleanup_enable_background.rs:75-77). *)
Inductive btree : Type := BNode (e : belem) (kids : list btree).

(** cleanup_enable_background.rs 92-97: whether a declaration is kept; the names are compared as they are written. *)
Definition keeps (d : decl) : bool :=
  match d with
  | DCustom name value => negb (text_eqb name (lit "enable-background")) || negb (match value with TIdent t :: _ => text_eqb t (lit "new") | _ => false end)
  | DKnown _ => true
  end.
(** cleanup_enable_background.rs 114-123; crates/oxvg_collections/src/attribute/core_attrs.rs 379-398 [Style]: empty if no declaration is left. *)
Definition clean_style (s : option bstyle) : option bstyle :=
  match s with
  | Some (BStyle i n) => match filter keeps i, filter keeps n with [], [] => None | i, n => Some (BStyle i n) end
  | s => s
  end.
(** cleanup_enable_background.rs 131-163: whether the area has the width and the height of the element. *)
Definition matches_size (e : belem) : bool :=
  match b_back e with
  | Some (BDefined (BNew (Some (_, _, w, h)))) =>
      match px_attr (b_width e), px_attr (b_height e) with
      | Some width, Some height => Qeq_bool width w && Qeq_bool height h
      | _, _ => false
      end
  | _ => false
  end.
(** cleanup_enable_background.rs 109-182 [element]. *)
Definition clean_element (contains_filter : bool) (e : belem) : belem :=
  let s := clean_style (b_style e) in
  let b := if negb contains_filter then None
           else if matches_size e then
             match b_kind e with
             | BSvg => None
             | BMask | BPattern => Some (BDefined (BNew None))
             | _ => b_back e
             end
           else b_back e in
  mkBelem (b_kind e) s b (b_width e) (b_height e) (b_rest e).
(** cleanup_enable_background.rs 188-190: [any] of the elements. *)
Fixpoint any_filter (t : btree) : bool :=
  match t with BNode e kids => match b_kind e with BFilter => true | _ => false end || existsb any_filter kids end.
(** cleanup_enable_background.rs 185-192 [State::new]: [breadth_first] begins below the root (crates/oxvg_ast/src/element.rs:433-457). *)
Definition contains_filter (t : btree) : bool := match t with BNode _ kids => existsb any_filter kids end.
(** The walk over all elements (crates/oxvg_ast/src/visitor.rs:294-380). *)
Fixpoint clean_tree (f : bool) (t : btree) : btree := match t with BNode e kids => BNode (clean_element f e) (map (clean_tree f) kids) end.
(** cleanup_enable_background.rs 66-79 [prepare]. *)
Definition cleanup (enabled : bool) (t : btree) : btree := if enabled then clean_tree (contains_filter t) t else t.
