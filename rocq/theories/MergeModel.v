(** Model of the job mergeStyles (crates/oxvg_optimiser/src/jobs/merge_styles.rs).

    A document is the list of its elements in document order, which is the order in which they are visited, with elements
    removed on the way or not (C64).
    Simplifications: rules are numbers, apart from [@media] and [@import]; media queries are numbers; no node is of type
    [CDataSection] (crates/oxvg_ast/src/node.rs:84-125 has no such data), so [exit_document] does nothing. *)
From Coq Require Import String List NArith Bool Arith.
From Verif Require Import Chars.
Import ListNotations.

(** [CssRule] of lightningcss, as far as it matters (merge_styles.rs:3, 101-107). *)
Inductive rule : Type := RImport (n : nat) | RPlain (n : nat) | RMedia (q : nat) (rs : list rule).
(** The attribute [media]: read, or kept as text because reading it failed ([Attr::Unparsed]) (merge_styles.rs:101). *)
Inductive media : Type := MQuery (q : nat) | MText (n : nat).
(** Children of a style element: rules ([NodeData::Style], crates/oxvg_ast/src/node.rs:111) or anything else. *)
Inductive child : Type := CRules (l : list rule) | CElse (n : nat).
(** A style element: the attribute [type] if it is there and was read, whether it is in a foreign object
    ([ContextFlags::within_foreign_object]), the attribute [media], other attributes, and the children (merge_styles.rs:64-128). *)
Record style : Type := mkStyle { st_type : option text; st_foreign : bool; st_media : option media; st_rest : nat; st_kids : list child }.
(** An element of the document (merge_styles.rs:64-72). *)
Inductive item : Type := IStyle (s : style) | IElse (n : nat).

(** [Node::style] (crates/oxvg_ast/src/node.rs:516-525) of a child. *)
Definition child_rules (c : child) : list rule := match c with CRules l => l | CElse _ => [] end.
(** merge_styles.rs:86-90: the rules of all children. *)
Definition collect (s : style) : list rule := flat_map child_rules (st_kids s).
(** [Node::style] (crates/oxvg_ast/src/node.rs:516-525) of a style element: the rules of its first child. *)
Definition node_style (s : style) : option (list rule) := match st_kids s with CRules l :: _ => Some l | _ => None end.
(** merge_styles.rs:72-78: a type that is not CSS. *)
Definition unsupported (s : style) : bool :=
  match st_type s with Some t => negb (text_eqb t []) && negb (text_eqb t (lit "text/css")) | None => false end.
(** [remove_attribute!(element, Media)] (crates/oxvg_ast/src/attribute.rs:116-130): the attribute goes either way, its value is
    there if it was read (merge_styles.rs:101-111). *)
Definition wrap (m : option media) (css : list rule) : list rule := match m with Some (MQuery q) => [RMedia q css] | _ => css end.

(** [State] (merge_styles.rs:23-26): the elements so far, the last one first, and the position of the first style, from the end. *)
Record state : Type := mkState { seen : list item; first_style : option nat }.
(** [style.borrow_mut().0.extend(css)] on the style at a position (merge_styles.rs:115-119); [None]: the [unreachable!] is reached. *)
Fixpoint extend_at (n : nat) (css : list rule) (l : list item) : option (list item) :=
  match l, n with
  | IStyle s :: l, 0 =>
      match st_kids s with
      | CRules r :: k => Some (IStyle (mkStyle (st_type s) (st_foreign s) (st_media s) (st_rest s) (CRules (r ++ css) :: k)) :: l)
      | _ => None
      end
  | x :: l, S n => option_map (cons x) (extend_at n css l)
  | _, _ => None
  end.
(** merge_styles.rs:63-131 [element]. *)
Definition step (st : state) (x : item) : option state :=
  let keep := Some (mkState (x :: seen st) (option_map S (first_style st))) in
  match x with
  | IElse _ => keep
  | IStyle s =>
      if unsupported s then keep
      else if st_foreign s then keep
      else
        let css := collect s in
        match css with
        | [] => Some st
        | _ =>
            let css := wrap (st_media s) css in
            match first_style st with
            | Some n => option_map (fun l => mkState l (Some n)) (extend_at n css (seen st))
            | None =>
                (** [set_style_content] (crates/oxvg_ast/src/node.rs:550-576): the rules are the only child. *)
                Some (mkState (IStyle (mkStyle (st_type s) (st_foreign s) None (st_rest s) [CRules css]) :: seen st) (Some 0))
            end
        end
  end.
(** The visit of all elements (crates/oxvg_ast/src/visitor.rs:312-352). *)
Fixpoint walk (st : state) (l : list item) : option state :=
  match l with [] => Some st | x :: l => match step st x with Some st => walk st l | None => None end end.
(** merge_styles.rs:48-58 [prepare]. *)
Definition merge_styles (enabled : bool) (l : list item) : option (list item) :=
  if enabled then option_map (fun st => rev (seen st)) (walk (mkState [] None) l) else Some l.
