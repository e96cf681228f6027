(** Model of filling in a template of JSX (crates/oxvg/src/commands/jsx.rs:369-536).  A module of JavaScript is a tree with the nodes that the visitor looks at;
    all other nodes are [KOther] with a number for what they are.  [items] are the parameters of a function and the items of a module, [rest] the other children.
    Simplifications: types and decorators, which a template cannot have as it is read with [Syntax::default] (jsx.rs:554-558), are left out. *)
From Coq Require Import String List NArith Bool Arith.
From Verif Require Import Chars.
Import ListNotations.

(** [Ident], [BindingIdent] and [IdentName], which the visitor renames (jsx.rs:371-385), and other words: literals, operators. *)
Inductive leaf : Type := LIdent | LBinding | LName | LWord.
(** [Expr] (jsx.rs:387-401), [Constructor] (jsx.rs:402-430), [ArrowExpr] (jsx.rs:431-448), [Function] (jsx.rs:449-475) and their [Param], [Module] (jsx.rs:476-536)
    with the statements that are an expression, and all else. *)
Inductive kind : Type := KExpr | KConstructor | KArrow | KFunction | KParam | KModule | KStatement | KOther (n : nat).
(** The tree; a binding that is a pattern is the leaf itself (jsx.rs:410, 439, 458). *)
Inductive tree : Type := Leaf (k : leaf) (t : text) | Node (k : kind) (items rest : list tree).

(** [VariablesAST] (jsx.rs:369; crates/oxvg_jsx/src/swc/get_variables.rs:31-48): [v_jsx] is an element or a fragment. *)
Record variables : Type := Variables {
  v_name : text; v_jsx : tree; v_props : list tree; v_imports : list tree; v_interfaces : list tree; v_exports : list tree }.

(** [Vec::remove] (jsx.rs:416, 443, 463, 508); [None] is a panic. *)
Fixpoint remove_at (i : nat) (l : list tree) : option (list tree) :=
  match l, i with
  | [], _ => None
  | _ :: l, 0 => Some l
  | x :: l, S i => option_map (cons x) (remove_at i l)
  end.
(** [Vec::insert] (jsx.rs:418-425, 445, 465-472, 512-527); [None] is a panic. *)
Fixpoint insert_at (i : nat) (y : tree) (l : list tree) : option (list tree) :=
  match i, l with
  | 0, _ => Some (y :: l)
  | S i, x :: l => option_map (cons x) (insert_at i y l)
  | S i, [] => None
  end.
(** The body of the loops over the insertions (jsx.rs:415-428, 442-447, 462-473, 507-531). *)
Definition replace_at (i : nat) (new : list tree) (l : list tree) : option (list tree) :=
  fold_left (fun a y => match a with Some l => insert_at i y l | None => None end) (rev new) (remove_at i l).
(** The insertions before [rev] (jsx.rs:405-413, 434-440, 452-460, 485-505). *)
Fixpoint insertions (f : tree -> option (list tree)) (i : nat) (l : list tree) : list (nat * list tree) :=
  match l with
  | [] => []
  | x :: l => match f x with Some new => (i, new) :: insertions f (S i) l | None => insertions f (S i) l end
  end.
(** The loops over the insertions (jsx.rs:415-428, 442-447, 462-473, 507-531). *)
Definition splice (f : tree -> option (list tree)) (l : list tree) : option (list tree) :=
  fold_left (fun a x => match a with Some l => replace_at (fst x) (snd x) l | None => None end) (rev (insertions f 0 l)) (Some l).

Section Visit.
  Variable v : variables.
  (** The filter for [$props] among the parameters of functions and constructors (jsx.rs:409-411, 456-458). *)
  Definition in_params (t : tree) : option (list tree) :=
    match t with
    | Node KParam [] [Leaf LBinding p] => if text_eqb p (lit "$props") then Some (map (fun p => Node KParam [] [p]) (v_props v)) else None
    | _ => None
    end.
  (** The filter for [$props] among the parameters of arrow functions (jsx.rs:438-439). *)
  Definition in_arrow (t : tree) : option (list tree) :=
    match t with Leaf LBinding p => if text_eqb p (lit "$props") then Some (v_props v) else None | _ => None end.
  (** The filter for the items of a module (jsx.rs:488-503) and what goes in (jsx.rs:509-530). *)
  Definition in_module (t : tree) : option (list tree) :=
    match t with
    | Node KStatement [] [Node KExpr [] [Leaf LIdent x]] =>
      if text_eqb x (lit "$imports") then Some (v_imports v)
      else if text_eqb x (lit "$interfaces") then Some (v_interfaces v)
      else if text_eqb x (lit "$exports") then Some (v_exports v)
      else None
    | _ => None
    end.
  (** All children are visited (jsx.rs:388, 403, 432, 450, 481-483). *)
  Fixpoint together (l : list (option tree)) : option (list tree) :=
    match l with
    | [] => Some []
    | Some x :: l => option_map (cons x) (together l)
    | None :: _ => None
    end.
  (** [visit_mut_expr] after its children (jsx.rs:390-399). *)
  Definition jsx_in (items rest : list tree) : tree :=
    match items, rest with
    | [], [Leaf LIdent x] => if text_eqb x (lit "$jsx") then v_jsx v else Node KExpr items rest
    | _, _ => Node KExpr items rest
    end.
  (** [ApplyTemplate] (jsx.rs:370-536). *)
  Fixpoint visit (t : tree) : option tree :=
    match t with
    | Leaf LWord x => Some (Leaf LWord x)
    | Leaf k x => Some (Leaf k (if text_eqb x (lit "$componentName") then v_name v else x))
    | Node k items rest =>
      match together (map visit items), together (map visit rest) with
      | Some items, Some rest =>
        match k with
        | KExpr => Some (jsx_in items rest)
        | KConstructor | KFunction => option_map (fun i => Node k i rest) (splice in_params items)
        | KArrow => option_map (fun i => Node k i rest) (splice in_arrow items)
        | KModule => option_map (fun i => Node k i rest) (splice in_module items)
        | _ => Some (Node k items rest)
        end
      | _, _ => None
      end
    end.
End Visit.
