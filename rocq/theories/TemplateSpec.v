(** What filling in a template means (the help of [oxvg jsx --template]), apart from the model's functions. *)
From Coq Require Import String List NArith Bool Arith.
From Verif Require Import Chars TemplateModel.
Import ListNotations.

Section Spec.
  Variable v : variables.
  (** The parameter of that name of a function, and of an arrow function; the statement of that name. *)
  Definition param (s : string) : tree := Node KParam [] [Leaf LBinding (lit s)].
  Definition arrow_param (s : string) : tree := Leaf LBinding (lit s).
  Definition statement (s : string) : tree := Node KStatement [] [Node KExpr [] [Leaf LIdent (lit s)]].
  (** The placeholder [t] in the list of a node of kind [k] stands for [new]. *)
  Inductive stands : kind -> tree -> list tree -> Prop :=
  | stands_function : stands KFunction (param "$props") (map (fun p => Node KParam [] [p]) (v_props v))
  | stands_constructor : stands KConstructor (param "$props") (map (fun p => Node KParam [] [p]) (v_props v))
  | stands_arrow : stands KArrow (arrow_param "$props") (v_props v)
  | stands_imports : stands KModule (statement "$imports") (v_imports v)
  | stands_interfaces : stands KModule (statement "$interfaces") (v_interfaces v)
  | stands_exports : stands KModule (statement "$exports") (v_exports v).
  (** The expression [$jsx]. *)
  Definition jsx_place : tree := Node KExpr [] [Leaf LIdent (lit "$jsx")].
  (** [t'] is [t] with the placeholders filled in, everywhere, and all else as it was. *)
  Inductive becomes : tree -> tree -> Prop :=
  | becomes_name k : k <> LWord -> becomes (Leaf k (lit "$componentName")) (Leaf k (v_name v))
  | becomes_same k x : k = LWord \/ x <> lit "$componentName" -> becomes (Leaf k x) (Leaf k x)
  | becomes_jsx : becomes jsx_place (v_jsx v)
  | becomes_node k items rest items' rest' : Node k items rest <> jsx_place -> all k items items' -> each rest rest' -> becomes (Node k items rest) (Node k items' rest')
  with all : kind -> list tree -> list tree -> Prop :=
  | all_nil k : all k [] []
  | all_stands k x new l l' : stands k x new -> all k l l' -> all k (x :: l) (new ++ l')
  | all_keep k x x' l l' : (forall new, ~ stands k x new) -> becomes x x' -> all k l l' -> all k (x :: l) (x' :: l')
  with each : list tree -> list tree -> Prop :=
  | each_nil : each [] []
  | each_cons x x' l l' : becomes x x' -> each l l' -> each (x :: l) (x' :: l').
End Spec.
(** A word of the template occurs. *)
Fixpoint occurs (w : text) (t : tree) : Prop :=
  match t with
  | Leaf LWord _ => False
  | Leaf _ x => x = w
  | Node _ items rest => (fix any (l : list tree) : Prop := match l with [] => False | x :: l => occurs w x \/ any l end) items
                         \/ (fix any (l : list tree) : Prop := match l with [] => False | x :: l => occurs w x \/ any l end) rest
  end.
(** The placeholders. *)
Definition placeholders : list text := [lit "$componentName"; lit "$jsx"; lit "$props"; lit "$imports"; lit "$interfaces"; lit "$exports"].
(** A component has a name without [$], and is a JSX element or fragment. *)
Definition proper (v : variables) : Prop := ~ In 36%N (v_name v) /\ exists n items rest, v_jsx v = Node KExpr [] [Node (KOther n) items rest].
