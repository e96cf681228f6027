From Coq Require Import String List NArith Bool Arith.
From Verif Require Import Chars TemplateModel TemplateSpec TemplateProofs.
Import ListNotations.

(** C125: templates. *)
Theorem C125_fill : forall v, proper v -> forall t t', visit v t = Some t' <-> becomes v t t'.
Proof. exact visit_spec. Qed.
Print Assumptions C125_fill.
Theorem C125_always : forall v, proper v -> forall t, exists t', visit v t = Some t' /\ becomes v t t'.
Proof. exact visit_done. Qed.
Print Assumptions C125_always.
Theorem C125_one : forall v t a b, becomes v t a -> becomes v t b -> a = b.
Proof. exact becomes_one. Qed.
Print Assumptions C125_one.
Theorem C125_plain : forall v t, proper v -> (forall w, In w placeholders -> ~ occurs w t) -> visit v t = Some t.
Proof. exact visit_self. Qed.
Print Assumptions C125_plain.

(** The template of the help: [$imports; import ..; $interfaces; function $componentName($props) { return $jsx } $componentName.propTypes = ..; $exports]. *)
Definition the_jsx : tree := Node KExpr [] [Node (KOther 1) [] [Leaf LWord (lit "svg")]].
Definition the_variables : variables :=
  Variables (lit "SvgComponent") the_jsx [Leaf LBinding (lit "props"); Leaf LBinding (lit "ref")] [Leaf LWord (lit "import 1"); Leaf LWord (lit "import 2")] [] [Leaf LWord (lit "export")].
Definition body (name : string) (params : list tree) (value : tree) : tree :=
  Node (KOther 2) [] [Leaf LIdent (lit name); Node KFunction params [Node (KOther 3) [] [value]]].
Definition types (name : string) : tree := Node KStatement [] [Node KExpr [] [Node (KOther 4) [] [Node KExpr [] [Leaf LIdent (lit name)]; Leaf LName (lit "propTypes")]]].
Example C125_example :
  visit the_variables (Node KModule [statement "$imports"; Leaf LWord (lit "import"); statement "$interfaces"; body "$componentName" [param "$props"] jsx_place; types "$componentName"; statement "$exports"] []) =
  Some (Node KModule [Leaf LWord (lit "import 1"); Leaf LWord (lit "import 2"); Leaf LWord (lit "import"); body "SvgComponent" [param "props"; param "ref"] the_jsx; types "SvgComponent"; Leaf LWord (lit "export")] []) /\
  proper the_variables.
Proof.
  split; [reflexivity|]. split; [cbn; intuition discriminate|]. exists 1, [], [Leaf LWord (lit "svg")]. reflexivity.
Qed.
(** The value of a property in short form, [{ $jsx }], is an expression, and the parameter of a setter is in a list of parameters; they are left as they are. *)
Theorem C125_short_refuted : exists v t, proper v /\ t = Node KExpr [] [Node (KOther 5) [] [Leaf LIdent (lit "$jsx")]] /\ visit v t = Some t.
Proof. exists the_variables. eexists. split; [exact (proj2 C125_example)|]. split; [reflexivity|]. reflexivity. Qed.
Print Assumptions C125_short_refuted.
Theorem C125_setter_refuted : exists v t, proper v /\ t = Node (KOther 6) [] [Leaf LName (lit "value"); Leaf LBinding (lit "$props"); Node (KOther 3) [] []] /\ visit v t = Some t.
Proof. exists the_variables. eexists. split; [exact (proj2 C125_example)|]. split; [reflexivity|]. reflexivity. Qed.
Print Assumptions C125_setter_refuted.
(** A component with a name such as [$jsx], which no file name gives, would be filled in twice. *)
Theorem C125_name_refuted : exists v t, v_name v = lit "$jsx" /\ visit v t = Some (v_jsx v) /\ ~ becomes v t (v_jsx v).
Proof.
  exists (Variables (lit "$jsx") the_jsx [] [] [] []), (Node KExpr [] [Leaf LIdent (lit "$componentName")]). split; [reflexivity|]. split; [reflexivity|].
  intros H. inversion H as [| |E|k i r i' r' N I R]. subst. inversion R as [|x x' l l' X Y]. subst. inversion X.
Qed.
Print Assumptions C125_name_refuted.
