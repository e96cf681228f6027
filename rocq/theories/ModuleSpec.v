(** When a module with a component makes sense. *)
From Coq Require Import String List NArith ZArith QArith Bool.
From Verif Require Import Chars NameModel AttrTable ElemModel JsxNamesModel JsxModel JsxSpec PresetModel PresetSpec ModuleModel.
Import ListNotations.

(** The names that JSX uses, besides those in expressions of the user: components and values. *)
Fixpoint value_uses (v : jvalue) : list text := match v with JIdent x => [x] | JOr x v => x :: value_uses v | _ => [] end.
Definition attr_uses (a : jattr) : list text := match a with JAttr _ v => value_uses v | JSpread x => [x] end.
Fixpoint uses (j : jsx) : list text :=
  match j with
  | JElement n a _ kids _ => (if intrinsic n then [] else [n]) ++ flat_map attr_uses a ++ flat_map uses kids
  | JFragment kids => flat_map uses kids
  | JName x => [x]
  | JWhen _ x yes no => x :: uses yes ++ match no with Some j => uses j | None => [] end
  | JText _ | JEmpty => []
  end.
Definition local (i : specifier) : text := match i with SDefault x | SStar x | SNamed x => x end.
Definition imported (m : module) : list text := flat_map (fun i => map local (snd i)) (imports m).
Definition param_names (p : param) : list text := match p with PObject l r _ => l ++ match r with Some x => [x] | None => [] end | PName x _ => [x] end.
Definition param_types (p : param) : list text := match p with PObject _ _ t | PName _ t => t end.
(** The names of the module. *)
Definition declared (m : module) : list text := imported m ++ component_name m :: map (fun w => fst (fst w)) (wrappers m).
(** Each name that is used in the component is one of its parameters or of the module; wrappers call an imported function with something before them;
    what is exported is there. *)
Definition in_scope (m : module) : Prop :=
  (forall x, In x (uses (body m)) -> In x (flat_map param_names (params m)) \/ In x (imported m)) /\
  (forall before w f a after, wrappers m = before ++ (w, f, a) :: after -> In f (imported m) /\ (a = component_name m \/ In a (map (fun w => fst (fst w)) before))) /\
  In (exported m) (declared m).
(** Each type that is used is declared, imported or the one of svg elements in every browser. *)
Definition types_in_scope (m : module) : Prop :=
  forall x, In x (flat_map param_types (params m)) -> In x (map fst (interfaces m)) \/ In x (imported m) \/ x = lit "SVGSVGElement".
(** An import is of a namespace or of names, not both. *)
Definition well_formed (i : text * list specifier) : Prop := forall x y, In (SStar x) (snd i) -> ~ In (SNamed y) (snd i).
(** What is exported: the component, in [forwardRef] if it takes a reference, in [memo] if it is to be remembered. *)
Inductive wrapped (m : module) : text -> list text -> Prop :=
| w_component : wrapped m (component_name m) []
| w_wrapper w f a l : In (w, f, a) (wrappers m) -> wrapped m a l -> wrapped m w (f :: l).
(** Names that the module makes up. *)
Definition made_up : list text := [lit "forwardRef"; lit "memo"; lit "SVGProps"; lit "ForwardRef"; lit "Memo"; lit "React"; lit "h"].
(** The components of react-native-svg that can occur. *)
Definition natives : list text :=
  map lit ["Svg"; "Circle"; "ClipPath"; "Ellipse"; "G"; "LinearGradient"; "RadialGradient"; "Line"; "Path"; "Pattern"; "Polygon"; "Polyline"; "Rect"; "Symbol"; "Text"; "TextPath"; "TSpan"; "Use";
    "Defs"; "Stop"; "Mask"; "Image"; "ForeignObject"; "Title"; "Desc"]%string.
(** Names that clash with none of these, alone or as the name of the type of the properties. *)
Definition free_name (n : text) : Prop := ~ In n made_up /\ ~ In n natives /\ n <> lit "SVG".
(** Every name of a module is declared once. *)
Definition once (m : module) : Prop := NoDup (declared m) /\ forall x, In x (map fst (interfaces m)) -> ~ In x (imported m).
(** The names that the configuration gives, which have to be names of JavaScript. *)
Definition named_of (r : option text) : list text := match r with Some x => [x] | None => [] end.
Definition given_names (m : moptions) : list text :=
  let r := runtime_of m in r_specifiers r ++ named_of (r_namespace r) ++ named_of (r_default r) ++ if m_named m then named_of (m_export m) else [].

(** React calls a component with its properties, and one in [forwardRef] with its properties and the reference. *)
Definition called_right (m : module) : Prop :=
  if existsb (fun w => text_eqb (snd (fst w)) (lit "forwardRef")) (wrappers m)
  then exists p q, params m = [p; q] /\ param_names q = [lit "ref"] /\ ~ In (lit "ref") (param_names p)
  else exists l, params m = l /\ (List.length l <= 1)%nat /\ ~ In (lit "ref") (flat_map param_names l).
