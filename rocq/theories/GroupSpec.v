(** What moving attributes between groups and their children must keep: for every element that is not a
    group, what it gets from its ancestors and itself. *)
From Coq Require Import String List NArith ZArith Bool Arith.
From Verif Require Import Chars GroupModel.
Import ListNotations.

(** Walking down the tree with something that each element changes by its name and attributes, and
    noting the result for each element other than [g], in document order. *)
Section Walk.
Context {E : Type} (step : ename -> E -> list gattr -> E).
Fixpoint seen (env : E) (n : gnode) {struct n} : list (ename * E) :=
  match n with
  | GT _ => []
  | GE name attrs kids =>
      (if is_g name then [] else [(name, step name env attrs)]) ++ flat_map (seen (step name env attrs)) kids
  end.
End Walk.

(** The first attribute of an element for which [f] gives something. *)
Fixpoint pick {A} (f : gattr -> option A) (l : list gattr) : option A :=
  match l with [] => None | a :: l => match f a with Some x => Some x | None => pick f l end end.
Definition orelse {A} (a b : option A) : option A := match a with Some _ => a | None => b end.
Definition last_some {A B} (f : B -> option A) (l : list B) : option A :=
  fold_left (fun r d => orelse (f d) r) l None.

(** Total transforms. An element's own transform is that of its [style], else of its attribute;
    [inherit] takes the parent's own; one that cannot be read counts for nothing. With an origin, it is
    framed by translations. Elements not drawn where they stand start anew. *)
Definition style_transform (a : gattr) : option (list tf) :=
  match a with
  | AStyle l => last_some (fun d => match d with STransform l => Some l | SDecl _ _ => None end) l
  | _ => None
  end.
Definition attr_transform (parent : list tf) (a : gattr) : option (list tf) :=
  match a with ATransform l => Some l | ATransformInherit => Some parent | ATransformUnparsed _ => Some [] | _ => None end.
Definition origin_of (a : gattr) : option (Z * Z) := match a with AOrigin x y => Some (x, y) | _ => None end.
Definition translate (x y : Z) : tf := TF 0 [x; y].
Definition step_total (name : ename) (env : list tf * list tf) (attrs : list gattr) : list tf * list tf :=
  let (total, parent) := env in
  let own := match orelse (pick style_transform attrs) (pick (attr_transform parent) attrs) with Some l => l | None => [] end in
  let framed := match own, pick origin_of attrs with
                | [], _ | _, None => own
                | _, Some (x, y) => translate x y :: own ++ [translate (- x) (- y)]
                end in
  ((match name with EResource => [] | _ => total end) ++ framed, own).
(** The elements with their total transforms (lists of functions, so equal for any meaning of them). *)
Definition totals (n : gnode) : list (ename * list tf) :=
  map (fun x => (fst x, fst (snd x))) (seen step_total ([], []) n).

(** The value of an inherited property: that of [style], else of the attribute, else the parent's. *)
Definition style_prop (p : prop) (a : gattr) : option text :=
  match a with
  | AStyle l => last_some (fun d => match d with SDecl q v => if prop_dec q p then Some (v_text v) else None | STransform _ => None end) l
  | _ => None
  end.
Definition attr_prop (p : prop) (parent : option text) (a : gattr) : option (option text) :=
  match a with
  | AProp q v => if prop_dec q p
                 then match v with PDef v => Some (Some (v_text v)) | PInherit => Some parent | PUnparsed _ => None end
                 else None
  | _ => None
  end.
Definition step_inherited (k : nat) (_ : ename) (env : option text) (attrs : list gattr) : option text :=
  match pick (style_prop (Inh k)) attrs with
  | Some v => Some v
  | None => match pick (attr_prop (Inh k) env) attrs with Some v => v | None => env end
  end.
(** The elements with their value of the inherited property [k]. *)
Definition inherited (k : nat) (n : gnode) : list (ename * option text) := seen (step_inherited k) None n.

(** The values of a property that is not inherited which apply to an element: its own and those of its
    ancestors. *)
Definition step_effects (k : nat) (_ : ename) (env : list text * option text) (attrs : list gattr) : list text * option text :=
  let own := match pick (style_prop (Non k)) attrs with
             | Some v => Some v
             | None => match pick (attr_prop (Non k) (snd env)) attrs with Some v => v | None => None end
             end in
  (fst env ++ match own with Some v => [v] | None => [] end, own).
Definition effects (k : nat) (n : gnode) : list (ename * list text) :=
  map (fun x => (fst x, fst (snd x))) (seen (step_effects k) ([], None) n).

(** The tree without its [transform] attributes. *)
Fixpoint without_transforms (n : gnode) : gnode :=
  match n with
  | GT t => GT t
  | GE name attrs kids =>
      GE name (filter (fun a => match a with ATransform _ | ATransformInherit | ATransformUnparsed _ => false | _ => true end) attrs)
        (map without_transforms kids)
  end.

(** Trees: something holds of every element's name and attributes; an element has each name once. *)
Fixpoint every (P : ename -> list gattr -> Prop) (n : gnode) {struct n} : Prop :=
  match n with
  | GT _ => True
  | GE name attrs kids =>
      P name attrs /\ (fix all (l : list gnode) : Prop := match l with [] => True | k :: l => every P k /\ all l end) kids
  end.
Definition each_once (attrs : list gattr) : Prop := NoDup (map name_of attrs).
(** Transforms are readable, given by attributes only, and have no origin. *)
Definition plain_transform (a : gattr) : Prop :=
  match a with
  | ATransformInherit | ATransformUnparsed _ | AOrigin _ _ => False
  | AStyle l => forall t, ~ In (STransform t) l
  | _ => True
  end.
Definition plain_transforms (_ : ename) (attrs : list gattr) : Prop := forall a, In a attrs -> plain_transform a.

(** The nodes of the tree without its groups, in document order. *)
Fixpoint content (n : gnode) : list (ename + text) :=
  match n with
  | GT t => [inr t]
  | GE name _ kids => (if is_g name then [] else [inl name]) ++ flat_map content kids
  end.

(** The tree with only the attributes other than [transform] and those of inherited properties. *)
Definition of_the_element_alone (a : gattr) : bool :=
  match a with ATransform _ | ATransformInherit | ATransformUnparsed _ | AProp (Inh _) _ => false | _ => true end.
Fixpoint without_inherited (n : gnode) : gnode :=
  match n with
  | GT t => GT t
  | GE name attrs kids => GE name (filter of_the_element_alone attrs) (map without_inherited kids)
  end.

(** An effect on the coordinates of an element ([clip-path], [mask], [filter]) together with the total
    transform of the element that has it. *)
Definition step_placed (k : nat) (name : ename) (env : (list tf * list tf) * list (text * list tf)) (attrs : list gattr) :=
  let '(tenv, placed) := env in
  let tenv := step_total name tenv attrs in
  (tenv, placed ++ match pick (style_prop (Non k)) attrs with
                   | Some v => [(v, fst tenv)]
                   | None => match pick (attr_prop (Non k) None) attrs with Some (Some v) => [(v, fst tenv)] | _ => [] end
                   end).
Definition placed_effects (k : nat) (n : gnode) : list (ename * list (text * list tf)) :=
  map (fun x => (fst x, snd (snd x))) (seen (step_placed k) (([], []), []) n).
(** Where a group has the effect [k], it refers to an element of the document, and not by [style]. *)
Definition effects_are_references (k : nat) (name : ename) (attrs : list gattr) : Prop :=
  name = EG -> forall a, In a attrs ->
  match a with AProp (Non j) v => j = k -> exists w, v = PDef w /\ v_ref w = true | AStyle _ => False | _ => True end.

(** Values of the inherited property [k] are readable and not [inherit]; groups do not give it by [style]. *)
Definition plain_inherited (k : nat) (name : ename) (attrs : list gattr) : Prop :=
  forall a, In a attrs ->
  match a with
  | AProp (Inh j) v => j = k -> exists w, v = PDef w
  | AStyle l => name = EG -> forall v, ~ In (SDecl (Inh k) v) l
  | _ => True
  end.
(** Elements not drawn where they stand have no transform. *)
Definition no_resource_transform (name : ename) (attrs : list gattr) : Prop :=
  name = EResource -> forall a, In a attrs -> name_of a <> NTransform.
(** No styles, animations or elements that are not drawn where they stand; a property that is not
    inherited is not given as [inherit] or unreadable. *)
Definition simple_element (name : ename) (attrs : list gattr) : Prop :=
  name <> EAnimation /\ name <> EResource /\
  forall a, In a attrs -> match a with AStyle _ => False | AProp (Non _) v => exists w, v = PDef w | _ => True end.
(** Each property that is not inherited is given at most once between an element and the root. *)
Definition gives (p : prop) (attrs : list gattr) : Prop := exists v, In (AProp p v) attrs.
Fixpoint once_per_branch (k : nat) (above : Prop) (n : gnode) {struct n} : Prop :=
  match n with
  | GT _ => True
  | GE _ attrs kids =>
      ~ (above /\ gives (Non k) attrs) /\
      (fix all (l : list gnode) : Prop :=
         match l with [] => True | x :: l => once_per_branch k (above \/ gives (Non k) attrs) x /\ all l end) kids
  end.

(** What a [use] draws (SVG 2, 5.6.2): for each element with an [id], in document order, what the walk notes for it and the elements in it, starting from what the [use] gives. *)
Definition id_of (attrs : list gattr) : option text := pick (fun a => match a with AOther KId v => Some (v_text v) | _ => None end) attrs.
Section Used.
Context {E : Type} (step : ename -> E -> list gattr -> E).
Fixpoint used (env : E) (n : gnode) {struct n} : list (text * list (ename * E)) :=
  match n with
  | GT _ => []
  | GE name attrs kids =>
      match id_of attrs with Some i => [(i, seen step env (GE name attrs kids))] | None => [] end ++ flat_map (used env) kids
  end.
End Used.
Definition used_totals (env : list tf * list tf) (n : gnode) : list (text * list (ename * list tf)) :=
  map (fun x => (fst x, map (fun y => (fst y, fst (snd y))) (snd x))) (used step_total env n).
Definition used_inherited (k : nat) (env : option text) (n : gnode) : list (text * list (ename * option text)) := used (step_inherited k) env n.
Definition used_effects (k : nat) (env : list text * option text) (n : gnode) : list (text * list (ename * list text)) :=
  map (fun x => (fst x, map (fun y => (fst y, fst (snd y))) (snd x))) (used (step_effects k) env n).
(** Groups have neither [id] nor [class]. *)
Definition bare_group (name : ename) (attrs : list gattr) : Prop :=
  name = EG -> forall a, In a attrs -> name_of a <> NOther KId /\ name_of a <> NOther KClass.
(** Groups do not give the property [k] by [style]. *)
Definition no_group_style (k : nat) (name : ename) (attrs : list gattr) : Prop :=
  name = EG -> forall l v, In (AStyle l) attrs -> ~ In (SDecl (Non k) v) l.
