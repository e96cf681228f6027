(** What is drawn, as SVG says. *)
From Coq Require Import String List NArith Bool Arith.
From Verif Require Import Chars ReuseModel.
Import ListNotations.

(** What an element has from those around it. *)
Record env := mkEnv { e_fill : option nat; e_stroke : option nat; e_moves : list move; e_rest : list nat }.
Definition blank : env := mkEnv None None [] [].
(** A shape with its paint, the transformations from the outside to the inside, and other attributes. *)
Record drawn := mkDrawn { what : nat; by_env : env }.

Definition or_else {A} (a b : option A) : option A := match a with Some _ => a | None => b end.
(** The style is stronger than the attribute, the attribute than what is inherited. *)
Definition within (e : env) (a : attrs) : env :=
  mkEnv (or_else (a_style a) (or_else (a_fill a) (e_fill e))) (or_else (a_stroke a) (e_stroke e))
    (e_moves e ++ match a_turn a with Some n => [Turn n] | None => [] end) (e_rest e ++ a_rest a).
(** The position of a use comes after its transformation. *)
Definition shifted (e : env) (a : attrs) : env :=
  mkEnv (e_fill e) (e_stroke e) (e_moves e ++ match a_shift a with Some n => [Shift n] | None => [] end) (e_rest e).
(** The first element with an id. *)
Definition lookup (d : doc) (i : text) (t : tree) : option tree :=
  find (fun s => match a_id (snd (cells d (root s))) with Some j => text_eqb i j | None => false end) (subs t).

(** [draws d e t l]: the element [t], inside of [e], is drawn as [l].  There is nothing for a use in itself. *)
Inductive draws (d : doc) : env -> tree -> list drawn -> Prop :=
| draws_path : forall e k l a s, cells d k = (Path, a) -> a_d a = Some s -> draws d e (Node k l) [mkDrawn s (within e a)]
| draws_nopath : forall e k l a, cells d k = (Path, a) -> a_d a = None -> draws d e (Node k l) []
| draws_group : forall e k l a o, cells d k = (Group, a) \/ cells d k = (Svg, a) -> draws_all d (within e a) l o -> draws d e (Node k l) o
| draws_hidden : forall e k l a, cells d k = (Defs, a) \/ cells d k = (Other, a) -> draws d e (Node k l) []
| draws_use : forall e k l a i t o, cells d k = (Use, a) -> a_href a = Some (url i) -> lookup d i (shape d) = Some t ->
    draws d (shifted (within e a) a) t o -> draws d e (Node k l) o
| draws_unused : forall e k l a, cells d k = (Use, a) -> (forall i, a_href a = Some (url i) -> lookup d i (shape d) = None) -> draws d e (Node k l) []
with draws_all (d : doc) : env -> list tree -> list drawn -> Prop :=
| draws_nil : forall e, draws_all d e [] []
| draws_cons : forall e t l o o', draws d e t o -> draws_all d e l o' -> draws_all d e (t :: l) (o ++ o').

(** The picture of a document. *)
Definition picture (d : doc) (o : list drawn) : Prop := draws d blank (shape d) o.

(** Pointers are to one place each, and those of new elements are new. *)
Definition sound (d : doc) : Prop := NoDup (keys (shape d)) /\ Forall (fun k => k < fresh d) (keys (shape d)).
(** Two paths that the job takes for the same. *)
Definition alike (d : doc) (k k' : nat) : Prop :=
  exists a a', cells d k = (Path, a) /\ cells d k' = (Path, a') /\ a_d a <> None /\ a_d a = a_d a' /\ a_stroke a = a_stroke a' /\ a_fill a = a_fill a'.
(** A path that occurs again. *)
Definition repeated (d : doc) (k : nat) : Prop := In k (keys (shape d)) /\ exists k', In k' (keys (shape d)) /\ k' <> k /\ alike d k k'.
Definition has_id (d : doc) (k : nat) (i : text) : Prop := a_id (snd (cells d k)) = Some i.
(** No id is that of two elements. *)
Definition unique_ids (d : doc) : Prop :=
  forall k k' i, In k (keys (shape d)) -> In k' (keys (shape d)) -> has_id d k i -> has_id d k' i -> k = k'.
(** Something refers to an id. *)
Definition referred (d : doc) (i : text) : Prop := exists k, In k (keys (shape d)) /\ a_href (snd (cells d k)) = Some (url i).
(** [k] is inside of [j]. *)
Definition inside (d : doc) (j k : nat) : Prop := exists l s, In (Node j l) (subs (shape d)) /\ In s l /\ In k (keys s).
(** A repeated path is nothing but a path: not in defs, without children, without style, without attributes that only a use has, and nothing refers to it. *)
Definition plain (d : doc) (k : nat) : Prop :=
  (forall l, In (Node k l) (subs (shape d)) -> l = []) /\ (forall j a, cells d j = (Defs, a) -> ~ inside d j k)
  /\ a_style (snd (cells d k)) = None /\ a_shift (snd (cells d k)) = None /\ a_href (snd (cells d k)) = None
  /\ (forall i, has_id d k i -> ~ referred d i).
(** There is one svg, or none. *)
Definition one_svg (d : doc) : Prop := forall k a, In k (keys (shape d)) -> cells d k = (Svg, a) -> k = root (shape d).
(** The names of new elements are not in use. *)
Definition free_names (d : doc) : Prop := forall n, ~ referred d (reuse n) /\ forall k, In k (keys (shape d)) -> ~ has_id d k (reuse n).
Definition simple (d : doc) : Prop :=
  sound d /\ unique_ids d /\ one_svg d /\ free_names d /\ (forall k, repeated d k -> plain d k).

(** Every use is where the prefix [xlink] is declared. *)
Inductive bound (d : doc) : bool -> tree -> Prop :=
| bound_here : forall b k l, (a_href (snd (cells d k)) <> None -> b || a_xlink (snd (cells d k)) = true) ->
    Forall (bound d (b || a_xlink (snd (cells d k)))) l -> bound d b (Node k l).
