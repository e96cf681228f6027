(** What is selected after a sequence of actions, as nodes. *)
From Coq Require Import List Arith Bool.
From Verif Require Import SelectModel.
Import ListNotations.

(** The nodes a query asks for, when nodes are numbered by [t]. *)
Definition asked (t : list nat) (q : query) : list nat :=
  match q with
  | ByNodes nodes => nodes
  | ByIds ids => flat_map (fun i => match nth_error t i with Some p => [p] | None => [] end) ids
  end.

(** The selection after an action taken in [a]. *)
Definition select_step (a : actor) (sel : list nat) (x : act) : list nat :=
  match x with
  | Select q => asked (table a) q
  | SelectMore q => sel ++ asked (table a) q
  | Deselect | Forget => []
  | Other => sel
  | Change _ _ (Some nodes) => nodes
  | Change _ _ None => sel
  end.

(** Reasonable actions: queries name nodes that exist, a change leaves a tree of existing and new
    nodes, each once, and the nodes it chooses exist. *)
Definition query_ok (a : actor) (q : query) : Prop :=
  match q with
  | ByIds ids => Forall (fun i => i < length (table a)) ids
  | ByNodes nodes => Forall (fun p => In p (table a)) nodes
  end.
Definition act_ok (a : actor) (na : nat * act) : Prop :=
  match snd na with
  | Select q | SelectMore q => query_ok a q
  | Change created tree chosen =>
    let t := table (alloc created (get_selections (alloc (fst na) a))) in
    NoDup tree /\ incl tree t /\ match chosen with Some nodes => incl nodes t | None => True end
  | _ => True
  end.

(** Actors reached by such actions, with what is selected. *)
Inductive reached (n : nat) : actor -> list nat -> Prop :=
| reached_new : reached n (new_actor n) []
| reached_step a sel na : reached n a sel -> act_ok a na -> reached n (step a na) (select_step a sel (snd na)).

(** The same, where every action that selects selects something. *)
Definition keeps (a : actor) (sel : list nat) (x : act) : Prop :=
  match x with
  | Deselect | Forget => False
  | Select _ | SelectMore _ | Change _ _ (Some _) => select_step a sel x <> []
  | _ => True
  end.
Inductive reached_selecting (n : nat) : actor -> list nat -> Prop :=
| selecting_new : reached_selecting n (new_actor n) []
| selecting_step a sel na : reached_selecting n a sel -> act_ok a na -> keeps a sel (snd na) ->
    reached_selecting n (step a na) (select_step a sel (snd na)).

(** [names t ids nodes]: the ids are those of the nodes, in order. *)
Definition names (t : list nat) (ids nodes : list nat) : Prop :=
  Forall2 (fun i p => nth_error t i = Some p) ids nodes.
