(** What a visitor run should do: document order, each node once, skipping exactly the
    descendants of the elements whose [element] callback asked for it. *)
From Coq Require Import List Bool.
From Verif Require Import VisitModel.
Import ListNotations.

(** The events of a subtree in document order; [within] says whether an ancestor is a
    foreignObject. *)
Fixpoint trace (skips : event -> bool) (within : bool) (t : tree) : list event :=
  match t with
  | Tree id KDocument cs =>
      EvDocument id :: flat_map (trace skips within) cs ++ [EvExitDocument id]
  | Tree id (KElement fo) cs =>
      let w := within || fo in
      EvElement id w ::
      (if skips (EvElement id w) then [] else flat_map (trace skips w) cs) ++
      [EvExitElement id w]
  | Tree id KStyle _ => [EvStyle id]
  | Tree id KText _ => [EvText id]
  | Tree id KComment _ => [EvComment id]
  | Tree id KDoctype _ => [EvDoctype id]
  | Tree id KPI _ => [EvPI id]
  | Tree _ KFragment _ => []
  end.

(** A run stops with the first failing callback. *)
Fixpoint until_failure (bad : event -> bool) (es : list event) : list event :=
  match es with
  | [] => []
  | e :: es => if bad e then [e] else e :: until_failure bad es
  end.

Definition no_exit_skip (cb : event -> outcome) : Prop :=
  forall id w, asks_skip (cb (EvExitElement id w)) = false.

(** Every node id of a tree, in document order. *)
Fixpoint tree_ids (t : tree) : list nat :=
  match t with Tree id _ cs => id :: flat_map tree_ids cs end.

(** The ids of the elements visited by a trace. *)
Fixpoint element_ids (t : tree) : list nat :=
  match t with
  | Tree id (KElement _) cs => id :: flat_map element_ids cs
  | Tree id KDocument cs => flat_map element_ids cs
  | _ => []
  end.
Definition entered (es : list event) : list nat :=
  flat_map (fun e => match e with EvElement id _ => [id] | _ => [] end) es.
