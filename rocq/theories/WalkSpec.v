(** Documents as trees, what it means that the links hold a tree, and what walking a tree does when
    the callbacks edit it. *)
From Coq Require Import List Arith Bool.
From Verif Require Import DomModel DomSpec WalkModel.
Import ListNotations.

Inductive wtree (D : Type) : Type := W (id : nat) (d : D) (kids : list (wtree D)).
Arguments W {D}.

Section Spec.
  Context {D X : Type}.
  Definition wid (t : wtree D) : nat := match t with W id _ _ => id end.
  Definition wdata (t : wtree D) : D := match t with W _ d _ => d end.
  Definition wkids (t : wtree D) : list (wtree D) := match t with W _ _ l => l end.
  Fixpoint ids (t : wtree D) : list nat := match t with W id _ l => id :: flat_map ids l end.
  Definition all_ids (l : list (wtree D)) : list nat := flat_map ids l.

  (** The nodes [l] are the children of [p], doubly linked. *)
  Definition linked (s : wstate D X) (p : nat) (l : list nat) : Prop :=
    first (w_heap s p) = headof l None /\ last (w_heap s p) = lastof None l /\ seg (w_heap s) p None l None.
  (** The links below the root of [t], and what its nodes carry, are those of [t]. *)
  Inductive holds (s : wstate D X) : wtree D -> Prop :=
  | Holds id d kids : w_info s id = d -> linked s id (map wid kids) -> Forall (holds s) kids -> holds s (W id d kids).
  (** The trees [l] are what is below [p]. *)
  Definition below (s : wstate D X) (p : nat) (l : list (wtree D)) : Prop :=
    linked s p (map wid l) /\ Forall (holds s) l.
  (** The nodes above: the parent first. *)
  Fixpoint above (s : wstate D X) (anc : list (nat * D)) : Prop :=
    match anc with
    | [] => True
    | (p, d) :: rest =>
        w_info s p = d /\
        match rest with (q, _) :: _ => parent (w_heap s p) = Some q | [] => True end /\ above s rest
    end.
  (** Nothing changed but the nodes [l] and the first and last child of [p]. *)
  Definition only (p : nat) (l : list nat) (s s' : wstate D X) : Prop :=
    (forall m, m <> p -> ~ In m l -> w_heap s' m = w_heap s m) /\
    (parent (w_heap s' p) = parent (w_heap s p) /\ prev (w_heap s' p) = prev (w_heap s p) /\ next (w_heap s' p) = next (w_heap s p)) /\
    (forall m, ~ In m l -> w_info s' m = w_info s m).

  (** What a callback does to the tree it is called on.  [element] may change what the node carries and
      choose other children, or take the node out of the document; [exit_element] and the other callbacks
      put any trees in the place of the node.  The callbacks see what is above the node and the siblings
      before and after it. *)
  Inductive enter_act : Type := EKeep (skip : bool) (d : D) (kids : list (wtree D)) | ERemove.
  Definition around : Type := (list (nat * D) * list (wtree D) * list (wtree D))%type.
  Variable is_elem : D -> bool.
  Variable enter_r : X -> around -> wtree D -> X -> enter_act -> Prop.
  Variable exit_r leaf_r : X -> around -> wtree D -> X -> list (wtree D) -> Prop.
  (** [exit_element] on a node that is no longer in the document. *)
  Variable gone_r : X -> wtree D -> X -> Prop.

  (** A walk: children in order, each once, whatever was done to the siblings before. *)
  Inductive runs : around -> X -> wtree D -> X -> list (wtree D) -> Prop :=
  | R_leaf anc A B x t x' out : is_elem (wdata t) = false -> leaf_r x (anc, A, B) t x' out -> runs (anc, A, B) x t x' out
  | R_keep anc A B x t x1 d kids x2 kids' x3 out : is_elem (wdata t) = true ->
      enter_r x (anc, A, B) t x1 (EKeep false d kids) ->
      runs_list ((wid t, d) :: anc) [] x1 kids x2 kids' ->
      exit_r x2 (anc, A, B) (W (wid t) d kids') x3 out -> runs (anc, A, B) x t x3 out
  | R_skip anc A B x t x1 d kids x3 out : is_elem (wdata t) = true ->
      enter_r x (anc, A, B) t x1 (EKeep true d kids) ->
      exit_r x1 (anc, A, B) (W (wid t) d kids) x3 out -> runs (anc, A, B) x t x3 out
  | R_gone anc A B x t x1 x2 kids' x3 : is_elem (wdata t) = true ->
      enter_r x (anc, A, B) t x1 ERemove ->
      runs_list [(wid t, wdata t)] [] x1 (wkids t) x2 kids' ->
      gone_r x2 (W (wid t) (wdata t) kids') x3 -> runs (anc, A, B) x t x3 []
  with runs_list : list (nat * D) -> list (wtree D) -> X -> list (wtree D) -> X -> list (wtree D) -> Prop :=
  | RL_nil anc A x : runs_list anc A x [] x []
  | RL_cons anc A x t l x1 out1 x2 out2 : runs (anc, A, l) x t x1 out1 -> runs_list anc (A ++ out1) x1 l x2 out2 ->
      runs_list anc A x (t :: l) x2 (out1 ++ out2).

  (** The callbacks of the model do to the links what the relations say. *)
  Variable enter : nat -> wstate D X -> nat -> option (wstate D X * bool).
  Variable exit leaf : nat -> wstate D X -> nat -> option (wstate D X).

  (** The trees put in place of [t] are made of its nodes. *)
  Definition made_of (t : wtree D) (out : list (wtree D)) : Prop := incl (all_ids out) (ids t) /\ NoDup (all_ids out).
  (** The situation of a callback: [t] is a child of the head of [anc], between [A] and [B]. *)
  Definition place (s : wstate D X) (anc : list (nat * D)) (l : list (wtree D)) : Prop :=
    match anc with
    | [] => False
    | (p, _) :: _ => above s anc /\ below s p l /\ NoDup (map fst anc ++ all_ids l)
    end.
  Definition owner (anc : list (nat * D)) : nat := match anc with (p, _) :: _ => p | [] => 0 end.

  Definition enter_ok : Prop := forall x anc A B t x' act, enter_r x (anc, A, B) t x' act ->
    exists f0, forall f s, f0 <= f -> w_aux s = x -> place s anc (A ++ t :: B) ->
    match act with
    | EKeep skip d kids =>
        made_of t [W (wid t) d kids] /\
        exists s', enter f s (wid t) = Some (s', skip) /\ w_aux s' = x' /\
          below s' (owner anc) (A ++ W (wid t) d kids :: B) /\ only (owner anc) (all_ids (A ++ t :: B)) s s'
    | ERemove =>
        exists s', enter f s (wid t) = Some (s', false) /\ w_aux s' = x' /\
          below s' (owner anc) (A ++ B) /\ holds s' t /\ only (owner anc) (all_ids (A ++ t :: B)) s s' /\
          parent (w_heap s' (wid t)) = None /\ prev (w_heap s' (wid t)) = None /\ next (w_heap s' (wid t)) = None
    end.
  Definition put_ok (cb : nat -> wstate D X -> nat -> option (wstate D X))
      (cb_r : X -> around -> wtree D -> X -> list (wtree D) -> Prop) : Prop :=
    forall x anc A B t x' out, cb_r x (anc, A, B) t x' out ->
    exists f0, forall f s, f0 <= f -> w_aux s = x -> place s anc (A ++ t :: B) ->
    made_of t out /\
    exists s', cb f s (wid t) = Some s' /\ w_aux s' = x' /\
      below s' (owner anc) (A ++ out ++ B) /\ only (owner anc) (all_ids (A ++ t :: B)) s s'.
  Definition gone_ok : Prop := forall x t x', gone_r x t x' ->
    exists f0, forall f s, f0 <= f -> w_aux s = x -> holds s t -> NoDup (ids t) ->
    parent (w_heap s (wid t)) = None -> prev (w_heap s (wid t)) = None -> next (w_heap s (wid t)) = None ->
    exists s', exit f s (wid t) = Some s' /\ w_aux s' = x' /\
      (forall m, ~ In m (ids t) -> w_heap s' m = w_heap s m /\ w_info s' m = w_info s m).
End Spec.
