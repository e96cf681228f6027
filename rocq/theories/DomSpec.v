(** Specification of the DOM: abstract child lists and what each structural edit does to them.
    Written from the DOM standard's point of view; uses only the five link getters of the
    model ([parent], [next], [prev], [first], [last]) and [ndata]. *)
From Coq Require Import List Arith Bool Relations.
From Verif Require Import DomModel.
Import ListNotations.

(** Abstract document state: the ordered child list of every node. *)
Definition kidmap : Type := nat -> list nat.

Fixpoint lastof (d : option nat) (l : list nat) : option nat :=
  match l with
  | [] => d
  | a :: r => lastof (Some a) r
  end.

Definition headof (l : list nat) (d : option nat) : option nat :=
  match l with
  | [] => d
  | a :: _ => Some a
  end.

(** [l] is a doubly linked run of children of [p] in [h], entered from [a] and left to [b]. *)
Fixpoint seg (h : heap) (p : nat) (a : option nat) (l : list nat) (b : option nat) : Prop :=
  match l with
  | [] => True
  | c :: r =>
      parent (h c) = Some p /\ prev (h c) = a /\ next (h c) = headof r b /\
      seg h p (Some c) r b
  end.

Definition child (k : kidmap) (p c : nat) : Prop := In c (k p).
(** [desc k p c]: [c] is a proper descendant of [p]. *)
Definition desc (k : kidmap) : nat -> nat -> Prop := clos_trans nat (child k).
(** [within k p c]: [c] is [p] or a descendant of [p]. *)
Definition within (k : kidmap) (p c : nat) : Prop := p = c \/ desc k p c.

(** The heap is a consistent forest whose child lists are [k]. *)
Record Repr (h : heap) (k : kidmap) : Prop := {
  r_first : forall p, first (h p) = headof (k p) None;
  r_last : forall p, last (h p) = lastof None (k p);
  r_seg : forall p, seg h p None (k p) None;
  r_nodup : forall p, NoDup (k p);
  r_orphan : forall c, (forall p, ~ In c (k p)) ->
      parent (h c) = None /\ prev (h c) = None /\ next (h c) = None;
  r_kind : forall p c, In c (k p) -> is_element_or_document (ndata (h p)) = true;
  r_acyclic : forall x, ~ desc k x x
}.

(** List edits. *)
Definition without (n : nat) (l : list nat) : list nat :=
  filter (fun x => negb (x =? n)) l.

Fixpoint put_before (r n : nat) (l : list nat) : list nat :=
  match l with
  | [] => []
  | a :: t => if a =? r then n :: a :: t else a :: put_before r n t
  end.

Fixpoint put_after (r n : nat) (l : list nat) : list nat :=
  match l with
  | [] => []
  | a :: t => if a =? r then a :: n :: t else a :: put_after r n t
  end.

Fixpoint subst_by (r : nat) (ns : list nat) (l : list nat) : list nat :=
  match l with
  | [] => []
  | a :: t => if a =? r then ns ++ t else a :: subst_by r ns t
  end.

(** Structural edits offered by the API (arguments as in the API). *)
Inductive edit : Type :=
| ERemove (n : nat)
| EInsertBefore (self new ref : nat)
| EInsertAfter (self new ref : nat)
| EAppend (self n : nat)
| EAfter (e n : nat)
| EReplaceWith (e n : nat)
| EReplaceChild (self new old : nat)
| EFlatten (e : nat)
| EAppendChild (self n : nat)
| EPrepend (self n : nat)
| EInsert (self idx n : nat).

Definition upd (k : kidmap) (p : nat) (l : list nat) : kidmap :=
  fun q => if q =? p then l else k q.

Definition detached (k : kidmap) (n : nat) : Prop := forall p, ~ In n (k p).

(** What each edit does to the child lists (a relation, because [after] and [replace_with] look
    up the parent). *)
Inductive edit_spec (k : kidmap) : edit -> kidmap -> Prop :=
| SRemove n : edit_spec k (ERemove n) (fun p => without n (k p))
| SInsertBefore self new ref :
    edit_spec k (EInsertBefore self new ref)
      (fun p => if p =? self then put_before ref new (without new (k p)) else without new (k p))
| SInsertAfter self new ref :
    edit_spec k (EInsertAfter self new ref)
      (fun p => if p =? self then put_after ref new (without new (k p)) else without new (k p))
| SAppend self n :
    edit_spec k (EAppend self n)
      (fun p => if p =? self then without n (k p) ++ [n] else without n (k p))
| SAfter e n p : In e (k p) ->
    edit_spec k (EAfter e n)
      (fun q => if q =? p then put_after e n (without n (k q)) else without n (k q))
| SAfterDetached e n : detached k e -> edit_spec k (EAfter e n) k
| SReplaceWith e n p : In e (k p) ->
    edit_spec k (EReplaceWith e n)
      (fun q => if q =? p then subst_by e [n] (without n (k q)) else without n (k q))
| SReplaceWithDetached e n : detached k e -> edit_spec k (EReplaceWith e n) k
| SReplaceChild self new old :
    edit_spec k (EReplaceChild self new old) (upd k self (subst_by old [new] (k self)))
| SFlatten e p : In e (k p) ->
    edit_spec k (EFlatten e)
      (fun q => if q =? p then subst_by e (k e) (k q) else if q =? e then [] else k q)
| SAppendChild self n : edit_spec k (EAppendChild self n) (upd k self (k self ++ [n]))
| SPrepend self n : edit_spec k (EPrepend self n) (upd k self (n :: k self))
| SInsert self idx n :
    edit_spec k (EInsert self idx n)
      (upd k self (firstn idx (k self) ++ n :: skipn idx (k self))).

(** The documented roles of the arguments ([el] says which nodes may have children). *)
Definition edit_ok (el : nat -> bool) (k : kidmap) (e : edit) : Prop :=
  match e with
  | ERemove _ => True
  | EInsertBefore self new ref | EInsertAfter self new ref =>
      In ref (k self) /\ new <> ref /\ ~ within k new self
  | EAppend self n => el self = true /\ ~ within k n self
  | EAfter e n | EReplaceWith e n =>
      n <> e /\ forall p, In e (k p) -> ~ within k n p
  | EReplaceChild self new old =>
      In old (k self) /\ detached k new /\ ~ within k new self
  | EFlatten e => exists p, In e (k p)
  | EAppendChild self n | EPrepend self n | EInsert self _ n =>
      el self = true /\ detached k n /\ ~ within k n self
  end.

(** Running an edit on the model.  The walk in [flatten] gets as much fuel as the child list is
    long plus one; [None] would mean it did not terminate. *)
Definition run_edit (fuel : nat) (h : heap) (e : edit) : option heap :=
  match e with
  | ERemove n => Some (remove h n)
  | EInsertBefore self new ref => Some (insert_before h self new ref)
  | EInsertAfter self new ref => Some (insert_after h self new ref)
  | EAppend self n => Some (append h self n)
  | EAfter e n => Some (after h e n)
  | EReplaceWith e n => Some (replace_with h e n)
  | EReplaceChild self new old => Some (replace_child h self new old)
  | EFlatten e => flatten fuel h e
  | EAppendChild self n => Some (append_child h self n)
  | EPrepend self n => Some (prepend h self n)
  | EInsert self idx n => Some (insert h self idx n)
  end.

(** A history of edits: each respects its argument roles in the abstract state it is applied
    to. *)
Inductive edits_spec (el : nat -> bool) : kidmap -> list edit -> kidmap -> Prop :=
| ES_nil k : edits_spec el k [] k
| ES_cons k e k' es k'' :
    edit_ok el k e -> edit_spec k e k' -> edits_spec el k' es k'' ->
    edits_spec el k (e :: es) k''.

Fixpoint run_edits (fuel : nat) (h : heap) (es : list edit) : option heap :=
  match es with
  | [] => Some h
  | e :: es => match run_edit fuel h e with
               | Some h => run_edits fuel h es
               | None => None
               end
  end.

(** Abstract double-ended queue: what a caller pulling from both ends of a child list sees. *)
Fixpoint deque (l : list nat) (sched : list bool) : list (option nat) :=
  match sched with
  | [] => []
  | true :: s => match l with
                 | [] => None :: deque [] s
                 | c :: r => Some c :: deque r s
                 end
  | false :: s => match rev l with
                  | [] => None :: deque [] s
                  | c :: r => Some c :: deque (rev r) s
                  end
  end.

(** Position of [c] in [l]. *)
Fixpoint index_of (c : nat) (l : list nat) : option nat :=
  match l with
  | [] => None
  | x :: r => if x =? c then Some 0 else option_map S (index_of c r)
  end.

(** [f] is a total preorder given as a three-way comparison. *)
Record total_preorder (f : nat -> nat -> comparison) : Prop := {
  tp_total : forall a b, f a b = Gt -> f b a = Lt;
  tp_trans : forall a b c, f a b <> Gt -> f b c <> Gt -> f a c <> Gt
}.

(** [l] is in non-decreasing order for [f]. *)
Fixpoint sorted (f : nat -> nat -> comparison) (l : list nat) : Prop :=
  match l with
  | [] => True
  | x :: r => (forall y, In y r -> f x y <> Gt) /\ sorted f r
  end.

(** Children dropped by a predicate form a prefix of the child list. *)
Definition drops_prefix (f : nat -> bool) (l : list nat) : Prop :=
  exists d r, l = d ++ r /\ (forall x, In x d -> f x = false) /\ (forall x, In x r -> f x = true).
