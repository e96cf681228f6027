(** What elements look like: the cascade with style elements, and what selectors match. *)
From Coq Require Import List Bool Arith.
From Verif Require Import CascadeModel CascadeSpec InlineModel.
Import ListNotations.

(** A selector with the block of its rule, and the conditions around it. *)
Record one : Type := mkOne { o_sel : selector; o_block : block; o_conds : list nat }.
Fixpoint ones (conds : list nat) (r : srule) : list one :=
  match r with
  | SRule sels b => map (fun s => mkOne s b conds) sels
  | SMedia q rs => (fix go (l : list srule) : list one := match l with [] => [] | r :: l => ones (q :: conds) r ++ go l end) rs
  end.
Definition sheet_ones (s : sheet) : list one := flat_map (ones match media s with Some q => [q] | None => [] end) (rules s).
Definition all_ones (ss : list sheet) : list one := flat_map sheet_ones ss.
Definition tokens_of (s : selector) : list token := tail s ++ concat (before s).

Section Look.
  (** What the part of a selector before its last combinator asks for; it looks at nothing but which of its tokens hold for which element. *)
  Variable context : list (list token) -> nat -> (nat -> token -> bool) -> nat -> bool.
  Definition by_tokens : Prop := forall b k f g i, (forall t j, In t (concat b) -> f j t = g j t) -> context b k f i = context b k g i.
  (** Which pseudo-classes an element is in, such as [:hover], and which attributes are properties for an element of that name. *)
  Variable pseudo : nat -> nat -> bool.
  Variable presentation : nat -> prop -> bool.

  Definition true_of (d : list element) (i : nat) (t : token) : bool :=
    match nth_error d i with
    | None => false
    | Some e =>
        match t with
        | TClass c => if in_dec Nat.eq_dec c (classes e) then true else false
        | TNot c => if in_dec Nat.eq_dec c (classes e) then false else true
        | TId n => match id e with Some m => Nat.eqb n m | None => false end
        | TAttr p v => match find_prop p (attrs e), v with Some w, Some v => Nat.eqb v w | Some _, None => true | None, _ => false end
        | TName n => Nat.eqb n (el_name e)
        | TPseudo n => pseudo n i
        | TClassAttr l => if list_eq_dec Nat.eq_dec (classes e) l then true else false
        end
    end.
  Definition selects (d : list element) (s : selector) (i : nat) : bool :=
    forallb (true_of d i) (tail s) && match before s with [] => true | b => context b (kinds s) (true_of d) i end.
  (** What rules declare for a property of an element, with specificity, where the conditions [on] hold. *)
  Definition declares (on : nat -> bool) (f : block -> list (prop * value)) (d : list element) (i : nat) (p : prop) (x : one) : list (nat * value) :=
    if forallb on (o_conds x) && selects d (o_sel x) i then map (fun v => (spec (o_sel x), v)) (values p (f (o_block x))) else [].
  Definition declared (on : nat -> bool) (f : block -> list (prop * value)) (d : list element) (ss : list sheet) (i : nat) (p : prop) : list (nat * value) :=
    flat_map (declares on f d i p) (all_ones ss).
  Definition of_style (f : block -> list (prop * value)) (e : element) (p : prop) : option value :=
    match style e with Some b => last_of (values p (f b)) | None => None end.
  (** The value of a property for an element, after the cascade. *)
  Definition value_of (on : nat -> bool) (d : list element) (ss : list sheet) (i : nat) (p : prop) : option value :=
    match nth_error d i with
    | None => None
    | Some e =>
        first_of [of_style b_important e p; best (declared on b_important d ss i p); of_style b_normal e p; best (declared on b_normal d ss i p);
                  if presentation (el_name e) p then find_prop p (attrs e) else None]
    end.
End Look.

(** A token tells a class, the id or an attribute of an element. *)
Definition about (t : token) (e e' : element) : Prop :=
  match t with
  | TClass c | TNot c => In c (classes e) <-> ~ In c (classes e')
  | TClassAttr _ => classes e <> classes e'
  | TId i => id e = Some i /\ id e' = None
  | TAttr p _ => find_prop p (attrs e) <> find_prop p (attrs e')
  | TName _ | TPseudo _ => False
  end.
(** None of the selectors that are left tells what an element has lost. *)
Definition untold (d d' : list element) (ss' : list sheet) : Prop :=
  forall x t i e e', In x (all_ones ss') -> In t (tokens_of (o_sel x)) -> nth_error d i = Some e -> nth_error d' i = Some e' -> ~ about t e e'.
(** Selectors say something about the element itself. *)
Definition wellformed (ss : list sheet) : Prop := forall x, In x (all_ones ss) -> tail (o_sel x) <> [].
Definition unconditional (ss : list sheet) : Prop := forall s, In s ss -> media s = None.
(** Ordinary tokens: classes, ids, names, and attributes. *)
Definition ordinary (t : token) : Prop := match t with TNot _ | TClassAttr _ => False | _ => True end.
(** A parent that is asked for: element 1 is in element 0. *)
Definition child : list (list token) -> nat -> (nat -> token -> bool) -> nat -> bool := fun b _ f i => Nat.eqb i 1 && forallb (f 0) (concat b).
