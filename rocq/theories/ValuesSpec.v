(** How far numbers in attributes may move, and which of them are rounded. *)
From Coq Require Import List ZArith QArith Qcanon Bool Arith.
From Verif Require Import SegmentModel SegmentSpec ValuesModel.
Import ListNotations.
Local Close Scope Q_scope.
Local Open Scope nat_scope.

(** Half a unit in the last place. *)
Definition within (p : nat) (a b : Qc) : Prop :=
  ((1 + 1) * (b - a) <= Q2Qc (1 # pow10 p))%Qc /\ ((1 + 1) * (a - b) <= Q2Qc (1 # pow10 p))%Qc.
(** CSS Values, 6.2: 1in = 2.54cm = 25.4mm = 101.6Q = 72pt = 6pc = 96px; [s] tells the size of the other units. *)
Definition size (s : nat -> Qc) (u : unit_) : Qc :=
  match u with
  | Px => 1
  | In_ => Q2Qc 96
  | Cm => Q2Qc (9600 # 254)
  | Mm => Q2Qc (960 # 254)
  | Quarter => Q2Qc (960 # 1016)
  | Pt => Q2Qc (96 # 72)
  | Pc => Q2Qc 16
  | Relative u => s u
  end.
(** A length in the unit of another one, and then within the tolerance. *)
Definition close_length (s : nat -> Qc) (p : nat) (u : unit_) (n : Qc) (v : unit_) (m : Qc) : Prop :=
  exists x, (x * size s v = n * size s u)%Qc /\ within p x m.
Definition close_percent (p : nat) (a b : Qc) : Prop := within p (a * Q2Qc 100)%Qc (b * Q2Qc 100)%Qc.
Definition close_dash (s : nat -> Qc) (p : nat) (a b : dash) : Prop :=
  match a, b with
  | DLength u n, DLength v m => close_length s p u n v m
  | DPercent n, DPercent m => close_percent p n m
  | _, _ => False
  end.
(** Values that are no lists. *)
Definition close_leaf (s : nat -> Qc) (p : nat) (a b : value) : Prop :=
  match a, b with
  | Len u n, Len v m => close_length s p u n v m
  | Num n, Num m => within p n m
  | Percent n, Percent m => close_percent p n m
  | Pair n o, Pair m q => within p n m /\ match o, q with Some x, Some y => within p x y | None, None => True | _, _ => False end
  | ViewBox x y w h, ViewBox x' y' w' h' => within p x x' /\ within p y y' /\ within p w w' /\ within p h h'
  | Dashes l, Dashes m => Forall2 (close_dash s p) l m
  | Background (Some (x, y, w, h)), Background (Some (x', y', w', h')) => within p x x' /\ within p y y' /\ within p w w' /\ within p h h'
  | Control l, Control m => Forall2 (within p) l m
  | Points l, Points m => Forall2 (within p) l m
  | _, _ => a = b
  end.
Fixpoint close (s : nat -> Qc) (p : nat) (a b : value) : Prop :=
  match a, b with
  | Defined v, Defined w => close s p v w
  | ListOf l, ListOf m => Forall2 (close_leaf s p) l m
  | _, _ => close_leaf s p a b
  end.

(** All numbers have at most [p] decimals, and with [px] no length is in another absolute unit. *)
Definition tidy_length (p : nat) (px : bool) (u : unit_) (n : Qc) : Prop := on_grid p n /\ (px = true -> match u with Px | Relative _ => True | _ => False end).
Definition tidy_single (p : nat) (px : bool) (v : value) : Prop :=
  match v with
  | Len u n => tidy_length p px u n
  | Num n => on_grid p n
  | Percent n => on_grid p (n * Q2Qc 100)%Qc
  | Pair n m => on_grid p n /\ match m with Some x => on_grid p x | None => True end
  | ViewBox x y w h => on_grid p x /\ on_grid p y /\ on_grid p w /\ on_grid p h
  | Points l => Forall (on_grid p) l
  | _ => True
  end.
(** The same of lists. *)
Definition tidy_list (p : nat) (px : bool) (v : value) : Prop :=
  match v with
  | Dashes l => Forall (fun d => match d with DLength u n => tidy_length p px u n | DPercent n => on_grid p (n * Q2Qc 100)%Qc end) l
  | Background (Some (x, y, w, h)) => on_grid p x /\ on_grid p y /\ on_grid p w /\ on_grid p h
  | Control l => Forall (on_grid p) l
  | ListOf l => Forall (tidy_single p px) l
  | _ => tidy_single p px v
  end.
(** The value within what may be [inherit]. *)
Fixpoint inner (v : value) : value := match v with Defined w => inner w | _ => v end.

(** The units in a value, in order. *)
Fixpoint units (v : value) : list unit_ :=
  match v with
  | Len u _ => [u]
  | Dashes l => flat_map (fun d => match d with DLength u _ => [u] | DPercent _ => [] end) l
  | ListOf l => flat_map (fun x => match x with Len u _ => [u] | _ => [] end) l
  | Defined w => units w
  | _ => []
  end.
(** How a unit is read: pixels if there is none. *)
Definition unit_read (o : option unit_) : unit_ := match o with None => Px | Some u => u end.
