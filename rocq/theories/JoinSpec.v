(** What a path draws, subpath by subpath (SVG 2, 9.3 and 13.3). *)
From Coq Require Import String List NArith QArith Qcanon Bool Arith.
From Verif Require Import Chars TextModel PathModel PathSpec SegmentModel SegmentSpec JoinModel.
Import ListNotations.
Local Close Scope Q_scope.
Local Open Scope nat_scope.

(** A subpath with something drawn: its stretches, and whether it is closed. *)
Definition subpath : Type := list edge * bool.
Definition done (l : list edge) : list subpath := match l with [] => [] | _ => [(l, false)] end.
Fixpoint subpaths (s : pen) (open : list edge) (l : list cmd) : list subpath :=
  match l with
  | [] => done open
  | Move r p :: l => done open ++ subpaths (snd (step (Move r p) s)) [] l
  | Close :: l => (open ++ fst (step Close s), true) :: subpaths (snd (step Close s)) [] l
  | c :: l => subpaths (snd (step c s)) (open ++ fst (step c s)) l
  end.
Definition outline_of (d : list out) : list subpath := subpaths rest [] (map snd d).
Definition outline (c : child) : list subpath := match c_d c with Some d => outline_of d | None => [] end.

(** Path data as read: a move first, and implicit commands repeat the one before. *)
Definition data_ok (d : list out) : Prop :=
  match d with
  | [] => True
  | (i, c) :: d => i = false /\ is_move c = true /\ follows (id_of c) (map (to_data 0) d)
  end.
Definition child_ok (c : child) : Prop := NoDup (map fst (c_attrs c)) /\ forall d, c_d c = Some d -> data_ok d.
(** The same attributes, whatever their order. *)
Definition same_attrs (a b : child) : Prop := forall n v, In (n, v) (c_attrs a) <-> In (n, v) (c_attrs b).

(** [g] are neighbours that become [c]: one element that draws the same; or several without content or ids, with the same attributes,
    each apart from all before it. *)
Definition joined (apart : list subpath -> list subpath -> Prop) (g : list child) (c : child) : Prop :=
  (exists a, g = [a] /\ c_key c = c_key a /\ c_path c = c_path a /\ c_empty c = c_empty a /\ c_attrs c = c_attrs a /\ outline c = outline a) \/
  (c_path c = true /\ c_empty c = true /\ outline c = flat_map outline g /\
   (forall a, In a g -> c_path a = true /\ c_empty a = true /\ same_attrs a c /\ forall v, ~ In (lit "id", v) (c_attrs a)) /\
   forall a x b, g = a ++ x :: b -> a <> [] -> c_forbidden x = false /\ apart (flat_map outline a) (outline x)).

(** For the witnesses: the length of a stretch along an axis, and whether a stroke of half width [w] covers a point. *)
Definition absq (x : Qc) : Qc := if (match (x ?= 0)%Qc with Lt => true | _ => false end) then (- x)%Qc else x.
Definition axis_length (e : edge) : Qc := match e with ELine a b => (absq (px a - px b) + absq (py a - py b))%Qc | _ => 0%Qc end.
Definition total_length (l : list subpath) : Qc := fold_right (fun s x => (fold_right (fun e x => axis_length e + x) 0 (fst s) + x)%Qc) 0%Qc l.
(** Horizontal lines only. *)
Definition covers (w : Qc) (p : point) (e : edge) : Prop :=
  match e with
  | ELine a b => py a = py b /\ (absq (py p - py a) <= w)%Qc /\ (px a <= px p)%Qc /\ (px p <= px b)%Qc
  | _ => False
  end.
(** How many elements a point is painted by. *)
Inductive painted (w : Qc) (p : point) : list child -> nat -> Prop :=
| p_none : painted w p [] 0
| p_yes c l n : (exists s e, In s (outline c) /\ In e (fst s) /\ covers w p e) -> painted w p l n -> painted w p (c :: l) (S n)
| p_no c l n : ~ (exists s e, In s (outline c) /\ In e (fst s) /\ covers w p e) -> painted w p l n -> painted w p (c :: l) n.
