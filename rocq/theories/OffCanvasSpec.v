(** What of a document is seen. *)
From Coq Require Import List QArith Qminmax Bool Arith.
From Verif Require Import GjkModel GjkSpec OffCanvasModel.
Import ListNotations.
Local Open Scope Q_scope.

(** The size of the viewport, which is that of the container or relative to it unless it is given. *)
Definition resolve (full : Q) (o : option extent) : Q := match o with Some (Pixels n) => n | Some (Relative n) => n * full | None => full end.
(** What is seen: the view box is made to fit, and centred (SVG 2, 8.6 and 8.7, without [preserveAspectRatio]). *)
Definition on_canvas (c : pt) (r : root) (p : pt) : Prop :=
  let w := resolve (px c) (r_width r) in
  let h := resolve (py c) (r_height r) in
  match r_viewbox r with
  | Some v =>
      let s := Qmin (w / width v) (h / height v) in
      0 < width v /\ 0 < height v /\ 0 < w /\ 0 < h /\
      - (w / 2) <= s * (px p - (min_x v + width v / 2)) <= w / 2 /\ - (h / 2) <= s * (py p - (min_y v + height v / 2)) <= h / 2
  | None => 0 <= px p <= w /\ 0 <= py p <= h
  end.
(** The viewport has the proportions of the view box. *)
Definition fitted (c : pt) (r : root) : Prop :=
  match r_viewbox r with Some v => resolve (px c) (r_width r) * height v == resolve (py c) (r_height r) * width v | None => True end.
Definition shift (o : pt) (p : pt) : pt := P (px p + px o) (py p + py o).
Definition moved (o : pt) (t s : option pt) : pt := match s with Some s => shift s o | None => match t with Some t => shift t o | None => o end end.
(** The paths with an id. *)
Fixpoint find (i : nat) (n : node) : list node :=
  match n with
  | Inner _ _ _ c => flat_map (find i) c
  | Path j _ _ _ _ => if Nat.eqb i j then [n] else []
  end.
(** The paths that are drawn: where they are moved to, how wide their stroke is, and their data.  [transform] in [style] overrides the attribute. *)
Definition drawing : Type := pt * Q * path.
Definition draw_path (o : pt) (n : node) : list drawing := match n with Path _ t s w d => [(moved o t s, w, d)] | Inner _ _ _ _ => [] end.
Fixpoint draw (all : list node) (o : pt) (n : node) : list drawing :=
  match n with
  | Inner Grouping t s c => flat_map (draw all (moved o t s)) c
  | Inner (Nested x y) t s c => flat_map (draw all (shift (P x y) (moved o t s))) c
  | Inner Definitions _ _ _ => []
  | Inner (Use i x y) t s _ => match flat_map (find i) all with n :: _ => draw_path (shift (P x y) (moved o t s)) n | [] => [] end
  | Path _ _ _ _ _ => draw_path o n
  end.
Definition drawings (r : root) : list drawing := flat_map (draw (r_children r) (moved (P 0 0) (r_transform r) None)) (r_children r).
(** What a drawing paints: what its lines and curves enclose, and, with a stroke, what is close to them. *)
Definition paints (x : drawing) (p : pt) : Prop :=
  let '(o, w, d) := x in
  exists s q, In s (segs d) /\ same p (shift o q) /\ (covered s q \/ exists c, outline s c /\ near c (w / 2) q).
(** It paints some point within the canvas, rather than on its edge. *)
Definition seen (c : pt) (r : root) (x : drawing) : Prop := exists p e, 0 < e /\ (forall q, near p e q -> on_canvas c r q) /\ paints x p.
(** The same but for the closing of subpaths. *)
Definition alike (x y : drawing) : Prop := fst x = fst y /\ segs (snd x) = segs (snd y) /\ moves (snd x) = moves (snd y).
(** All that is left out is not seen. *)
Inductive thinned (c : pt) (r : root) : list drawing -> list drawing -> Prop :=
| thin_nil : thinned c r [] []
| thin_keep : forall x y l m, alike x y -> thinned c r l m -> thinned c r (x :: l) (y :: m)
| thin_drop : forall x l m, ~ seen c r x -> thinned c r l m -> thinned c r (x :: l) m.
(** Documents without references, nested coordinate systems, transforms in [style] and strokes. *)
Fixpoint plain (n : node) : Prop :=
  match n with
  | Inner k t s c => match k with Grouping | Definitions => True | Nested _ _ | Use _ _ _ => False end /\ s = None /\ (fix all l := match l with [] => True | x :: r => plain x /\ all r end) c
  | Path _ t s w d => s = None /\ w == 0 /\ Forall arcs_ok (segs d)
  end.
(** All elements but paths. *)
Fixpoint frame (n : node) : list node := match n with Inner k t s c => [Inner k t s (flat_map frame c)] | Path _ _ _ _ _ => [] end.
