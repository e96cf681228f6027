(** removeOffCanvasPaths (crates/oxvg_optimiser/src/jobs/remove_off_canvas_paths.rs).  The points that are compared are rational and arithmetic is exact. *)
From Coq Require Import List QArith Bool Arith.
From Verif Require Import GjkModel.
Import ListNotations.
Local Open Scope Q_scope.

(** [ViewBox] (attribute/uncategorised.rs, crates/oxvg_collections/src; remove_off_canvas_paths.rs:107-112). *)
Record viewbox : Type := mkBox { min_x : Q; min_y : Q; width : Q; height : Q }.
(** A path as far as the job looks at it: the points of its [MoveTo] commands (94-100), its segments (124), the number of its commands (105), and
    whether the last one closes it (106). *)
Record path : Type := mkPath { moves : list pt; segs : list segment; count : nat; closed : bool }.
(** The elements: other elements with children, and [path]s without children.  For each there is the [transform] attribute (78), the property of
    that name in [style], which is not looked at, and what a spec may want to know: the kind, the stroke, the id. *)
Inductive kind : Type := Grouping | Definitions | Nested (x y : Q) | Use (href : nat) (x y : Q).
(** See [kind] (remove_off_canvas_paths.rs:74-128). *)
Inductive node : Type :=
| Inner (k : kind) (transform style : option pt) (children : list node)
| Path (id : nat) (transform style : option pt) (stroke : Q) (d : path).

(** The length of an attribute, if it is one in pixels (155, 158: [to_px]), or a percentage or a relative unit. *)
Inductive extent : Type := Pixels (n : Q) | Relative (n : Q).
(** The root: the width, the height and the view box (remove_off_canvas_paths.rs:141-144). *)
Record root : Type := mkRoot { r_width : option extent; r_height : option extent; r_viewbox : option viewbox; r_transform : option pt; r_children : list node }.
(** remove_off_canvas_paths.rs:141-166 [gather]. *)
Definition gather (r : root) : option viewbox :=
  match r_viewbox r with
  | Some v => Some v
  | None => match r_width r, r_height r with Some (Pixels w), Some (Pixels h) => Some (mkBox 0 0 w h) | _, _ => None end
  end.
(** remove_off_canvas_paths.rs:94-100: a subpath starts on the canvas. *)
Definition starts_within (v : viewbox) (p : pt) : bool :=
  Qle_bool (min_x v) (px p) && Qle_bool (px p) (min_x v + width v) && Qle_bool (min_y v) (py p) && Qle_bool (py p) (min_y v + height v).
(** remove_off_canvas_paths.rs:117-122: the canvas as a path. *)
Definition canvas (v : viewbox) : segment :=
  mkSegment (P (min_x v) (min_y v)) [LineTo (P (min_x v + width v) (min_y v)); LineTo (P (min_x v + width v) (min_y v + height v)); LineTo (P (min_x v) (min_y v + height v))].
(** remove_off_canvas_paths.rs:105-106. *)
Definition close (d : path) : path := if Nat.eqb (count d) 2 then mkPath (moves d) (segs d) 3 true else d.
(** remove_off_canvas_paths.rs:90-127: what becomes of a path. *)
Definition path_element (v : viewbox) (d : path) : option path :=
  if existsb (starts_within v) (moves d) then Some d
  else match intersects [canvas v] (segs d) with Some false => None | _ => Some (close d) end.
(** remove_off_canvas_paths.rs:69-129; the children of an element with [transform] are skipped (78-81). *)
Fixpoint visit (v : viewbox) (n : node) : list node :=
  match n with
  | Inner k t s c => match t with Some _ => [n] | None => [Inner k t s (flat_map (visit v) c)] end
  | Path i t s w d => match t with
                      | Some _ => [n]
                      | None => match path_element v d with Some d' => [Path i t s w d'] | None => [] end
                      end
  end.
(** remove_off_canvas_paths.rs:49-62, 74-76. *)
Definition job (on : bool) (r : root) : root :=
  if on then
    match r_transform r, gather r with
    | None, Some v => mkRoot (r_width r) (r_height r) (r_viewbox r) (r_transform r) (flat_map (visit v) (r_children r))
    | _, _ => r
    end
  else r.
