(** Radii of ellipses and circles as in SVG 2. *)
From Coq Require Import List QArith Qcanon Bool Arith.
From Verif Require Import CircleModel.
Import ListNotations.
Local Close Scope Q_scope.
Local Open Scope Qc_scope.

(** A viewport: its width and height, and the length percentages of a radius refer to, whose square is half of the sum of the squares of both;
    and how many pixels a unit is. *)
Record viewport : Type := mkViewport { vw : Qc; vh : Qc; vd : Qc; px : nat -> Qc }.
Definition proper (v : viewport) : Prop := 0 <= vw v /\ 0 <= vh v /\ 0 <= vd v /\ vd v * vd v + vd v * vd v = vw v * vw v + vh v * vh v /\ forall u, 0 < px v u.
Definition pixels (v : viewport) (base : Qc) (l : length) : Qc := match l with Dim u n => n * px v u | Percent n => n * base end.
(** A length that is negative is an error. *)
Definition valid (l : length) : bool := match l with Dim _ n | Percent n => if Qclt_le_dec n 0 then false else true end.
(** What stylesheets and the style attribute say, for an element of some name. *)
Record css : Type := mkCss { css_rx : kind -> option radius; css_ry : kind -> option radius; css_r : kind -> option length }.
Definition no_css : css := mkCss (fun _ => None) (fun _ => None) (fun _ => None).
Definition declared {A} (ok : A -> bool) (c a : option A) : option A :=
  match c with Some x => Some x | None => match a with Some x => if ok x then Some x else None | None => None end end.
Definition valid_radius (x : radius) : bool := match x with Len l => valid l | Auto => true end.
Definition used (v : viewport) (base : Qc) (x : option radius) : option Qc := match x with Some (Len l) => Some (pixels v base l) | _ => None end.
(** The radii in pixels of what is drawn; a radius that is [auto] is the other one, or 0. *)
Definition radii (v : viewport) (c : css) (e : element) : option (Qc * Qc) :=
  match name e with
  | Ellipse =>
      let a := used v (vw v) (declared valid_radius (css_rx c Ellipse) (rx e)) in
      let b := used v (vh v) (declared valid_radius (css_ry c Ellipse) (ry e)) in
      Some match a, b with Some a, Some b => (a, b) | Some a, None => (a, a) | None, Some b => (b, b) | None, None => (0, 0) end
  | Circle =>
      Some match declared valid (css_r c Circle) (r e) with Some l => (pixels v (vd v) l, pixels v (vd v) l) | None => (0, 0) end
  | Other _ => None
  end.
(** No percentages, or a viewport that is a square. *)
Definition percent (x : option radius) : Prop := match x with Some (Len (Percent _)) => True | _ => False end.
