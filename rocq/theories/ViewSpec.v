(** How a view box maps what is drawn into the space it is drawn in: SVG 2, 8.2 (computing the equivalent transform of an SVG
    viewport) and 8.6 (viewBox). *)
From Coq Require Import QArith Qminmax List Bool.
From Verif Require Import ViewModel.
Import ListNotations.

(** [preserveAspectRatio]: stretch, or fit inside ([meet]) or around ([slice]) with an alignment between 0 and 1 on each axis. *)
Inductive aspect : Type := Stretch | Fit (slice : bool) (ax ay : Q).
(** Scaling and then moving: [x] goes to [sx * x + tx]. *)
Record placing : Type := mkPlace { p_sx : Q; p_sy : Q; p_tx : Q; p_ty : Q }.
(** The equivalent transform for a viewport of size [w], [h] at the origin. *)
Definition place_of (par : aspect) (b : option viewbox) (w h : Q) : placing :=
  match b with
  | None => mkPlace 1 1 0 0
  | Some b =>
      let sx := w / box_w b in let sy := h / box_h b in
      match par with
      | Stretch => mkPlace sx sy (- min_x b * sx) (- min_y b * sy)
      | Fit slice ax ay =>
          let s := if slice then Qmax sx sy else Qmin sx sy in
          mkPlace s s (- min_x b * s + ax * (w - box_w b * s)) (- min_y b * s + ay * (h - box_h b * s))
      end
  end.
Definition same_place (a b : placing) : Prop := p_sx a == p_sx b /\ p_sy a == p_sy b /\ p_tx a == p_tx b /\ p_ty a == p_ty b.
(** A view box as the user agent takes it: one that cannot be read does not count. *)
Definition box_of (e : velem) : option viewbox := match v_box e with Some (VRead b) => Some b | _ => None end.

(** What else decides on the size: CSS properties of the element, the [width] and [height] of the [use] that shows a symbol, the
    bounding box a pattern is fitted to (with [patternUnits] at its default), and the size of the viewport around. *)
Record surroundings : Type := mkSur { css_w : option Q; css_h : option Q; use_w : option Q; use_h : option Q; fitted : option (Q * Q); outer_w : Q; outer_h : Q }.
Definition plain (c : surroundings) : Prop :=
  css_w c = None /\ css_h c = None /\ use_w c = None /\ use_h c = None /\ fitted c = None.
Definition first_of (a b : option Q) : option Q := match a with Some q => Some q | None => b end.
(** The used width and height. A pattern is as large as the part of the bounding box its attributes say; a missing size
    is that of the viewport around, and so is a size the unit of which depends on fonts (left out). *)
Definition used (pat : option Q) (css use : option Q) (attr : option vlen) (around : Q) : Q :=
  match pat with
  | Some bb => match px_attr attr with Some w => bb * w | None => 0 end
  | None =>
      match first_of use (first_of css (match attr with Some (LPercent p) => Some (around * p / 100) | a => px_attr a end)) with
      | Some w => w | None => around end
  end.
Definition used_w (c : surroundings) (e : velem) : Q :=
  used (match v_kind e with KPattern => option_map fst (fitted c) | _ => None end) (css_w c) (use_w c) (v_width e) (outer_w c).
Definition used_h (c : surroundings) (e : velem) : Q :=
  used (match v_kind e with KPattern => option_map snd (fitted c) | _ => None end) (css_h c) (use_h c) (v_height e) (outer_h c).
(** How the content of the element is placed. *)
Definition shown (par : aspect) (c : surroundings) (e : velem) : placing := place_of par (box_of e) (used_w c e) (used_h c e).

(** CSS Values 3, 6.2: how many of a unit make an inch, the amount given with it. A pixel is the 96th part of an inch. *)
Definition per_inch (l : vlen) : option (Q * Q) :=
  match l with
  | LPx q => Some (q, 96) | LIn q => Some (q, 1) | LCm q => Some (q, 254 # 100) | LMm q => Some (q, 254 # 10) | LQ q => Some (q, 1016 # 10)
  | LPt q => Some (q, 72) | LPc q => Some (q, 6)
  | LRelative | LPercent _ | LCalc | LUnread => None
  end.
