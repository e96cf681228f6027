(** Model of the jobs removeViewBox and removeDimensions
    (crates/oxvg_optimiser/src/jobs/remove_view_box.rs and remove_dimensions.rs). *)
From Coq Require Import QArith List Bool.
Import ListNotations.

(** A width or height: [LengthPercentage(DimensionPercentage)] (crates/oxvg_collections/src/attribute/presentation.rs), with the
    lengths [to_px] knows (lightningcss), the lengths it does not (relative units), percentages and sums, and values that could not be read.
    Simplification: numbers are rationals (presentation.rs:1025). *)
Inductive vlen : Type := LPx (q : Q) | LIn (q : Q) | LCm (q : Q) | LMm (q : Q) | LQ (q : Q) | LPt (q : Q) | LPc (q : Q)
  | LRelative | LPercent (q : Q) | LCalc | LUnread.
(** [Length::to_px] of lightningcss, as used at remove_view_box.rs:72, 88 and remove_dimensions.rs:72, 82. *)
Definition to_px (l : vlen) : option Q :=
  match l with
  | LPx q => Some q | LIn q => Some (q * 96)%Q | LCm q => Some (q * 96 / (254 # 100))%Q | LMm q => Some (q * 96 / (254 # 10))%Q
  | LQ q => Some (q * 96 / (1016 # 10))%Q | LPt q => Some (q * 96 / 72)%Q | LPc q => Some (q * 16)%Q
  | _ => None
  end.
(** uncategorised.rs:1203-1212 [ViewBox] (crates/oxvg_collections/src/attribute). *)
Record viewbox : Type := mkBox { min_x : Q; min_y : Q; box_w : Q; box_h : Q }.
(** The attribute: read, or kept as text because reading it failed ([Attr::Unparsed]) (crates/oxvg_collections/src/attribute.rs:323; uncategorised.rs:1203). *)
Inductive vattr : Type := VRead (b : viewbox) | VText.
(** The elements the jobs tell apart (remove_view_box.rs:57; remove_dimensions.rs:58). *)
Inductive vkind : Type := KSvg | KPattern | KSymbol | KElse.
(** An element: its name, whether its parent is the document (remove_view_box.rs:93-97), and the three attributes. *)
Record velem : Type := mkView { v_kind : vkind; v_top : bool; v_box : option vattr; v_width : option vlen; v_height : option vlen }.
(** [remove_attribute!] (crates/oxvg_ast/src/attribute.rs:116-130) on the view box. *)
Definition drop_box (e : velem) : velem := mkView (v_kind e) (v_top e) None (v_width e) (v_height e).

(** The length of an attribute that is there and is a length in pixels (remove_view_box.rs:64-90). *)
Definition px_attr (l : option vlen) : option Q := match l with Some l => to_px l | None => None end.

(** remove_view_box.rs:52-112 [element]. *)
Definition remove_view_box (e : velem) : velem :=
  match v_kind e with
  | KElse => e
  | k =>
      match v_box e with
      | Some (VRead b) =>
          match px_attr (v_width e) with
          | None => e
          | Some w =>
              match px_attr (v_height e) with
              | None => e
              | Some h =>
                  if (match k with KSvg => true | _ => false end) && negb (v_top e) then e
                  else if Qeq_bool (min_x b) 0 && Qeq_bool (min_y b) 0 && Qeq_bool (box_w b) w && Qeq_bool (box_h b) h then drop_box e
                  else e
              end
          end
      | _ => e
      end
  end.
(** remove_dimensions.rs:53-100 [element]. *)
Definition remove_dimensions (e : velem) : velem :=
  match v_kind e with
  | KSvg =>
      match v_box e with
      | Some b => mkView (v_kind e) (v_top e) (Some b) None None
      | None =>
          match px_attr (v_width e) with
          | None => e
          | Some w =>
              match px_attr (v_height e) with
              | None => e
              | Some h => mkView (v_kind e) (v_top e) (Some (VRead (mkBox 0 0 w h))) None None
              end
          end
      end
  | _ => e
  end.
