(** cleanupNumericValues and cleanupListOfValues: numbers in attributes are rounded
    (crates/oxvg_collections/src/content_type.rs, crates/oxvg_optimiser/src/jobs/cleanup_numeric_values.rs and cleanup_list_of_values.rs).
    Numbers are rational and arithmetic is exact. *)
From Coq Require Import List ZArith QArith Qcanon Bool Arith.
From Verif Require Import SegmentModel.
Import ListNotations.
Local Close Scope Q_scope.
Local Open Scope nat_scope.

(** Units of [LengthValue] (content_type.rs:509-515): the absolute ones and the others by number. *)
Inductive unit_ : Type := Px | In_ | Cm | Mm | Quarter | Pt | Pc | Relative (u : nat).
(** A part of a list of dashes (content_type.rs:447-451, 531-539). *)
Inductive dash : Type := DLength (u : unit_) (n : Qc) | DPercent (n : Qc).
(** [ContentType] (content_type.rs:156-166, 654-796), as far as it is visited: lengths (458-484), single numbers (562-588),
    percentages as fractions (589-598), a number and perhaps another (599-604), the view box (605-615), dashes, the area of [enable-background],
    control points, points, lists, and values that may be [inherit].  [Other] is everything else. *)
Inductive value : Type :=
| Len (u : unit_) (n : Qc)
| Num (n : Qc)
| Percent (n : Qc)
| Pair (n : Qc) (m : option Qc)
| ViewBox (x y w h : Qc)
| Dashes (l : list dash)
| Background (area : option (Qc * Qc * Qc * Qc))
| Control (l : list Qc)
| Points (l : list Qc)
| Other (n : nat)
| ListOf (l : list value)
| Inherited
| Defined (v : value).

(** [LengthValue::to_px] of lightningcss (content_type.rs:642). *)
Definition to_px (u : unit_) (n : Qc) : option Qc :=
  match u with
  | Px => Some n
  | In_ => Some (n * Q2Qc 96)%Qc
  | Cm => Some (n * (Q2Qc 96 / Q2Qc (254 # 100)))%Qc
  | Mm => Some (n * (Q2Qc 96 / Q2Qc (254 # 10)))%Qc
  | Quarter => Some (n * (Q2Qc 96 / Q2Qc (1016 # 10)))%Qc
  | Pt => Some (n * (Q2Qc 96 / Q2Qc 72))%Qc
  | Pc => Some (n * (Q2Qc 96 / Q2Qc 6))%Qc
  | Relative _ => None
  end.
(** content_type.rs:641-645: lengths that are known in pixels become pixels. *)
Definition convert (u : unit_) (n : Qc) : unit_ * Qc := match to_px u n with Some m => (Px, m) | None => (u, n) end.

Section Visit.
  (** What is done with lengths (content_type.rs:433-485). *)
  Variable f : unit_ -> Qc -> unit_ * Qc.
  (** content_type.rs:470-485 [visit_length_value_not_list]. *)
  Definition length_not_list (v : value) : value := match v with Len u n => let r := f u n in Len (fst r) (snd r) | _ => v end.
  (** content_type.rs:433-469 [visit_length_value]. *)
  Fixpoint visit_length (follow : bool) (v : value) : value :=
    if follow then
      match v with
      | Dashes l => Dashes (map (fun d => match d with DLength u n => let r := f u n in DLength (fst r) (snd r) | DPercent _ => d end) l)
      | ListOf l => ListOf (map length_not_list l)
      | _ => length_not_list v
      end
    else
      match v with
      | Defined w => Defined (visit_length follow w)
      | _ => length_not_list v
      end.
End Visit.
Section Floats.
  (** What is done with numbers (content_type.rs:495-561). *)
  Variable f : Qc -> Qc.
  (** content_type.rs:594-597: percentages as they are written. *)
  Definition percent (n : Qc) : Qc := (f (n * Q2Qc 100) / Q2Qc 100)%Qc.
  (** content_type.rs:562-619 [visit_float_not_list]. *)
  Definition float_not_list (v : value) : value :=
    match v with
    | Num n => Num (f n)
    | Percent n => Percent (percent n)
    | Pair n m => Pair (f n) (option_map f m)
    | ViewBox x y w h => ViewBox (f x) (f y) (f w) (f h)
    | _ => v
    end.
  (** content_type.rs:495-561 [visit_float]: lengths are visited first, also those of an inner value, which is then visited as a whole;
      so the lengths of a value within [k] others are visited [k + 1] times. *)
  Fixpoint visit_float (k : nat) (follow : bool) (v : value) : value :=
    match v with
    | Defined w => if follow then Defined w else Defined (visit_float (S k) follow w)
    | _ =>
        match Nat.iter (S k) (visit_length (fun u n => (u, f n)) follow) v with
        | Background (Some (x, y, w, h)) => if follow then Background (Some (f x, f y, f w, f h)) else v
        | Dashes l => if follow then Dashes (map (fun d => match d with DPercent n => DPercent (percent n) | _ => d end) l) else Dashes l
        | Control l => if follow then Control (map f l) else Control l
        | ListOf l => if follow then ListOf (map float_not_list l) else ListOf l
        | w => float_not_list w
        end
    end.
End Floats.

(** content_type.rs:623-651 [round]; points are rounded with either job. *)
Definition round (p : nat) (convert_px follow : bool) (v : value) : value :=
  match v with
  | Points l => Points (map (rnd p) l)
  | _ => visit_float (rnd p) 0 follow (if convert_px then visit_length convert follow v else v)
  end.
(** cleanup_numeric_values.rs:28-39 and cleanup_list_of_values.rs:28-39: the options. *)
Record options : Type := mkOptions { float_precision : nat; default_px : bool; convert_to_px : bool }.
(** cleanup_numeric_values.rs:53-76 and, with [follow], cleanup_list_of_values.rs:53-76; [None] is an error. *)
Definition job (follow : bool) (o : options) (v : value) : option value :=
  if 5 <? float_precision o then None else Some (round (float_precision o) (convert_to_px o) follow v).
(** The unit that is written (attribute/core_attrs.rs:174-179, crates/oxvg_collections/src): none for pixels. *)
Definition written (u : unit_) : option unit_ := match u with Px => None | _ => Some u end.
