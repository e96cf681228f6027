(** What presentation attributes of groups are for. *)
From Coq Require Import String List NArith ZArith Bool.
From Verif Require Import Chars NameModel AttrTable ElemTable ElemModel GroupAttrsModel.
Import ListNotations.

(** Attributes of the program: identifiers it knows are those of its table. *)
Definition recognisable (a : attr_id) : Prop := match id_unaliased a with BKnown k => In k attr_table | BUnknown _ => True end.
(** An element with its attributes; a chain has the element first and then its ancestors. *)
Definition node : Type := elem_id * attributes.
Definition sound (c : list node) : Prop := Forall (fun n => Forall (fun a => recognisable (fst a)) (snd n)) c.

(** The value of a presentation attribute, which has no prefix. *)
Definition specified (p : text) (l : attributes) : option text :=
  option_map snd (find (fun a => match prefix_value (id_prefix (fst a)) with None => text_eqb (id_local (fst a)) p | Some _ => false end) l).
(** CSS Cascade, 4: the computed value, for any set of inherited properties and any initial values. *)
Fixpoint computed (inherits : text -> bool) (initial : text -> text) (p : text) (c : list node) : text :=
  match c with
  | [] => initial p
  | n :: up =>
      match specified p (snd n) with
      | Some v => if text_eqb v (lit "inherit") then computed inherits initial p up else v
      | None => if inherits p then computed inherits initial p up else initial p
      end
  end.

(** CSS Transforms, 4 and 8: where a point goes with a matrix and an origin. *)
Definition place (origin : Z * Z) (m : Z * Z * Z * Z * Z * Z) (p : Z * Z) : Z * Z :=
  let '(a, b, c, d, e, f) := m in
  let x := (fst p - fst origin)%Z in let y := (snd p - snd origin)%Z in
  ((a * x + c * y + e + fst origin)%Z, (b * x + d * y + f + snd origin)%Z).
(** Properties that are not inherited and do not apply to groups (SVG 2, appendix on properties). *)
Definition useless : list string := ["stop-color"; "stop-opacity"; "flood-color"; "flood-opacity"; "lighting-color"; "overflow"; "alignment-baseline"; "baseline-shift"]%string.
