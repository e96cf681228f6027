(** Which simplifications of path data a style allows (crates/oxvg_optimiser/src/utils/style_info.rs; lines without a file are of this one),
    and which the job convertPathData asks for (crates/oxvg_optimiser/src/jobs/convert_path_data.rs). *)
From Coq Require Import List NArith Bool.
Import ListNotations.
Local Open Scope N_scope.

(** [Mode] (crates/oxvg_ast/src/style.rs:93-99). *)
Inductive mode := Static | Dynamic.
(** [ComputedStyle] (crates/oxvg_ast/src/style.rs:72-79). *)
Inductive computed (A : Type) := Some_ (a : A) (m : mode) | Unparsed | None_.
Arguments Some_ {A}. Arguments Unparsed {A}. Arguments None_ {A}.
(** [Inheritable] (24 and 45). *)
Inductive inheritable (A : Type) := Inherited | Defined (a : A).
Arguments Inherited {A}. Arguments Defined {A}.
(** [SVGPaint]: none or something, opaque (24). *)
Inductive paint := NoPaint | Paint (n : nat).
(** [StrokeLinecap] (29 and 34). *)
Inductive linecap := Butt | RoundCap | Square.
(** [StrokeLinejoin] (36); [Miter] stands for all others. *)
Inductive linejoin := RoundJoin | Miter.
(** [FillRule] (54 and 63). *)
Inductive fill_rule := Nonzero | Evenodd.
(** [Marker] (75). *)
Inductive marker := NoMarker | MarkerUrl (n : nat).
(** The styles that are asked for (19-21, 39, 68, 80, 92 and 104). *)
Record styles := mkStyles { st_stroke : computed (inheritable paint); st_cap : computed (inheritable linecap); st_join : computed (inheritable linejoin);
  st_rule : computed (inheritable fill_rule); st_marker : computed (inheritable marker);
  st_start : computed (inheritable marker); st_mid : computed (inheritable marker); st_end : computed (inheritable marker) }.

(** [entry] (crates/oxvg_ast/src/style.rs:166-172). *)
Definition entry {A} (c : computed A) : option (option (A * mode)) :=
  match c with Some_ a m => Some (Some (a, m)) | Unparsed => Some None | None_ => None end.
(** [option] (crates/oxvg_ast/src/style.rs:175-177). *)
Definition parsed {A} (c : computed A) : option (A * mode) := match c with Some_ a m => Some (a, m) | _ => None end.
(** [is_some_and] with [is_none_or] (22-23 and so on). *)
Definition some_none {A} (f : A -> mode -> bool) (c : computed A) : bool :=
  match entry c with Some (Some (a, m)) => f a m | Some None => true | None => false end.
(** [is_none_or] with [is_none_or] (49-50). *)
Definition none_none {A} (f : A -> mode -> bool) (c : computed A) : bool :=
  match entry c with Some (Some (a, m)) => f a m | _ => true end.
(** [is_some_and] (33 and 35). *)
Definition some_and {A} (f : A -> mode -> bool) (c : computed A) : bool :=
  match parsed c with Some (a, m) => f a m | None => false end.
(** [==] on modes (24 and 29). *)
Definition dynamic (m : mode) : bool := match m with Dynamic => true | Static => false end.

(** [maybe_has_stroke] (22-26). *)
Definition maybe_has_stroke (s : styles) : bool :=
  some_none (fun p m => dynamic m || negb (match p with Defined NoPaint => true | _ => false end)) (st_stroke s).
(** [maybe_has_linecap] (27-31). *)
Definition maybe_has_linecap (s : styles) : bool :=
  some_none (fun c m => negb (dynamic m) && negb (match c with Defined Butt => true | _ => false end)) (st_cap s).
(** [safe_to_close] (32-37). *)
Definition safe_to_close (s : styles) : bool :=
  negb (maybe_has_stroke s)
  || some_and (fun c m => negb (dynamic m) && match c with Defined RoundCap => true | _ => false end) (st_cap s)
     && some_and (fun c m => negb (dynamic m) && match c with Defined RoundJoin => true | _ => false end) (st_join s).
(** [overlay_fill_rule] (40-48). *)
Definition overlay_fill_rule (s : styles) : fill_rule :=
  match parsed (st_rule s) with Some (Defined r, _) => r | _ => Nonzero end.
(** [maybe_has_nonzero] (49-57). *)
Definition maybe_has_nonzero (s : styles) : bool :=
  none_none (fun r m => dynamic m || match r with Defined Nonzero | Inherited => true | _ => false end) (st_rule s).
(** [maybe_has_evenodd] (58-66). *)
Definition maybe_has_evenodd (s : styles) : bool :=
  some_none (fun r m => dynamic m || match r with Defined Evenodd | Inherited => true | _ => false end) (st_rule s).
(** The test of a marker (69-78, 81-90, 93-102 and 105-114). *)
Definition maybe_marker (c : computed (inheritable marker)) : bool :=
  some_none (fun k m => dynamic m || match k with Inherited | Defined (MarkerUrl _) => true | _ => false end) c.
(** [maybe_has_marker_start] (79-90). *)
Definition maybe_start (s : styles) : bool := maybe_marker (st_marker s) || maybe_marker (st_start s).
(** [maybe_has_marker_mid] (91-102). *)
Definition maybe_mid (s : styles) : bool := maybe_marker (st_marker s) || maybe_marker (st_mid s).
(** [maybe_has_marker_end] (103-114). *)
Definition maybe_end (s : styles) : bool := maybe_marker (st_marker s) || maybe_marker (st_end s).

(** [Options]: the number of the bit of each (crates/oxvg_path/src/optimize.rs:24-81). *)
Inductive flag := CloseSegments | UniteSegments | JoinNodes | RemoveEmptySegments | RemoveNoopCommands | RemoveCloseLine | StraightCurves | ArcCurves | SmartArcRounding.
(** The shifts (crates/oxvg_path/src/optimize.rs:24-81). *)
Definition bit (f : flag) : N :=
  match f with CloseSegments => 0 | UniteSegments => 1 | JoinNodes => 2 | RemoveEmptySegments => 3 | RemoveNoopCommands => 4 | RemoveCloseLine => 5
  | StraightCurves => 6 | ArcCurves => 7 | SmartArcRounding => 8 end.
(** A flag as a set (crates/oxvg_path/src/optimize.rs:24-81). *)
Definition just (f : flag) : N := N.shiftl 1 (bit f).
(** [union] (crates/oxvg_path/src/optimize.rs:84-94). *)
Definition union (l : list flag) : N := fold_right (fun f n => N.lor (just f) n) 0 l.
(** [Options::all] (17). *)
Definition all_flags : N := N.ones 9.
(** [contains] (crates/oxvg_path/src/paths/segment/simplify.rs:18-38). *)
Definition has (o : N) (f : flag) : bool := N.testbit o (bit f).
(** [UnsafeStroke] and the like (crates/oxvg_path/src/optimize.rs:84-94). *)
Definition unsafe_stroke : N := union [CloseSegments; UniteSegments; RemoveCloseLine].
(** (crates/oxvg_path/src/optimize.rs:86.) *)
Definition unsafe_marker : N := union [UniteSegments; RemoveEmptySegments].
(** (crates/oxvg_path/src/optimize.rs:88.) *)
Definition unsafe_marker_start : N := unsafe_marker.
(** (crates/oxvg_path/src/optimize.rs:90.) *)
Definition unsafe_marker_mid : N := N.lor unsafe_marker (union [CloseSegments; JoinNodes; RemoveCloseLine]).
(** (crates/oxvg_path/src/optimize.rs:92.) *)
Definition unsafe_marker_end : N := N.lor unsafe_marker (union [CloseSegments; RemoveCloseLine]).
(** (crates/oxvg_path/src/optimize.rs:94.) *)
Definition unsafe_stroke_linecap : N := union [RemoveNoopCommands].

(** [options &= !mask | from_bits_retain(b * u16::MAX)] (119-138); [!] keeps to the bits of [all]. *)
Definition keep (o mask : N) (b : bool) : N :=
  N.land o (N.lor (N.ldiff all_flags mask) (if b then N.ones 16 else 0)).
(** [set] (121 and 139-142). *)
Definition set (o : N) (f : flag) (b : bool) : N := if b then N.lor o (just f) else N.ldiff o (just f).

(** [gather_optimize_options] (14-145). *)
Definition gather (s : styles) : fill_rule * N :=
  let o := all_flags in
  let o := keep o unsafe_stroke (negb (maybe_has_stroke s)) in
  let o := set o CloseSegments (safe_to_close s) in
  let o := keep o unsafe_stroke_linecap (negb (maybe_has_stroke s && maybe_has_linecap s)) in
  let o := keep o unsafe_marker (negb (maybe_start s || maybe_mid s || maybe_end s)) in
  let o := keep o unsafe_marker_start (negb (maybe_start s)) in
  let o := keep o unsafe_marker_mid (negb (maybe_mid s)) in
  let o := keep o unsafe_marker_end (negb (maybe_end s)) in
  let o := keep o (just UniteSegments) (match entry (st_rule s) with None => true | Some _ => xorb (maybe_has_evenodd s) (maybe_has_nonzero s) end) in
  let o := set o RemoveCloseLine (negb (maybe_has_stroke s) && negb (maybe_mid s) && negb (maybe_end s)) in
  (overlay_fill_rule s, o).

(** [ConvertPathData] (crates/oxvg_optimiser/src/jobs/convert_path_data.rs:45-81) without the tolerance. *)
Record config := mkConfig { close_segments : bool; unite_segments : bool; join_nodes : bool; remove_empty_segments : bool; remove_zero_segments : bool;
  remove_close_line : bool; straight_curves : bool; arc_curves : bool; smart_arc_rounding : bool }.
(** [default] (crates/oxvg_optimiser/src/jobs/convert_path_data.rs:84-97). *)
Definition default : config := mkConfig false false true true true false true true true.
(** [From<&ConvertPathData>] (crates/oxvg_optimiser/src/jobs/convert_path_data.rs:143-158). *)
Definition of_config (c : config) : N :=
  let o := set 0 CloseSegments (close_segments c) in
  let o := set o UniteSegments (unite_segments c) in
  let o := set o JoinNodes (join_nodes c) in
  let o := set o RemoveEmptySegments (remove_empty_segments c) in
  let o := set o RemoveNoopCommands (remove_zero_segments c) in
  let o := set o RemoveCloseLine (remove_close_line c) in
  let o := set o StraightCurves (straight_curves c) in
  let o := set o ArcCurves (arc_curves c) in
  set o SmartArcRounding (smart_arc_rounding c).
(** The options of the job (crates/oxvg_optimiser/src/jobs/convert_path_data.rs:125-126). *)
Definition options (c : config) (s : styles) : N := N.land (snd (gather s)) (of_config c).
