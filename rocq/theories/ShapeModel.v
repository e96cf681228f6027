(** Model of the job convertShapeToPath (crates/oxvg_optimiser/src/jobs/convert_shape_to_path.rs).

    Simplifications: coordinates are rational numbers, as in SegmentModel; attribute values are what reading them
    gave (lengths in pixels or other lengths, commands for [points] and [d]); children are opaque; a stylesheet is the list of
    its selectors. *)
From Coq Require Import String List NArith ZArith QArith Qcanon Bool Arith.
From Verif Require Import Chars ParseModel PathModel SegmentModel.
Import ListNotations.
Local Close Scope Q_scope.
Local Open Scope nat_scope.

(** The attributes the job names (convert_shape_to_path.rs:217-419), and others. *)
Inductive aname : Type := AX | AY | AWidth | AHeight | ARX | ARY | AX1 | AY1 | AX2 | AY2 | ACX | ACY | AR | APoints | AD | AOther (n : nat).
(** Equality of [AttrId] (crates/oxvg_collections/src/attribute.rs), as used by crates/oxvg_ast/src/attribute.rs:156, 214. *)
Definition aname_eqb (a b : aname) : bool :=
  match a, b with
  | AX, AX | AY, AY | AWidth, AWidth | AHeight, AHeight | ARX, ARX | ARY, ARY | AX1, AX1 | AY1, AY1 | AX2, AX2 | AY2, AY2
  | ACX, ACX | ACY, ACY | AR, AR | APoints, APoints | AD, AD => true
  | AOther n, AOther m => Nat.eqb n m
  | _, _ => false
  end.
(** Attribute values: a length in pixels; a length that is a percentage, a sum or in another unit ([lp_px] gives [None],
    convert_shape_to_path.rs:196-202); [auto] (convert_shape_to_path.rs:203-210); path data or points
    (crates/oxvg_collections/src/attribute/path.rs:15, 56); and text that could not be read or is not looked at. *)
Inductive aval : Type := VPx (q : Qc) | VLength | VAuto | VPath (l : list cmd) | VText (n : nat).
(** An attribute (crates/oxvg_collections/src/attribute.rs:305-335). *)
Definition attr : Type := (aname * aval)%type.
(** [get_named_item] (crates/oxvg_ast/src/attribute.rs:154-159). *)
Fixpoint get (n : aname) (l : list attr) : option aval :=
  match l with [] => None | (m, v) :: l => if aname_eqb m n then Some v else get n l end.
(** [remove_named_item] (crates/oxvg_ast/src/attribute.rs:212-216): the first of that name. *)
Fixpoint drop (n : aname) (l : list attr) : list attr :=
  match l with [] => [] | (m, v) :: l => if aname_eqb m n then l else (m, v) :: drop n l end.
(** [set_named_item] (crates/oxvg_ast/src/attribute.rs:222-233). *)
Fixpoint put (n : aname) (v : aval) (l : list attr) : list attr :=
  match l with [] => [(n, v)] | (m, w) :: l => if aname_eqb m n then (n, v) :: l else (m, w) :: put n v l end.

(** The elements told apart (convert_shape_to_path.rs:166-190). *)
Inductive kind : Type := KRect | KLine | KPolyline | KPolygon | KCircle | KEllipse | KPath | KElse (n : nat).
(** An element with its children (crates/oxvg_ast/src/element.rs:58-66). *)
Record shape (K : Type) : Type := mkShape { s_kind : kind; s_attrs : list attr; s_kids : list K }.
Arguments mkShape {K}. Arguments s_kind {K}. Arguments s_attrs {K}. Arguments s_kids {K}.

(** [lp_px] or [r_px] of an attribute, 0 if it is missing or could not be read (convert_shape_to_path.rs:221-232 and so on). *)
Definition px_or_zero (v : option aval) : option Qc :=
  match v with Some (VPx q) => Some q | Some VLength | Some VAuto => None | Some (VPath _) | Some (VText _) | None => Some 0%Qc end.
(** The same without a default (convert_shape_to_path.rs:233-238). *)
Definition px_or_none (v : option aval) : option Qc := match v with Some (VPx q) => Some q | _ => None end.
(** [has_attribute!] (crates/oxvg_ast/src/attribute.rs:49-59). *)
Definition has (n : aname) (l : list attr) : bool := match get n l with Some _ => true | None => false end.

Section Round.
  (** [precision.round] (convert_shape_to_path.rs:157-161, crates/oxvg_path/src/geometry.rs:102-104): [rnd] for the scale asked for. *)
  Variable r : Qc -> Qc.
  (** A point, its coordinates apart (crates/oxvg_path/src/paths/svg/command.rs:198-207). *)
  Definition rpoint (p : point) : point := P (r (px p)) (r (py p)).
  (** [Data::round] (crates/oxvg_path/src/paths/svg/command.rs:198-207): the end point of an arc is left. *)
  Definition round_cmd (c : cmd) : cmd :=
    match c with
    | Move rel p => Move rel (rpoint p)
    | Close => Close
    | Line rel p => Line rel (rpoint p)
    | Hor rel x => Hor rel (r x)
    | Ver rel y => Ver rel (r y)
    | Cubic rel a b p => Cubic rel (rpoint a) (rpoint b) (rpoint p)
    | Smooth rel b p => Smooth rel (rpoint b) (rpoint p)
    | Quad rel a p => Quad rel (rpoint a) (rpoint p)
    | SmoothQuad rel p => SmoothQuad rel (rpoint p)
    | Arc rel rx ry rot la sw p => Arc rel (r rx) (r ry) (r rot) la sw p
    end.
  (** [Path::round] (crates/oxvg_path/src/paths/svg/path.rs:25-27). *)
  Definition round_path (l : list cmd) : list cmd := map round_cmd l.
  (** All arguments (convert_shape_to_path.rs:359-363, 409-413).
      Simplification: the flags, which are 0 or 1, are not rounded. *)
  Definition round_all (c : cmd) : cmd :=
    match c with Arc rel rx ry rot la sw p => Arc rel (r rx) (r ry) (r rot) la sw (rpoint p) | c => round_cmd c end.

  Context {K : Type}.
  (** [set_local_name(ElementId::Path)] (crates/oxvg_ast/src/element.rs:397-428): a new element with the attributes; the children stay
      with the old one. *)
  Definition as_path (l : list attr) : option (shape K) := Some (mkShape KPath l []).

  (** convert_shape_to_path.rs:212-255. *)
  Definition rect_to_path (e : shape K) : option (shape K) :=
    let l := s_attrs e in
    if has ARX l || has ARY l then Some e else
    match px_or_zero (get AX l), px_or_zero (get AY l), px_or_none (get AWidth l), px_or_none (get AHeight l) with
    | Some x, Some y, Some w, Some h =>
        let path := round_path [Move false (P x y); Hor false (x + w)%Qc; Ver false (y + h)%Qc; Hor false x; Close] in
        as_path (drop AHeight (drop AWidth (drop AY (drop AX (put AD (VPath path) l)))))
    | _, _, _, _ => Some e
    end.
  (** convert_shape_to_path.rs:257-299. *)
  Definition line_to_path (e : shape K) : option (shape K) :=
    let l := s_attrs e in
    match px_or_zero (get AX1 l), px_or_zero (get AY1 l), px_or_zero (get AX2 l), px_or_zero (get AY2 l) with
    | Some x1, Some y1, Some x2, Some y2 =>
        let path := round_path [Move false (P x1 y1); Line false (P x2 y2)] in
        as_path (drop AY2 (drop AX2 (drop AY1 (drop AX1 (put AD (VPath path) l)))))
    | _, _, _, _ => Some e
    end.
  (** convert_shape_to_path.rs:301-326; [None]: the element is removed. *)
  Definition poly_to_path (is_polygon : bool) (e : shape K) : option (shape K) :=
    let l := s_attrs e in
    match get APoints l with
    | Some (VPath data) =>
        if List.length data <=? 1 then None
        else
          let data := if is_polygon then data ++ [Close] else data in
          as_path (put AD (VPath (round_path data)) (drop APoints l))
    | _ => None
    end.
  (** convert_shape_to_path.rs:353-363, 403-413. *)
  Definition arcs (cx cy rx ry : Qc) : list cmd :=
    map round_all [Move false (P cx (cy - ry)%Qc); Arc false rx ry 0%Qc true false (P cx (cy + ry)%Qc);
                   Arc false rx ry 0%Qc true false (P cx (cy - ry)%Qc); Close].
  (** convert_shape_to_path.rs:329-370. *)
  Definition circle_to_path (e : shape K) : option (shape K) :=
    let l := s_attrs e in
    match px_or_zero (get ACX l), px_or_zero (get ACY l), px_or_zero (get AR l) with
    | Some cx, Some cy, Some r => as_path (drop AR (drop ACY (drop ACX (put AD (VPath (arcs cx cy r r)) l))))
    | _, _, _ => Some e
    end.
  (** convert_shape_to_path.rs:373-421. *)
  Definition ellipse_to_path (e : shape K) : option (shape K) :=
    let l := s_attrs e in
    match px_or_zero (get ACX l), px_or_zero (get ACY l), px_or_zero (get ARX l), px_or_zero (get ARY l) with
    | Some cx, Some cy, Some rx, Some ry => as_path (drop ARY (drop ARX (drop ACY (drop ACX (put AD (VPath (arcs cx cy rx ry)) l)))))
    | _, _, _, _ => Some e
    end.
End Round.

(** Selectors: compounds of components (lightningcss [Component]), of which the job looks at local names; a component such as [:is] holds selectors.
    Simplification: the combinators between the compounds are dropped (convert_shape_to_path.rs:118-144). *)
Inductive component : Type := CLocal (name : text) | CHolds (l : list component) | CRest.
(** The flags [ReferencedShapes] (convert_shape_to_path.rs:98-109) as the list of names found by [visit_selector]
    (convert_shape_to_path.rs:118-144): the names at the top of each selector.
    Simplification: names are taken to be in lower case. *)
Definition top_name (c : component) : list text := match c with CLocal n => [n] | _ => [] end.
(** The names in a style sheet (convert_shape_to_path.rs:98-144). *)
Definition referenced (sheet : list (list component)) : list text := flat_map (flat_map top_name) sheet.
(** [contains] (convert_shape_to_path.rs:166-186). *)
Definition mentions (refs : list text) (n : text) : bool := existsb (text_eqb n) refs.

(** convert_shape_to_path.rs:150-193 [element]. *)
Definition shape_element {K} (r : Qc -> Qc) (convert_arcs : bool) (refs : list text) (e : shape K) : option (shape K) :=
  match s_kind e with
  | KRect => if mentions refs (lit "rect") then Some e else rect_to_path r e
  | KLine => if mentions refs (lit "line") then Some e else line_to_path r e
  | KPolyline => if mentions refs (lit "polyline") then Some e else poly_to_path r false e
  | KPolygon => if mentions refs (lit "polygon") then Some e else poly_to_path r true e
  | KCircle => if negb convert_arcs || mentions refs (lit "circle") then Some e else circle_to_path r e
  | KEllipse => if negb convert_arcs || mentions refs (lit "circle") then Some e else ellipse_to_path r e
  | _ => Some e
  end.
(** convert_shape_to_path.rs:73-90 [prepare], for one element: nothing happens if [path] is in a selector. *)
Definition convert_shape {K} (p : nat) (convert_arcs : bool) (sheet : list (list component)) (e : shape K) : option (shape K) :=
  let refs := referenced sheet in
  if mentions refs (lit "path") then Some e else shape_element (rnd p) convert_arcs refs e.

(** ** From the parser's commands to those above *)
(** The number a decimal stands for (ParseModel [dec]) (crates/oxvg_parse/src/types/number.rs:30-33). *)
Definition dec_value (d : ParseModel.dec) : Qc :=
  let m := PathModel.mant d in
  match ParseModel.ex d with
  | Zneg e => Q2Qc (Qmake m (Z.to_pos (10 ^ Zpos e)))
  | e => Q2Qc (inject_Z (m * 10 ^ e))
  end.
(** A command of the parser (crates/oxvg_path/src/paths/svg/command.rs:14-57), [None] if the number of arguments is wrong. *)
Definition cmd_of (d : PathModel.data) : option cmd :=
  let v := dec_value in
  match PathModel.d_id d, PathModel.d_args d with
  | PathModel.MoveTo, [x; y] => Some (Move false (P (v x) (v y)))
  | PathModel.MoveBy, [x; y] => Some (Move true (P (v x) (v y)))
  | PathModel.ClosePath, [] => Some Close
  | PathModel.LineTo, [x; y] => Some (Line false (P (v x) (v y)))
  | PathModel.LineBy, [x; y] => Some (Line true (P (v x) (v y)))
  | PathModel.HorTo, [x] => Some (Hor false (v x))
  | PathModel.HorBy, [x] => Some (Hor true (v x))
  | PathModel.VerTo, [y] => Some (Ver false (v y))
  | PathModel.VerBy, [y] => Some (Ver true (v y))
  | PathModel.CubicTo, [a; b; c; d; x; y] => Some (Cubic false (P (v a) (v b)) (P (v c) (v d)) (P (v x) (v y)))
  | PathModel.CubicBy, [a; b; c; d; x; y] => Some (Cubic true (P (v a) (v b)) (P (v c) (v d)) (P (v x) (v y)))
  | PathModel.SmoothTo, [c; d; x; y] => Some (Smooth false (P (v c) (v d)) (P (v x) (v y)))
  | PathModel.SmoothBy, [c; d; x; y] => Some (Smooth true (P (v c) (v d)) (P (v x) (v y)))
  | PathModel.QuadTo, [c; d; x; y] => Some (Quad false (P (v c) (v d)) (P (v x) (v y)))
  | PathModel.QuadBy, [c; d; x; y] => Some (Quad true (P (v c) (v d)) (P (v x) (v y)))
  | PathModel.SmoothQuadTo, [x; y] => Some (SmoothQuad false (P (v x) (v y)))
  | PathModel.SmoothQuadBy, [x; y] => Some (SmoothQuad true (P (v x) (v y)))
  | PathModel.ArcTo, [a; b; c; l; s; x; y] => Some (Arc false (v a) (v b) (v c) (negb (Qc_eq_bool (v l) 0)) (negb (Qc_eq_bool (v s) 0)) (P (v x) (v y)))
  | PathModel.ArcBy, [a; b; c; l; s; x; y] => Some (Arc true (v a) (v b) (v c) (negb (Qc_eq_bool (v l) 0)) (negb (Qc_eq_bool (v s) 0)) (P (v x) (v y)))
  | _, _ => None
  end.
(** Commands of the parser (crates/oxvg_path/src/paths/svg/command.rs:14-57). *)
Fixpoint cmds_of (l : list PathModel.data) : option (list cmd) :=
  match l with
  | [] => Some []
  | d :: l => match cmd_of d, cmds_of l with Some c, Some l => Some (c :: l) | _, _ => None end
  end.
(** [Points::parse] (crates/oxvg_collections/src/attribute/path.rs:58-63): the commands read before the first error are kept, the rest is put
    aside.  [None]: the parser panics or does not end. *)
Fixpoint read_points (fuel : nat) (acc : list PathModel.data) (p : ParseModel.parser) : option (list PathModel.data) :=
  match ParseModel.is_empty p with
  | ParseModel.Ok true _ => Some (rev acc)
  | ParseModel.Ok false p =>
      match fuel with
      | 0 => None
      | S fuel =>
          match PathModel.parse_one (fun _ => true) true acc p with
          | ParseModel.Ok d p => read_points fuel (d :: acc) p
          | ParseModel.Fail _ _ => Some (rev acc)
          | _ => None
          end
      end
  | _ => None
  end.
(** The value of the attribute [points] for a text (crates/oxvg_collections/src/attribute/path.rs:58-63). *)
Definition points_value (s : text) : option aval :=
  match read_points (S (List.length s)) [] (ParseModel.new s) with
  | Some l => option_map VPath (cmds_of l)
  | None => None
  end.
