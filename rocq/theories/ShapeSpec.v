(** The outline of the basic shapes, after SVG 2 (chapter 10), and what it means to be near it. *)
From Coq Require Import String List NArith ZArith QArith Qcanon Bool Arith.
From Verif Require Import Chars SegmentModel SegmentSpec ShapeModel.
Import ListNotations.
Local Close Scope Q_scope.
Local Open Scope nat_scope.

(** A coordinate: the number given, or 0 if there is none or it makes no sense. *)
Inductive coordinate (l : list attr) (n : aname) : Qc -> Prop :=
| c_given q : get n l = Some (VPx q) -> coordinate l n q
| c_missing : get n l = None -> coordinate l n 0%Qc
| c_senseless k : get n l = Some (VText k) -> coordinate l n 0%Qc.

(** The vertices of a shape with straight sides, and whether it is closed. *)
Inductive outline_of {K} (e : shape K) : list point -> bool -> Prop :=
| o_rect x y w h : s_kind e = KRect -> get ARX (s_attrs e) = None -> get ARY (s_attrs e) = None ->
    coordinate (s_attrs e) AX x -> coordinate (s_attrs e) AY y ->
    get AWidth (s_attrs e) = Some (VPx w) -> get AHeight (s_attrs e) = Some (VPx h) ->
    outline_of e [P x y; P (x + w)%Qc y; P (x + w)%Qc (y + h)%Qc; P x (y + h)%Qc] true
| o_line x1 y1 x2 y2 : s_kind e = KLine ->
    coordinate (s_attrs e) AX1 x1 -> coordinate (s_attrs e) AY1 y1 -> coordinate (s_attrs e) AX2 x2 -> coordinate (s_attrs e) AY2 y2 ->
    outline_of e [P x1 y1; P x2 y2] false
| o_polyline v vs : s_kind e = KPolyline -> get APoints (s_attrs e) = Some (VPath (Move false v :: map (Line false) vs)) ->
    outline_of e (v :: vs) false
| o_polygon v vs : s_kind e = KPolygon -> get APoints (s_attrs e) = Some (VPath (Move false v :: map (Line false) vs)) ->
    outline_of e (v :: vs) true.

(** The sides between vertices. *)
Fixpoint through (a : point) (l : list point) : list edge :=
  match l with [] => [] | b :: l => ELine a b :: through b l end.
Definition sides (vs : list point) (closed : bool) : list edge :=
  match vs with [] => [] | a :: l => through a l ++ (if closed then [ELine (List.last l a) a] else []) end.

(** [b] is [a] rounded to [p] places. *)
Definition rounded (p : nat) (a b : Qc) : Prop :=
  on_grid p b /\ ((1 + 1) * (b - a) <= Q2Qc (1 # pow10 p))%Qc /\ ((1 + 1) * (a - b) <= Q2Qc (1 # pow10 p))%Qc.
Definition rounded_point (p : nat) (a b : point) : Prop := rounded p (px a) (px b) /\ rounded p (py a) (py b).

(** The name of a shape as selectors have it. *)
Definition local_name (k : kind) : option text :=
  match k with
  | KRect => Some (lit "rect") | KLine => Some (lit "line") | KPolyline => Some (lit "polyline") | KPolygon => Some (lit "polygon")
  | KCircle => Some (lit "circle") | KEllipse => Some (lit "ellipse") | KPath => Some (lit "path") | KElse _ => None
  end.
(** A name at the top of some selector; a name anywhere in some selector. *)
Definition named (sheet : list (list component)) (n : text) : Prop := exists s, In s sheet /\ In (CLocal n) s.
Inductive within (n : text) : component -> Prop :=
| w_here : within n (CLocal n)
| w_inside c l : In c l -> within n c -> within n (CHolds l).
Definition named_anywhere (sheet : list (list component)) (n : text) : Prop := exists s c, In s sheet /\ In c s /\ within n c.

(** The attributes that give a shape its geometry. *)
Definition geometric (k : kind) (n : aname) : bool :=
  match k, n with
  | KRect, (AX | AY | AWidth | AHeight) | KLine, (AX1 | AY1 | AX2 | AY2) | (KPolyline | KPolygon), APoints
  | KCircle, (ACX | ACY | AR) | KEllipse, (ACX | ACY | ARX | ARY) => true
  | _, AD => true
  | _, _ => false
  end.
Definition others (k : kind) (l : list attr) : list attr := filter (fun a => negb (geometric k (fst a))) l.
(** A shape with straight sides; a round one. *)
Definition straight (k : kind) : bool := match k with KRect | KLine | KPolyline | KPolygon => true | _ => false end.
Definition poly (k : kind) : bool := match k with KPolyline | KPolygon => true | _ => false end.
Definition round_shape (k : kind) : bool := match k with KCircle | KEllipse => true | _ => false end.
(** Reading gives paths for [points] and [d] only. *)
Definition lengths_read (l : list attr) : Prop := forall n c, get n l = Some (VPath c) -> n = APoints \/ n = AD.
