(** Model of the job removeHiddenElems: crates/oxvg_optimiser/src/jobs/remove_hidden_elems.rs.

    Nodes are those of the tree the job starts with, each with a number that tells it from all others; [remove] (crates/oxvg_ast/src/node.rs:593-620)
    is a number put on the list [gone], and a node is a child of its parent as long as it is not on it.  That a walk gets the children that are still there, also below
    a node that has been removed, is what C08 and C64 say of the visitor. *)
From Coq Require Import String List NArith Bool Arith.
From Verif Require Import Chars.
Import ListNotations.

(** Elements the job tells apart.  Non-rendering ones (crates/oxvg_collections/src/element.rs:581, 1030, 1394, 1440, 1482, 1617, 1706, 1791, 1949):
    [KPattern], [KMarker] and [KDef] for clipPath, filter, linearGradient, mask, radialGradient, solidColor, symbol. *)
Inductive kind : Type := KDefs | KUse | KPath | KCircle | KEllipse | KRect | KImage | KPolyline | KPolygon | KPattern | KMarker | KDef | KElse.
(** [is_element!] (crates/oxvg_ast/src/element.rs:33-35). *)
Definition kind_eqb (a b : kind) : bool :=
  match a, b with
  | KDefs, KDefs | KUse, KUse | KPath, KPath | KCircle, KCircle | KEllipse, KEllipse | KRect, KRect | KImage, KImage | KPolyline, KPolyline
  | KPolygon, KPolygon | KPattern, KPattern | KMarker, KMarker | KDef, KDef | KElse, KElse => true
  | _, _ => false
  end.
(** [ElementInfo::NonRendering] (remove_hidden_elems.rs:130-133). *)
Definition non_rendering (k : kind) : bool := match k with KPattern | KMarker | KDef => true | _ => false end.

(** What the job reads of an element: the attribute id; values of href and xlink:href in order; ids that other attributes refer to (remove_hidden_elems.rs:270-284);
    whether the attribute visibility is [visible] or [inherit] (348-351); whether r, rx, ry, width, height are lengths of zero pixels (389-479);
    the number of commands of the attribute d (487-493); whether there is an attribute points (501, 508). *)
Record elem : Type := mkElem {
  e_kind : kind; e_name : option text; e_hrefs : list text; e_refs : list text; e_visible : bool;
  e_r0 : bool; e_rx0 : bool; e_ry0 : bool; e_w0 : bool; e_h0 : bool; e_d : option nat; e_points : bool }.
(** A document: elements, and other nodes with whether they are blank text (crates/oxvg_ast/src/node.rs:449-455). *)
Inductive tree : Type := Elem (n : nat) (e : elem) (kids : list tree) | Node (n : nat) (blank : bool).
(** A node's number (crates/oxvg_ast/src/node.rs:166-184). *)
Definition num (t : tree) : nat := match t with Elem n _ _ => n | Node n _ => n end.
(** Whether a node is an element (element.rs:31), and of which kind. *)
Definition is_elem (t : tree) : bool := match t with Elem _ _ _ => true | Node _ _ => false end.
(** [is_element!] (remove_hidden_elems.rs:183-209). *)
Definition is_kind (t : tree) (k : kind) : bool := match t with Elem _ e _ => kind_eqb (e_kind e) k | Node _ _ => false end.
(** [child_nodes_iter] before any removal (crates/oxvg_ast/src/element.rs:552-554). *)
Definition kids_of (t : tree) : list tree := match t with Elem _ _ k => k | Node _ _ => [] end.

(** The options (remove_hidden_elems.rs:50-96), each [unwrap_or(true)]. *)
Record options : Type := mkOptions {
  o_hidden : bool; o_display : bool; o_opacity : bool; o_circle : bool; o_rx : bool; o_ry : bool; o_rect_w : bool; o_rect_h : bool;
  o_pattern_w : bool; o_pattern_h : bool; o_image_w : bool; o_image_h : bool; o_path : bool; o_polyline : bool; o_polygon : bool }.
(** What the job reads of computed styles: opacity 0 and static (147-150); visibility hidden and static (345-346); display none (359-360); markers at start or end (492-493). *)
Record style : Type := mkStyle { s_opacity0 : bool; s_hidden : bool; s_none : bool; s_markers : bool }.

(** [Data] (remove_hidden_elems.rs:99-106), the sets as lists, and the nodes removed. *)
Record state : Type := mkState {
  gone : list nat; non_rendered : list tree; removed_ids : list text; all_defs : list tree; all_refs : list text; uses : list (text * nat) }.
(** [Data::default] (222-225). *)
Definition start : state := mkState [] [] [] [] [] [].
(** Writing to one field (remove_hidden_elems.rs:166-181: [remove]). *)
Definition add_gone (s : state) (n : nat) : state := mkState (n :: gone s) (non_rendered s) (removed_ids s) (all_defs s) (all_refs s) (uses s).
(** [non_rendered_nodes] (remove_hidden_elems.rs:101, 125-160). *)
Definition add_non_rendered (s : state) (t : tree) : state := mkState (gone s) (t :: non_rendered s) (removed_ids s) (all_defs s) (all_refs s) (uses s).
(** [removed_def_ids] (remove_hidden_elems.rs:102, 166-181). *)
Definition add_removed_id (s : state) (i : text) : state := mkState (gone s) (non_rendered s) (i :: removed_ids s) (all_defs s) (all_refs s) (uses s).
(** [all_defs] (remove_hidden_elems.rs:103, 183-209). *)
Definition add_defs (s : state) (t : tree) : state := mkState (gone s) (non_rendered s) (removed_ids s) (t :: all_defs s) (all_refs s) (uses s).
(** [all_references] (remove_hidden_elems.rs:104, 270-284). *)
Definition add_refs (s : state) (l : list text) : state := mkState (gone s) (non_rendered s) (removed_ids s) (all_defs s) (l ++ all_refs s) (uses s).
(** [references_by_id] (remove_hidden_elems.rs:105, 191-205). *)
Definition add_use (s : state) (i : text) (n : nat) : state := mkState (gone s) (non_rendered s) (removed_ids s) (all_defs s) (all_refs s) ((i, n) :: uses s).

(** Membership of a number and of a text (remove_hidden_elems.rs:101-105). *)
Definition has_num (n : nat) (l : list nat) : bool := existsb (Nat.eqb n) l.
(** [HashSet::contains] (remove_hidden_elems.rs:102, 104). *)
Definition has_text (i : text) (l : list text) : bool := existsb (text_eqb i) l.
(** Whether a node has been removed (remove_hidden_elems.rs:166-181). *)
Definition is_gone (s : state) (t : tree) : bool := has_num (num t) (gone s).
(** Children at the time (crates/oxvg_ast/src/element.rs:552-554). *)
Definition live_kids (s : state) (t : tree) : list tree := filter (fun k => negb (is_gone s k)) (kids_of t).
(** [is_empty] (node.rs:449-455). *)
Definition is_empty (s : state) (t : tree) : bool := forallb (fun k => match k with Node _ b => b | Elem _ _ _ => false end) (live_kids s t).
(** [child_element_count] (element.rs:540-542). *)
Definition element_count (s : state) (t : tree) : nat := List.length (filter is_elem (live_kids s t)).
(** The element and its ancestors at the time, nearest first ([parent_element], element.rs:527-532). *)
Fixpoint chain (s : state) (l : list tree) : list tree := match l with [] => [] | t :: l => t :: (if is_gone s t then [] else chain s l) end.
(** [breadth_first().any(f)] (element.rs:706-708): some element below, itself not counted. *)
Fixpoint below (s : state) (f : elem -> bool) (t : tree) : bool :=
  match t with
  | Node _ _ => false
  | Elem _ _ kids =>
      (fix go (l : list tree) : bool :=
         match l with
         | [] => false
         | k :: l => (negb (is_gone s k) && (match k with Elem _ e _ => f e | Node _ _ => false end || below s f k)) || go l
         end) kids
  end.

(** What comes of a run (remove_hidden_elems.rs:249-324). *)
Inductive outcome (A : Type) : Type := Done (a : A) | Error | Panic.
Arguments Done {A}. Arguments Error {A}. Arguments Panic {A}.

(** remove_hidden_elems.rs:195 [&value[1..]]: panics unless the first character is of one byte. *)
Definition slice_one (v : text) : option text := match v with c :: v => if (c <? 128)%N then Some v else None | [] => None end.
(** remove_hidden_elems.rs:191-205: the loop over href and xlink:href. *)
Fixpoint ref_hrefs (l : list text) (n : nat) (s : state) : option state :=
  match l with [] => Some s | v :: l => match slice_one v with Some i => ref_hrefs l n (add_use s i n) | None => None end end.
(** remove_hidden_elems.rs:183-209 [ref_element]. *)
Definition ref_element (s : state) (t : tree) : option state :=
  match t with
  | Elem n e _ => match e_kind e with KDefs => Some (add_defs s t) | KUse => ref_hrefs (e_hrefs e) n s | _ => Some s end
  | Node _ _ => Some s
  end.
(** The name of an element (The attribute [id]; remove_hidden_elems.rs:166-181). *)
Definition name_of (t : tree) : option text := match t with Elem _ e _ => e_name e | Node _ _ => None end.
(** remove_hidden_elems.rs:166-181 [remove_element]. *)
Definition remove_element (s : state) (anc : list tree) (t : tree) : state :=
  match (if is_gone s t then [] else anc) with
  | p :: _ =>
      if is_kind p KDefs then
        let s := match name_of t with Some i => add_removed_id s i | None => s end in
        if element_count s p =? 1 then add_gone s (num p) else add_gone s (num t)
      else add_gone s (num t)
  | [] => add_gone s (num t)
  end.

Section Job.
  (** [ComputedStyles::with_all] of the first of a chain (CascadeModel): [None] is an error. *)
  Variable style_of : list tree -> option style.
  Variable o : options.
  (** Whether [exit_document] is told of stylesheets or scripts (302-304). *)
  Variable deoptimized : bool.
  (** The order in which the hash set [all_defs] gives its elements (314). *)
  Variable order : list tree -> list tree.

  (** remove_hidden_elems.rs:125-162 [element] of [Data], and the walk. *)
  Fixpoint collect (anc : list tree) (t : tree) (s : state) {struct t} : outcome state :=
    match t with
    | Node _ _ => Done s
    | Elem n e kids =>
        if non_rendering (e_kind e) then Done (add_non_rendered s t)
        else match ref_element s t with
        | None => Panic
        | Some s =>
            match style_of (chain s (t :: anc)) with
            | None => Error
            | Some st =>
                if o_opacity o && s_opacity0 st && kind_eqb (e_kind e) KPath then Done (add_non_rendered s t)
                else
                  (fix go (l : list tree) (s : state) : outcome state :=
                     match l with
                     | [] => Done s
                     | k :: l =>
                         match (if is_gone s k then Done s else collect (t :: anc) k s) with
                         | Done s => go l s
                         | bad => bad
                         end
                     end) kids (if o_opacity o && s_opacity0 st then remove_element s anc t else s)
            end
        end
    end.

  (** Whether a name is that of a recorded use (remove_hidden_elems.rs:367-368, 374-375). *)
  Definition used_name (s : state) (e : elem) : bool := match e_name e with Some i => has_text i (map fst (uses s)) | None => false end.
  (** remove_hidden_elems.rs:337-383 [is_hidden_style], and whether it asks to skip the children. *)
  Definition is_hidden_style (s : state) (t : tree) (e : elem) (st : style) : bool * bool :=
    let hidden := (o_hidden o && s_hidden st && negb (below s e_visible t)) || (o_display o && s_none st && negb (kind_eqb (e_kind e) KMarker)) in
    if hidden then if used_name s e then (false, true) else (negb (below s (used_name s) t), false)
    else (false, false).
  (** remove_hidden_elems.rs:386-396, the circle of [is_hidden_ellipse]. *)
  Definition is_hidden_circle (s : state) (t : tree) (e : elem) : bool := kind_eqb (e_kind e) KCircle && is_empty s t && o_circle o && e_r0 e.
  (** remove_hidden_elems.rs:398-416, the ellipse of [is_hidden_ellipse]. *)
  Definition is_hidden_ellipse (e : elem) : bool := kind_eqb (e_kind e) KEllipse && ((o_rx o && e_rx0 e) || (o_ry o && e_ry0 e)).
  (** remove_hidden_elems.rs:421-439. *)
  Definition is_hidden_rect (s : state) (t : tree) (e : elem) : bool := kind_eqb (e_kind e) KRect && is_empty s t && ((o_rect_w o && e_w0 e) || (o_rect_h o && e_h0 e)).
  (** remove_hidden_elems.rs:441-459. *)
  Definition is_hidden_pattern (e : elem) : bool := kind_eqb (e_kind e) KPattern && ((o_pattern_w o && e_w0 e) || (o_pattern_h o && e_h0 e)).
  (** remove_hidden_elems.rs:461-479. *)
  Definition is_hidden_image (e : elem) : bool := kind_eqb (e_kind e) KImage && ((o_image_w o && e_w0 e) || (o_image_h o && e_h0 e)).
  (** remove_hidden_elems.rs:481-496. *)
  Definition is_hidden_path (e : elem) (st : style) : bool :=
    o_path o && kind_eqb (e_kind e) KPath && match e_d e with None => true | Some d => (d =? 0) || ((d =? 1) && negb (s_markers st)) end.
  (** remove_hidden_elems.rs:498-513. *)
  Definition is_hidden_poly (e : elem) : bool := (o_polyline o && kind_eqb (e_kind e) KPolyline && negb (e_points e)) || (o_polygon o && kind_eqb (e_kind e) KPolygon && negb (e_points e)).

  (** remove_hidden_elems.rs:249-286 [element] of [State], and the walk. *)
  Fixpoint hide (anc : list tree) (t : tree) (s : state) {struct t} : outcome state :=
    match t with
    | Node _ _ => Done s
    | Elem n e kids =>
        match style_of (chain s (t :: anc)) with
        | None => Error
        | Some st =>
            let '(by_style, skip) := is_hidden_style s t e st in
            let circle := negb by_style && is_hidden_circle s t e in
            let s1 := if circle then add_gone s n else s in
            let s2 := if by_style || circle || is_hidden_ellipse e || is_hidden_rect s t e || is_hidden_pattern e || is_hidden_image e || is_hidden_path e st || is_hidden_poly e
                      then remove_element s1 anc t
                      else add_refs s1 (e_refs e) in
            if skip then Done s2
            else
              (fix go (l : list tree) (s : state) : outcome state :=
                 match l with
                 | [] => Done s
                 | k :: l =>
                     match (if is_gone s k then Done s else hide (t :: anc) k s) with
                     | Done s => go l s
                     | bad => bad
                     end
                 end) kids s2
        end
    end.

  (** remove_hidden_elems.rs:326-335 [can_remove_non_rendering_node]. *)
  Fixpoint can_remove (s : state) (t : tree) {struct t} : bool :=
    match t with
    | Node _ _ => true
    | Elem _ e kids =>
        negb (match e_name e with Some i => has_text i (all_refs s) | None => false end) &&
        (fix go (l : list tree) : bool := match l with [] => true | k :: l => (is_gone s k || can_remove s k) && go l end) kids
    end.
  (** remove_hidden_elems.rs:288-322 [exit_document]. *)
  Definition finish (s : state) : state :=
    let s := fold_left (fun s u => if has_text (fst u) (removed_ids s) then add_gone s (snd u) else s) (uses s) s in
    let s := if deoptimized then s else fold_left (fun s t => if can_remove s t then add_gone s (num t) else s) (non_rendered s) s in
    fold_left (fun s t => if is_empty s t then add_gone s (num t) else s) (order (all_defs s)) s.

  (** The children of the document node (visitor.rs:318-322). *)
  Fixpoint over (f : tree -> state -> outcome state) (l : list tree) (s : state) : outcome state :=
    match l with
    | [] => Done s
    | t :: l => match (if is_gone s t then Done s else f t s) with Done s => over f l s | bad => bad end
    end.
  (** remove_hidden_elems.rs:215-234 [prepare]. *)
  Definition remove_hidden (doc : list tree) : outcome state :=
    match over (collect []) doc start with
    | Done s => match over (hide []) doc s with Done s => Done (finish s) | bad => bad end
    | bad => bad
    end.
End Job.
