(** reusePaths (crates/oxvg_optimiser/src/jobs/reuse_paths.rs; lines without a file are of this one). *)
From Coq Require Import String List NArith Bool Arith.
From Verif Require Import Chars ClockModel.
Import ListNotations.

(** The elements that the job or the drawing distinguishes (87-107); [Other] is one that is not drawn where it is, such as clipPath or title. *)
Inductive tag := Path | Use | Defs | Svg | Group | Other.
(** A transformation, opaque, or the shift by [x] and [y] of a use (99-106, the element with such attributes). *)
Inductive move := Turn (n : nat) | Shift (n : nat).
(** The attributes of an element (151-164).  Geometry, paint and others are opaque numbers.  Simplifications: [href] and [xlink:href] are one,
    [x] and [y] are one, [a_style] is the fill of the attribute [style], [a_rest] are the attributes that mean the same for a use and what is in it,
    [a_xlink] is the declaration of the prefix [xlink]. *)
Record attrs := mkAttrs { a_id : option text; a_d : option nat; a_fill : option nat; a_stroke : option nat; a_href : option text;
  a_turn : option nat; a_shift : option nat; a_style : option nat; a_rest : list nat; a_xlink : bool }.
(** A name and attributes (crates/oxvg_ast/src/element.rs:402-425). *)
Definition cell : Type := tag * attrs.
(** The elements of the document, each by a number that stands for the pointer (27-28). *)
Inductive tree := Node (key : nat) (kids : list tree).
(** What an element is, where it is, the next number for a new element (crates/oxvg_ast/src/element.rs:416-426), and the ids in the selectors of style sheets (266-273). *)
Record doc := mkDoc { cells : nat -> cell; shape : tree; fresh : nat; sheet : list text }.

(** The pointer of a node (27). *)
Definition root (t : tree) : nat := match t with Node k _ => k end.
(** [child_nodes_iter] (crates/oxvg_ast/src/node.rs:643). *)
Definition kids (t : tree) : list tree := match t with Node _ l => l end.
(** The walk: every element before what is in it (81, crates/oxvg_ast/src/visitor.rs:312-349). *)
Fixpoint subs (t : tree) : list tree := match t with Node _ l => t :: flat_map subs l end.
(** As [subs], the elements (81). *)
Definition keys (t : tree) : list nat := map root (subs t).
(** [==] on pointers (crates/oxvg_ast/src/node.rs:644). *)
Definition mem (k : nat) (l : list nat) : bool := existsb (Nat.eqb k) l.
(** [HashSet::contains] (154) and the search for an id in selectors (291-294). *)
Definition text_mem (i : text) (l : list text) : bool := existsb (text_eqb i) l.
(** [parent_element] (90-91). *)
Definition parent (t : tree) (k : nat) : option nat :=
  option_map root (find (fun s => mem k (map root (kids s))) (subs t)).
(** [Node::contains] (crates/oxvg_ast/src/node.rs:642-649). *)
Definition contains (t : tree) (a b : nat) : bool :=
  existsb (fun s => Nat.eqb (root s) a && mem b (flat_map keys (kids s))) (subs t).
(** [is_empty] (crates/oxvg_ast/src/node.rs:449-455); text in a path is not modelled.  An element that has been removed is looked for in vain, and [contains] is false for it. *)
Definition childless (t : tree) (k : nat) : bool :=
  forallb (fun s => negb (Nat.eqb (root s) k) || match kids s with [] => true | _ => false end) (subs t).
(** Children at the start and the end of an element: [insert(0, ..)] and [append] (135 and 148). *)
Fixpoint graft (k : nat) (front back : list tree) (t : tree) : tree :=
  match t with Node j l =>
    Node j ((if Nat.eqb j k then front else []) ++ map (graft k front back) l ++ (if Nat.eqb j k then back else [])) end.
(** [remove] (189 and 197). *)
Fixpoint prune (k : nat) (t : tree) : tree :=
  match t with Node j l => Node j (filter (fun s => negb (Nat.eqb (root s) k)) (map (prune k) l)) end.
(** The new element that [set_local_name] puts in the place of the path has no children (crates/oxvg_ast/src/element.rs:416-427). *)
Fixpoint cut (k : nat) (t : tree) : tree :=
  match t with Node j l => Node j (if Nat.eqb j k then [] else map (cut k) l) end.

(** An element is changed (163). *)
Definition set (d : doc) (k : nat) (c : cell) : doc :=
  mkDoc (fun j => if Nat.eqb j k then c else cells d j) (shape d) (fresh d) (sheet d).
(** The tree is changed (148). *)
Definition reshape (d : doc) (t : tree) : doc := mkDoc (cells d) t (fresh d) (sheet d).
(** [create_element] and [append] or [insert] (134-135 and 147-148). *)
Definition create (d : doc) (c : cell) (place : tree -> tree -> tree) : doc :=
  mkDoc (fun j => if Nat.eqb j (fresh d) then c else cells d j) (place (Node (fresh d) []) (shape d)) (S (fresh d)) (sheet d).

(** No attributes (134). *)
Definition bare : attrs := mkAttrs None None None None None None None None [] false.
(** [attributes.len()] (191). *)
Definition some {A} (o : option A) : nat := match o with Some _ => 1 | None => 0 end.
(** [attributes.len()] (191). *)
Definition count (a : attrs) : nat :=
  some (a_id a) + some (a_d a) + some (a_fill a) + some (a_stroke a) + some (a_href a) + some (a_turn a) + some (a_shift a) + some (a_style a)
  + List.length (a_rest a) + (if a_xlink a then 1 else 0).
(** [set_attribute!(.., XLinkHref(..))] (211 and 204). *)
Definition with_href (h : text) (a : attrs) : attrs :=
  mkAttrs (a_id a) (a_d a) (a_fill a) (a_stroke a) (Some h) (a_turn a) (a_shift a) (a_style a) (a_rest a) (a_xlink a).
(** [remove_attribute!(.., Id)] (167). *)
Definition without_id (a : attrs) : attrs :=
  mkAttrs None (a_d a) (a_fill a) (a_stroke a) (a_href a) (a_turn a) (a_shift a) (a_style a) (a_rest a) (a_xlink a).
(** 181-183. *)
Definition stripped (a : attrs) : attrs :=
  mkAttrs (a_id a) None None None (a_href a) (a_turn a) (a_shift a) (a_style a) (a_rest a) (a_xlink a).
(** 217-223. *)
Definition with_xlink (a : attrs) : attrs :=
  mkAttrs (a_id a) (a_d a) (a_fill a) (a_stroke a) (a_href a) (a_turn a) (a_shift a) (a_style a) (a_rest a) true.

(** [format!("#{}", ..)] (178 and 195). *)
Definition url (i : text) : text := 35%N :: i.
(** [format!("reuse-{index}")] (171). *)
Definition reuse (n : N) : text := lit "reuse-" ++ print_uint (N.to_uint n).

(** [Key] (247-252). *)
Definition pkey : Type := nat * option nat * option nat.
(** [PartialEq] of an optional paint (247). *)
Definition opt_eqb (a b : option nat) : bool :=
  match a, b with Some x, Some y => Nat.eqb x y | None, None => true | _, _ => false end.
(** [PartialEq] of [Key] (247). *)
Definition pkey_eqb (a b : pkey) : bool :=
  let '(d, s, f) := a in let '(d', s', f') := b in Nat.eqb d d' && opt_eqb s s' && opt_eqb f f'.
(** [State] (26-30). *)
Record state := mkState { paths : list (pkey * list nat); defs : option nat; hrefs : list text }.
(** 238-243. *)
Fixpoint add (q : pkey) (k : nat) (l : list (pkey * list nat)) : list (pkey * list nat) :=
  match l with
  | [] => [(q, [k])]
  | (q', ks) :: l => if pkey_eqb q' q then (q', ks ++ [k]) :: l else (q', ks) :: add q k l
  end.
(** [add_path] (231-244). *)
Definition add_path (a : attrs) (k : nat) (s : state) : state :=
  match a_d a with
  | None => s
  | Some p => mkState (add (p, a_stroke a, a_fill a) k (paths s)) (defs s) (hrefs s)
  end.
(** [element] (81-112). *)
Definition enter (d : doc) (k : nat) (s : state) : state :=
  let a := snd (cells d k) in
  match fst (cells d k) with
  | Path => add_path a k s
  | Defs =>
      match defs s, option_map (fun q => fst (cells d q)) (parent (shape d) k) with
      | None, Some Svg => mkState (paths s) (Some k) (hrefs s)
      | _, _ => s
      end
  | Use =>
      match a_href a with
      | Some ((c :: _ :: _) as h) => if N.eqb c 35 then mkState (paths s) (defs s) (h :: hrefs s) else s
      | _ => s
      end
  | _ => s
  end.

(** 198-206: [breadth_first] has what is in the element, without itself. *)
Definition retarget (el : nat) (old new : text) (d : doc) : doc :=
  mkDoc (fun j => let c := cells d j in
      match a_href (snd c) with
      | Some h => if contains (shape d) el j && text_eqb h old then (fst c, with_href new (snd c)) else c
      | None => c
      end) (shape d) (fresh d) (sheet d).
(** 185-209. *)
Definition drop (el df : nat) (new : text) (k : nat) (d : doc) : doc :=
  let a := snd (cells d k) in
  if childless (shape d) k && contains (shape d) df k then
    if Nat.eqb (count a) 0 then reshape d (prune k (shape d))
    else match a_id a with
    | Some i => if Nat.eqb (count a) 1 then retarget el (url i) new (reshape d (prune k (shape d))) else d
    | None => d
    end
  else d.
(** 180-213. *)
Definition one_path (el df : nat) (new : text) (k : nat) (d : doc) : doc :=
  let d := set d k (fst (cells d k), stripped (snd (cells d k))) in
  let d := drop el df new k d in
  let d := set d k (Use, with_href new (snd (cells d k))) in
  reshape d (cut k (shape d)).
(** 143-213.  A list is never empty. *)
Definition one_list (el df : nat) (hr : list text) (ks : list nat) (r : doc * N) : doc * N :=
  let '(d, n) := r in
  match ks with
  | [] | [_] => (d, n)
  | k :: _ =>
      let a := snd (cells d k) in
      let kept := match a_id a with Some i => negb (text_mem i hr) && negb (text_mem i (sheet d)) | None => false end in
      let i := match a_id a with Some i => if kept then i else reuse n | None => reuse n end in
      let n := if kept then n else (n + 1)%N in
      let d := create d (Path, mkAttrs (Some i) (a_d a) (a_fill a) (a_stroke a) None None None None [] false) (fun p => graft df [] [p]) in
      let d := if kept then set d k (fst (cells d k), without_id a) else d in
      (fold_left (fun d k => one_path el df (url i) k d) ks d, n)
  end.
(** 216-224. *)
Definition declare (df : nat) (d : doc) : doc :=
  if childless (shape d) df then d else set d df (fst (cells d df), with_xlink (snd (cells d df))).
(** [exit_element] (115-227). *)
Definition leave (el : nat) (r : doc * state) : doc * state :=
  let '(d, s) := r in
  if negb (Nat.eqb el (root (shape d))) && negb (match fst (cells d el) with Svg => true | _ => false end) then r
  else match paths s with
  | [] => r
  | _ =>
      let '(d, s, df) :=
        match defs s with
        | Some df => (d, s, df)
        | None => (create d (Defs, bare) (fun p => graft el [p] []), mkState (paths s) (Some (fresh d)) (hrefs s), fresh d)
        end in
      let '(d, _) := fold_left (fun r ks => one_list el df (hrefs s) ks r) (map snd (paths s)) (d, 0%N) in
      (declare df d, s)
  end.

(** Coming to an element and leaving it (crates/oxvg_ast/src/visitor.rs:312-349). *)
Inductive event := Enter (k : nat) | Leave (k : nat).
(** The walk (crates/oxvg_ast/src/visitor.rs:312-349).  Simplification: it is the walk of the document as it was, so that an element which the job adds is not visited. *)
Fixpoint events (t : tree) : list event := match t with Node k l => Enter k :: flat_map events l ++ [Leave k] end.
(** The hooks (81 and 115). *)
Definition visit (r : doc * state) (e : event) : doc * state :=
  match e with Enter k => (fst r, enter (fst r) k (snd r)) | Leave k => leave k r end.
(** [prepare] (57-66): the job, if it is switched on. *)
Definition reuse_paths (on : bool) (d : doc) : doc :=
  if on then fst (fold_left visit (events (shape d)) (d, mkState [] None [])) else d.
