(** Model of the information about a selection (crates/oxvg_actions/src/info.rs). *)
From Coq Require Import String List NArith Bool Arith.
From Verif Require Import Chars.
Import ListNotations.

(** An element as info.rs:159-195 sees it: its name, its attributes with their printed values (printing
    cannot fail here), whether all its children are texts, and its text content. *)
Record element : Type := mkElement {
  el_name : text;
  el_attrs : list (text * text);
  el_only_texts : bool;
  el_text : text
}.

(** [Info] with its parts (info.rs:31-40, 61-66, 98-105); sets are lists, flags are bit sets. *)
Record info : Type := mkInfo {
  element_id : option text;
  permitted_categories : N;
  permitted_elements : list text;
  expected_attribute_groups : N;
  expected_attributes : list text;
  values : list (text * text);
  content : option text
}.

(** Membership in the sets and maps of info.rs:17-24. *)
Definition has (t : text) (l : list text) : bool := existsb (text_eqb t) l.
(** [HashMap::get] (info.rs:17-24). *)
Fixpoint lookup (t : text) (l : list (text * text)) : option text :=
  match l with [] => None | (k, v) :: l => if text_eqb k t then Some v else lookup t l end.

Section Info.
  (** The content model of an element name (crates/oxvg_collections/src/element.rs) and the two
      [all()] of the flag types. *)
  Variable categories : text -> N.
  Variable elements : text -> list text.
  Variable groups : text -> N.
  Variable attributes : text -> list text.
  Variables all_categories all_groups : N.

  (** The variables of the loop (info.rs:152-158). *)
  Record acc : Type := mkAcc {
    c_text : option text; c_ids : list text; c_categories : N; c_elements : list text;
    c_groups : N; c_attributes : list text; c_values : list (text * text)
  }.
  (** The variables before the loop (info.rs:152-158). *)
  Definition start : acc := mkAcc (Some []) [] all_categories [] all_groups [] [].

  (** [HashSet::insert] (info.rs:221). *)
  Definition insert (t : text) (l : list text) : list text := if has t l then l else l ++ [t].

  (** One turn of the loop (info.rs:159-222); [first] is [i == 0]. *)
  Definition turn (first : bool) (c : acc) (e : element) : acc :=
    mkAcc
      match c_text c with
      | None => None
      | Some [] => if el_only_texts e then Some (el_text e) else None
      | Some _ => None
      end
      (insert (el_name e) (c_ids c))
      (N.lor (c_categories c) (categories (el_name e)))
      (filter (fun n => first || has n (c_elements c)) (elements (el_name e)))
      (N.lor (c_groups c) (groups (el_name e)))
      (filter (fun n => first || has n (c_attributes c)) (attributes (el_name e)))
      (filter (fun a => first || match lookup (fst a) (c_values c) with Some v => text_eqb v (snd a) | None => false end)
              (el_attrs e)).
  (** The loop over the elements (info.rs:159-224). *)
  Fixpoint turns (first : bool) (c : acc) (l : list element) : acc :=
    match l with [] => c | e :: l => turns false (turn first c e) l end.

  (** [selected_elements.flatten()] after the check that all are elements (info.rs:144-150). *)
  Fixpoint all_elements (l : list (option element)) : option (list element) :=
    match l with
    | [] => Some []
    | None :: _ => None
    | Some e :: l => option_map (cons e) (all_elements l)
    end.

  (** [Info::new] (info.rs:140-246), on the selected nodes that exist: an element or not. *)
  Definition new_info (nodes : list (option element)) : option info :=
    match all_elements nodes with
    | None => None
    | Some l =>
      let c := turns true start l in
      let none := match c_ids c with [] => true | _ => false end in
      Some (mkInfo
        match c_ids c with [n] => Some n | _ => None end
        (if none then 0%N else c_categories c)
        (c_elements c)
        (if none then 0%N else c_groups c)
        (c_attributes c)
        (c_values c)
        (c_text c))
    end.
End Info.

(** The content models of [path] and [g] (element.rs:1155-1192, 1542-1568) with the bits of
    element/category.rs:12-51; the attribute groups are left empty. *)
Definition categories_of (n : text) : N :=
  if text_eqb n (lit "path") then 1033 else if text_eqb n (lit "g") then 13353 else 524287.
(** [ElementCategory::all] (crates/oxvg_collections/src/element/category.rs:12-51). *)
Definition every_category : N := 524287.
(** [permitted_elements] of [path] and [g] (crates/oxvg_collections/src/element.rs:1155-1192, 1542-1568). *)
Definition elements_of (n : text) : list text :=
  if text_eqb n (lit "path") then map lit ["clipPath"; "marker"; "mask"; "script"; "style"]%string
  else if text_eqb n (lit "g") then
    map lit ["a"; "altGlyphDef"; "clipPath"; "color-profile"; "cursor"; "filter"; "font"; "font-face";
             "foreignObject"; "image"; "marker"; "mask"; "pattern"; "script"; "style"; "switch"; "text"; "view"]%string
  else [].
(** [expected_attributes] of [path] and [g] (crates/oxvg_collections/src/element.rs:1155-1192, 1542-1568). *)
Definition attributes_of (n : text) : list text :=
  if text_eqb n (lit "path") then map lit ["externalResourcesRequired"; "d"; "pathLength"]%string
  else if text_eqb n (lit "g") then [lit "externalResourcesRequired"] else [].
