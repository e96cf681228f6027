(** Model of the matching of selectors: crates/oxvg_ast/src/selectors.rs, with what the crate selectors (version 0.39) does with the answers of an element.
    A selector is given as it was read; how its text is read is left out, but for what the parser of this crate does not take.  Left out too: [apply_selector_flags]
    and [add_element_unique_hashes] (456-465, 543-580), which nothing calls on this way (295-302: no flags are needed and no filter is given). *)
From Coq Require Import String List NArith ZArith Bool.
From Verif Require Import Chars NameModel AttrTable ElemModel TextModel ParseModel ListModel ScriptModel PruneModel DeprecatedModel.
Import ListNotations.

(** crates/oxvg_ast/src/node.rs 752-760: an element, a text, or any other node; attributes with their values as they were written. *)
Inductive tnode : Type := TElem (e : elem_id) (attrs : list (attr_id * text)) (kids : list tnode) | TText (t : text) | TNote.
(** A node is named by the positions of it and what it is in, the innermost first; the document is the empty list
    (crates/oxvg_ast/src/node.rs:245-255, 399-401: the lists of children and the links to parents). *)
Definition place : Type := list nat.

(** crates/oxvg_ast/src/node.rs 245-255 [child_nodes_iter]. *)
Fixpoint kids (d : list tnode) (p : place) : list tnode :=
  match p with [] => d | i :: up => match nth_error (kids d up) i with Some (TElem _ _ k) => k | _ => [] end end.
(** crates/oxvg_ast/src/element.rs 746-768: the node itself. *)
Definition look (d : list tnode) (p : place) : option tnode := match p with [] => None | i :: up => nth_error (kids d up) i end.
(** crates/oxvg_ast/src/element.rs 79-84 [Element::new], of a child. *)
Definition is_elem (d : list tnode) (p : place) : bool := match look d p with Some (TElem _ _ _) => true | _ => false end.
(** crates/oxvg_ast/src/element.rs 552-554 [children_iter]. *)
Definition children (d : list tnode) (p : place) : list place := filter (is_elem d) (map (fun i => i :: p) (seq 0 (List.length (kids d p)))).
(** crates/oxvg_ast/src/node.rs 235-237 [id_eq]. *)
Fixpoint place_eqb (p q : place) : bool :=
  match p, q with [], [] => true | i :: p, j :: q => Nat.eqb i j && place_eqb p q | _, _ => false end.
(** crates/oxvg_ast/src/element.rs 527-532 [parent_element]: the document is not an element. *)
Definition parent_element (p : place) : option place := match p with _ :: (j :: up) => Some (j :: up) | _ => None end.
(** crates/oxvg_ast/src/element.rs 449-456: the loop. *)
Fixpoint before (previous : option place) (l : list place) (p : place) : option place :=
  match l with [] => None | q :: l => if place_eqb q p then previous else before (Some q) l p end.
(** crates/oxvg_ast/src/element.rs 448-457 [previous_element_sibling] (selectors.rs:367-369). *)
Definition prev_sibling (d : list tnode) (p : place) : option place :=
  match parent_element p with None => None | Some up => before None (children d up) p end.
(** crates/oxvg_ast/src/element.rs 434-442: the loop. *)
Fixpoint after (saw : bool) (l : list place) (p : place) : option place :=
  match l with [] => None | q :: l => if saw then Some q else after (place_eqb q p) l p end.
(** crates/oxvg_ast/src/element.rs 433-443 [next_element_sibling] (selectors.rs:371-373). *)
Definition next_sibling (d : list tnode) (p : place) : option place :=
  match parent_element p with None => None | Some up => after false (children d up) p end.

(** Operators of attribute selectors (the crate selectors, used at selectors.rs:414-416). *)
Inductive attr_op : Type := OEqual | OIncludes | ODash | OPrefix | OSuffix | OSubstring.
(** Components of selectors (the crate selectors; selectors.rs:196-209).  [SAttr]: whether any namespace is asked for, the name, and the operator with its value and
    a mark for the case ([Some true] is [i], [Some false] is [s]).  [SNot] takes one compound selector.  [SNth]: of the type, from the end, and [an+b].
    [SPseudo]: another pseudo-class or pseudo-element.  A prefix of a namespace is never known (313-316) and is left out. *)
Inductive simple : Type :=
| SAny | SType (n : text) | SId (i : text) | SClass (c : text)
| SAttr (any : bool) (n : text) (o : option (attr_op * text * option bool))
| SNot (c : list simple) | SRoot | SEmpty | SNth (of_type from_end : bool) (a b : Z) | SScope | SPseudo (n : text).
(** Combinators (the crate selectors; selectors.rs:304). *)
Inductive comb : Type := Child | Descendant | NextSibling | LaterSibling.
(** A complex selector: the compound on the right, and what is left of it, the nearest first (the crate selectors; selectors.rs:222). *)
Record complex : Type := mkComplex { c_last : list simple; c_rest : list (comb * list simple) }.

(** selectors.rs 313-316: the parser has no pseudo-classes of its own, so those of 75-90 cannot be written. *)
Fixpoint readable (s : simple) : bool :=
  match s with
  | SPseudo _ => false
  | SNot c => (fix go (l : list simple) := match l with [] => true | s :: l => readable s && go l end) c
  | _ => true
  end.
(** selectors.rs 276-284 [Selector::new]: all of the list is read or nothing is. *)
Definition readable_list (l : list complex) : bool :=
  forallb (fun c => forallb readable (c_last c) && forallb (fun r => forallb readable (snd r)) (c_rest c)) l.

(** The crate selectors: attributes of HTML whose values are compared without case in an element of HTML (selectors.rs:379-381, 435). *)
Definition html_caseless : list text := map lit
  ["accept"; "accept-charset"; "align"; "alink"; "axis"; "bgcolor"; "charset"; "checked"; "clear"; "codetype"; "color"; "compact"; "declare"; "defer"; "dir";
   "direction"; "disabled"; "enctype"; "face"; "frame"; "hreflang"; "http-equiv"; "lang"; "language"; "link"; "media"; "method"; "multiple"; "nohref"; "noresize";
   "noshade"; "nowrap"; "readonly"; "rel"; "rev"; "rules"; "scope"; "scrolling"; "selected"; "shape"; "target"; "text"; "type"; "valign"; "valuetype"; "vlink"]%string.
(** selectors.rs 379-381 [is_html_element_in_html_document]. *)
Definition in_html : bool := true.
(** The crate selectors: the name that is asked for is in lower case for elements of HTML (selectors.rs:379-392, 413). *)
Definition asked (n : text) : text := if in_html then lower n else n.
(** The crate selectors: whether values are compared without case (selectors.rs:414-416, 435). *)
Definition caseless (any : bool) (n : text) (flag : option bool) : bool :=
  match flag with Some b => b | None => negb any && existsb (text_eqb (lower n)) html_caseless && in_html end.
(** The crate selectors: white space in selectors (selectors.rs:435). *)
Definition sel_white (c : N) : bool := existsb (N.eqb c) [32; 9; 10; 12; 13]%N.
(** The crate selectors, [eval_str] (selectors.rs:435): splitting at white space. *)
Fixpoint split_white (s : text) : list text :=
  match s with
  | [] => [[]]
  | c :: r => if sel_white c then [] :: split_white r else match split_white r with p :: ps => (c :: p) :: ps | [] => [[c]] end
  end.
(** The crate selectors, [eval_str] (selectors.rs:435). *)
Fixpoint contains_text (s v : text) : bool := starts_with s v || match v with [] => false | _ :: v => contains_text s v end.
(** The crate selectors, [eval_str] (selectors.rs:435); a value that can match nothing is dropped when it is read. *)
Definition eval_op (o : attr_op) (s v : text) : bool :=
  match o with
  | OEqual => text_eqb v s
  | OIncludes => match s with [] => false | _ => negb (existsb sel_white s) && existsb (fun w => text_eqb w s) (split_white v) end
  | ODash => text_eqb v s || starts_with (s ++ [45%N]) v
  | OPrefix => match s with [] => false | _ => starts_with s v end
  | OSuffix => match s with [] => false | _ => starts_with (rev s) (rev v) end
  | OSubstring => match s with [] => false | _ => contains_text s v end
  end.

Section Matching.
  Variable d : list tnode.
  (** [to_value_string] of an attribute (selectors.rs:432-434; crates/oxvg_serialize): the printing of each type of value is modelled elsewhere. *)
  Variable show : attr_id -> text -> option text.
  (** selectors.rs 347-349 [opaque]: where the wrapper of an element lies while the element is looked at. *)
  Variable opaque : place -> N.
  (** selectors.rs 303: what the scope was turned into. *)
  Variable scope : option N.

  (** crates/oxvg_ast/src/element.rs 196-215, 746-768: the name and attributes of an element. *)
  Definition data (p : place) : option (elem_id * list (attr_id * text)) := match look d p with Some (TElem e a _) => Some (e, a) | _ => None end.
  (** selectors.rs 383-392 [has_local_name]. *)
  Definition has_local_name (n : text) (p : place) : bool := match data p with Some (e, _) => text_eqb (elem_local e) n | None => false end.
  (** selectors.rs 401-406 [is_same_type]. *)
  Definition is_same_type (p q : place) : bool :=
    match data p, data q with Some (e, _), Some (f, _) => text_eqb (elem_local e) (elem_local f) && prefix_eqb (elem_prefix e) (elem_prefix f) | _, _ => false end.
  (** selectors.rs 482-494 [has_id]. *)
  Definition has_id (i : text) (p : place) : bool :=
    match data p with
    | Some (_, attrs) => match get_known (lit "Id") attrs with Some v => match id_value v with Some t => text_eqb i t | None => false end | None => false end
    | None => false
    end.
  (** selectors.rs 496-509 [has_class]. *)
  Definition has_class (c : text) (p : place) : bool :=
    match data p with
    | Some (_, attrs) => match get_known (lit "Class") attrs with Some v => match class_value v with Some l => existsb (text_eqb c) l | None => false end | None => false end
    | None => false
    end.
  (** crates/oxvg_ast/src/attribute.rs 162-168 [get_named_item_local]. *)
  Definition get_local (n : text) (attrs : list (attr_id * text)) : option (attr_id * text) :=
    find (fun a => prefix_is_empty (id_prefix (fst a)) && text_eqb (id_local (fst a)) n) attrs.
  (** selectors.rs 408-436 [attr_matches]: any namespace and no namespace are looked up in the same way (421-424). *)
  Definition attr_matches (any : bool) (n : text) (o : option (attr_op * text * option bool)) (p : place) : bool :=
    match data p with
    | Some (_, attrs) =>
        match get_local (asked n) attrs with
        | Some (a, v) =>
            match show a v with
            | Some w =>
                match o with
                | None => true
                | Some (op, s, flag) => if caseless any n flag then eval_op op (lower s) (lower w) else eval_op op s w
                end
            | None => false
            end
        | None => false
        end
    | None => false
    end.
  (** selectors.rs 522-530 [is_empty]. *)
  Definition is_empty (p : place) : bool :=
    forallb (fun k => match k with TText t => match trim_str t with [] => true | _ => false end | _ => false end) (kids d p).
  (** crates/oxvg_ast/src/element.rs 317-322 [is_root]. *)
  Definition is_root (p : place) : bool := match p with [_] => true | _ => false end.

  (** The crate selectors, [NthIndexCache] (selectors.rs:217, 298): for each kind of counting, positions by what [opaque] gave. *)
  Definition caches : Type := bool -> bool -> list (N * Z).
  (** selectors.rs 252, 309 [SelectorCaches::default]. *)
  Definition no_caches : caches := fun _ _ => [].
  (** The crate selectors, [NthIndexCacheInner::lookup] (used with selectors.rs:347-349). *)
  Definition lookup (c : list (N * Z)) (k : N) : option Z := match find (fun e => N.eqb (fst e) k) c with Some e => Some (snd e) | None => None end.
  (** The crate selectors, [NthIndexCacheInner::insert] (used with selectors.rs:347-349). *)
  Definition insert (cs : caches) (t f : bool) (k : N) (i : Z) : caches :=
    fun t' f' => if Bool.eqb t t' && Bool.eqb f f' then (k, i) :: cs t' f' else cs t' f'.
  (** The siblings on one side, the nearest first (the crate selectors; selectors.rs:367-373).  The number of steps is at most the number of children. *)
  Fixpoint siblings (step : place -> option place) (fuel : nat) (p : place) : list place :=
    match fuel with O => [] | S n => match step p with Some q => q :: siblings step n q | None => [] end end.
  (** selectors.rs 367-369, repeatedly. *)
  Definition prevs (p : place) : list place := siblings (prev_sibling d) (List.length (kids d (tl p))) p.
  (** selectors.rs 371-373, repeatedly. *)
  Definition nexts (p : place) : list place := siblings (next_sibling d) (List.length (kids d (tl p))) p.
  (** The crate selectors, [nth_child_index]: siblings are counted until one is found in the cache, if that is asked for (selectors.rs:347-373). *)
  Fixpoint count (same : place -> bool) (cache : option (list (N * Z))) (l : list place) (index : Z) : Z * option Z :=
    match l with
    | [] => (index, None)
    | q :: l =>
        if same q then
          match match cache with Some c => lookup c (opaque q) | None => None end with
          | Some i => (index, Some i)
          | None => count same cache l (index + 1)
          end
        else count same cache l index
    end.
  (** The crate selectors, [nth_child_index] (selectors.rs:347-373): from the end, earlier siblings are looked up first unless the cache is empty. *)
  Definition nth_child_index (t f : bool) (p : place) (cache : list (N * Z)) : Z :=
    let same q := if t then is_same_type p q else true in
    if f then
      match match cache with [] => None | _ => match count same (Some cache) (prevs p) 1 with (index, Some i) => Some (i - index)%Z | _ => None end end with
      | Some i => i
      | None => fst (count same None (nexts p) 1)
      end
    else match count same (Some cache) (prevs p) 1 with (index, Some i) => (i + index)%Z | (index, None) => index end.
  (** The crate selectors, [AnPlusB::matches_index]; the numbers are of 32 bits there (selectors.rs:304). *)
  Definition matches_index (a b i : Z) : bool :=
    let an := (i - b)%Z in
    if Z.eqb a 0 then Z.eqb an 0 else (0 <=? Z.quot an a)%Z && Z.eqb (a * Z.quot an a) an.
  (** The crate selectors, [matches_generic_nth_child] (selectors.rs:304, 347-373). *)
  Definition nth_child (t f : bool) (a b : Z) (p : place) (cs : caches) : bool * caches :=
    if Z.eqb a 0 && Z.eqb b 1 && negb t then
      (match (if f then next_sibling d p else prev_sibling d p) with None => true | Some _ => false end, cs)
    else
      match lookup (cs t f) (opaque p) with
      | Some i => (matches_index a b i, cs)
      | None => let i := nth_child_index t f p (cs t f) in (matches_index a b i, insert cs t f (opaque p) i)
      end.

  (** The crate selectors, [matches_simple_selector] (selectors.rs:304), with the answers of selectors.rs 344-541. *)
  Fixpoint eval (s : simple) (p : place) (cs : caches) : bool * caches :=
    match s with
    | SAny => (true, cs)
    | SType n => (has_local_name (asked n) p, cs)
    | SId i => (has_id i p, cs)
    | SClass c => (has_class c p, cs)
    | SAttr any n o => (attr_matches any n o p, cs)
    | SNot c =>
        let (b, cs) := (fix go (l : list simple) (cs : caches) : bool * caches :=
          match l with [] => (true, cs) | s :: l => let (b, cs) := eval s p cs in if b then go l cs else (false, cs) end) c cs in
        (negb b, cs)
    | SRoot => (is_root p, cs)
    | SEmpty => (is_empty p, cs)
    | SNth t f a b => nth_child t f a b p cs
    | SScope => (match scope with Some k => N.eqb (opaque p) k | None => is_root p end, cs)
    | SPseudo _ => (false, cs)
    end.
  (** The crate selectors, [matches_compound_selector] (selectors.rs:304). *)
  Fixpoint eval_all (l : list simple) (p : place) (cs : caches) : bool * caches :=
    match l with [] => (true, cs) | s :: l => let (b, cs) := eval s p cs in if b then eval_all l p cs else (false, cs) end.
  (** selectors.rs 351-353 [parent_element], repeatedly. *)
  Fixpoint ancestors (p : place) : list place := match p with _ :: (_ :: _) as up => up :: ancestors up | _ => [] end.
  (** The crate selectors: where a combinator leads to (selectors.rs:351-353, 367-369). *)
  Definition candidates (c : comb) (p : place) : list place :=
    match c with
    | Child => match parent_element p with Some q => [q] | None => [] end
    | Descendant => ancestors p
    | NextSibling => match prev_sibling d p with Some q => [q] | None => [] end
    | LaterSibling => prevs p
    end.
  (** The crate selectors, [matches_complex_selector_internal] (selectors.rs:304).  Simplification: all candidates are tried in turn; the crate leaves out some that cannot match. *)
  Fixpoint eval_rest (rest : list (comb * list simple)) (p : place) (cs : caches) : bool * caches :=
    match rest with
    | [] => (true, cs)
    | (c, s) :: rest =>
        (fix try (l : list place) (cs : caches) : bool * caches :=
          match l with
          | [] => (false, cs)
          | q :: l => let (b, cs) := eval_all s q cs in
              if b then let (b, cs) := eval_rest rest q cs in if b then (true, cs) else try l cs else try l cs
          end) (candidates c p) cs
    end.
  (** The crate selectors, [matches_complex_selector] (selectors.rs:304). *)
  Definition eval_complex (c : complex) (p : place) (cs : caches) : bool * caches :=
    let (b, cs) := eval_all (c_last c) p cs in if b then eval_rest (c_rest c) p cs else (false, cs).
  (** The crate selectors, [matches_selector_list] (selectors.rs:304). *)
  Fixpoint eval_list (l : list complex) (p : place) (cs : caches) : bool * caches :=
    match l with [] => (false, cs) | c :: l => let (b, cs) := eval_complex c p cs in if b then (true, cs) else eval_list l p cs end.
  (** selectors.rs 260-270 [Select::next], until there is no more. *)
  Fixpoint pick (sel : list complex) (l : list place) (cs : caches) : list place :=
    match l with [] => [] | p :: l => let (b, cs) := eval_list sel p cs in if b then p :: pick sel l cs else pick sel l cs end.
  (** crates/oxvg_ast/src/element.rs 842-848 [Iterator::next]; the number of steps is at most the number of nodes. *)
  Fixpoint breadth (fuel : nat) (queue : list place) : list place :=
    match fuel, queue with S n, p :: queue => p :: breadth n (queue ++ children d p) | _, _ => [] end.
End Matching.

(** The number of nodes of a tree: enough steps for crates/oxvg_ast/src/element.rs 842-848. *)
Fixpoint size (n : tnode) : nat := match n with TElem _ _ k => S (fold_right (fun n s => size n + s) 0 k) | _ => 1 end.
(** crates/oxvg_ast/src/element.rs 829-836, 706-708 [breadth_first]: the element itself is not among them. *)
Definition breadth_first (d : list tnode) (p : place) : list place := breadth d (fold_right (fun n s => size n + s) 0 d) (children d p).
(** selectors.rs 307-310 [matches_naive]; [None]: the selector is not read (276-284). *)
Definition matches_naive (d : list tnode) show opaque (sel : list complex) (p : place) : option bool :=
  if readable_list sel then Some (fst (eval_list d show opaque None sel p no_caches)) else None.
(** selectors.rs 232-270 [Select]: [scope_at] is where the wrapper of the scope lay (303). *)
Definition select (d : list tnode) show opaque (scope_at : N) (from : place) (sel : list complex) : option (list place) :=
  if readable_list sel then Some (pick d show opaque (Some scope_at) sel (breadth_first d from) no_caches) else None.

(** [to_value_string] of a class (crates/oxvg_collections/src/attribute/list_of.rs:338-352) and, for the examples, of a value that is plain text. *)
Definition show_class (a : attr_id) (v : text) : option text :=
  match id_unaliased a with
  | BKnown k => if text_eqb (kind_id k) (lit "Class") then match class_value v with Some l => Some (print_list (fun t => t) Space l) | None => Some v end else Some v
  | BUnknown _ => Some v
  end.
