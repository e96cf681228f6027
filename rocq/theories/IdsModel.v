(** Model of the jobs that rewrite ids: [cleanup_ids] and [prefix_ids].
    Strings here are their UTF-8 bytes ([text] = list of byte values). *)
From Coq Require Import String List NArith Bool Arith.
Import ListNotations.
From Verif Require Import Chars.

(** * Attribute values as seen by the id visitors *)

(** The parts of an attribute's value that [visit_url], [visit_id] and [visit_class] hand to
    their callback (crates/oxvg_collections/src/content_type.rs:243-398), in source order; all
    remaining text is [Plain].  Simplification: which attribute types expose which parts is input,
    not modelled; a style attribute is its list of urls. *)
Inductive piece := Url (t : text) | IdRef (t : text) | ClassRef (t : text) | Plain (t : text).

(** An attribute: its [AttrId], as a number, and its value.  Number 0 is [AttrId::Id]
    (crates/oxvg_collections/src/attribute.rs:1118). *)
Record attr := Attr { aname : nat; apieces : list piece }.

(** [Attr::Id(id)] (crates/oxvg_optimiser/src/jobs/cleanup_ids.rs:267, 310). *)
Definition as_id (a : attr) : option text :=
  if Nat.eqb (aname a) 0 then match apieces a with [IdRef t] => Some t | _ => None end else None.

(** Elements are numbered; an element tree, and the attributes of each element
    (crates/oxvg_ast/src/element.rs:44, 58-66). *)
Inductive tree := Node (e : nat) (kids : list tree).
(** The attributes of each element (crates/oxvg_ast/src/element.rs:58-66). *)
Definition store := nat -> list attr.
(** An element (crates/oxvg_ast/src/element.rs:44). *)
Definition t_elem (t : tree) : nat := let '(Node e _) := t in e.
(** Its children (crates/oxvg_ast/src/element.rs:552-554). *)
Definition t_kids (t : tree) : list tree := let '(Node _ k) := t in k.
(** Writing the attributes of an element (crates/oxvg_ast/src/element.rs:58-66). *)
Definition upd (st : store) (e : nat) (l : list attr) : store :=
  fun x => if Nat.eqb x e then l else st x.

(** The order in which the visitor enters elements (crates/oxvg_ast/src/visitor.rs:312-352). *)
Fixpoint preorder (t : tree) : list nat :=
  let '(Node e k) := t in e :: (fix go l := match l with [] => [] | x :: l => preorder x ++ go l end) k.
(** The same for siblings (crates/oxvg_ast/src/visitor.rs:312-352). *)
Definition preorder_forest (f : list tree) : list nat := flat_map preorder f.

(** The breadth-first iterator's queue (crates/oxvg_ast/src/element.rs:829-850): pop the front,
    push its children at the back.  [None] when the fuel runs out. *)
Fixpoint bfs (fuel : nat) (queue : list tree) : option (list nat) :=
  match queue with
  | [] => Some []
  | t :: rest =>
      match fuel with
      | O => None
      | S fuel => match bfs fuel (rest ++ t_kids t) with Some l => Some (t_elem t :: l) | None => None end
      end
  end.
(** Number of elements: enough fuel for the iterator (crates/oxvg_ast/src/element.rs:829-850). *)
Fixpoint size (t : tree) : nat :=
  let '(Node _ k) := t in S ((fix go l := match l with [] => 0 | x :: l => size x + go l end) k).
(** The same for siblings (crates/oxvg_ast/src/element.rs:829-850). *)
Definition size_forest (f : list tree) : nat := list_sum (map size f).
(** [Element::breadth_first] (crates/oxvg_ast/src/element.rs:706): the element itself is not
    visited, only its descendants. *)
Definition breadth_first (children : list tree) : option (list nat) :=
  bfs (size_forest children) children.

(** * Percent-encoding: the external crate urlencoding 2.1.3, not part of the repository.
    [encode] keeps letters, digits and "-_.~"; [decode] turns "%XY" with two hexadecimal digits
    into a byte, keeps everything else, and fails when the bytes are not UTF-8. *)
Definition mem_text (t : text) (l : list text) : bool := existsb (text_eqb t) l.
(** A range of bytes (crate urlencoding 2.1.3; used at cleanup_ids.rs:164, 208, 333). *)
Definition in_range (lo hi c : N) : bool := ((lo <=? c) && (c <=? hi))%N.
(** Bytes that stay (crate urlencoding 2.1.3; used at cleanup_ids.rs:164, 208, 333). *)
Definition unreserved (c : N) : bool :=
  in_range 48 57 c || in_range 65 90 c || in_range 97 122 c || (c =? 45)%N || (c =? 46)%N || (c =? 95)%N || (c =? 126)%N.
(** A capital hexadecimal digit (crate urlencoding 2.1.3; used at cleanup_ids.rs:164, 208, 333). *)
Definition hex_digit (n : N) : N := if (n <? 10)%N then (48 + n)%N else (55 + n)%N.
(** One byte encoded (crate urlencoding 2.1.3; used at cleanup_ids.rs:164, 208, 333). *)
Definition encode_byte (c : N) : text :=
  if unreserved c then [c] else [37; hex_digit (c / 16); hex_digit (c mod 16)]%N.
(** [urlencoding::encode] (cleanup_ids.rs:333). *)
Definition url_encode (t : text) : text := flat_map encode_byte t.
(** Value of a hexadecimal digit (crate urlencoding 2.1.3; used at cleanup_ids.rs:164, 208, 333). *)
Definition from_hex (c : N) : option N :=
  if in_range 48 57 c then Some (c - 48)%N
  else if in_range 65 70 c then Some (c - 55)%N
  else if in_range 97 102 c then Some (c - 87)%N
  else None.
(** The bytes decoded (crate urlencoding 2.1.3; used at cleanup_ids.rs:164, 208, 333). *)
Fixpoint decode_bytes (t : text) : text :=
  match t with
  | [] => []
  | c :: rest =>
      if (c =? 37)%N
      then match rest with
           | a :: (b :: rest') as r =>
               match from_hex a, from_hex b with
               | Some x, Some y => (16 * x + y)%N :: decode_bytes rest'
               | _, _ => c :: decode_bytes rest
               end
           | _ => c :: decode_bytes rest
           end
      else c :: decode_bytes rest
  end.
(** Well-formed UTF-8 (the table of the Unicode standard, as in [String::from_utf8]). *)
Fixpoint utf8 (t : text) : bool :=
  match t with
  | [] => true
  | a :: r =>
      if (a <=? 127)%N then utf8 r
      else if in_range 194 223 a then match r with b :: r => in_range 128 191 b && utf8 r | _ => false end
      else if in_range 224 239 a then
        match r with
        | b :: c :: r => in_range (if (a =? 224)%N then 160 else 128) (if (a =? 237)%N then 159 else 191) b
                         && in_range 128 191 c && utf8 r
        | _ => false end
      else if in_range 240 244 a then
        match r with
        | b :: c :: d :: r => in_range (if (a =? 240)%N then 144 else 128) (if (a =? 244)%N then 143 else 191) b
                              && in_range 128 191 c && in_range 128 191 d && utf8 r
        | _ => false end
      else false
  end.
(** Whether decoding changes anything (crate urlencoding 2.1.3; used at cleanup_ids.rs:164, 208, 333). *)
Definition has_percent (t : text) : bool := existsb (N.eqb 37) t.
(** [urlencoding::decode] (cleanup_ids.rs:164, 208). *)
Definition url_decode (t : text) : option text :=
  if has_percent t then (let d := decode_bytes t in if utf8 d then Some d else None) else Some t.

(** * Generated ids (cleanup_ids.rs:25-29, 347-407) *)
Record gen := Gen { current : text; prevent : list text }.
(** [GeneratedId::default] (cleanup_ids.rs:400-407). *)
Definition gen_default : gen := Gen (lit "a") [].

(** The increment loop of [next] (cleanup_ids.rs:367-387), on the characters in reverse order:
    [carry] is [increment_next]; the result is the new reversed characters and the final flag. *)
Fixpoint bump (carry : bool) (rcs : text) : text * bool :=
  match rcs with
  | [] => ([], carry)
  | c :: rest =>
      let c1 := if carry then (c + 1)%N else c in
      if ((90 <? c1) && (c1 <? 97))%N
      then let '(r, k) := bump true rest in (97%N :: r, k)
      else let d := if (122 <? c1)%N then 65%N else c1 in
           let '(r, k) := bump false rest in (d :: r, k)
  end.
(** One step of [next] (cleanup_ids.rs:367-391). *)
Definition next_raw (cur : text) : text :=
  let '(r, k) := bump true (rev cur) in
  let s := rev r in
  if k then 97%N :: s else s.
(** [next] (cleanup_ids.rs:366-397): the recursion while the new id is to be avoided.  [None] when
    the fuel runs out. *)
Fixpoint next_fuel (fuel : nat) (g : gen) : option gen :=
  let n := next_raw (current g) in
  if mem_text n (prevent g)
  then match fuel with O => None | S fuel => next_fuel fuel (Gen n (prevent g)) end
  else Some (Gen n (prevent g)).
(** [next] (cleanup_ids.rs:366-397). *)
Definition next (g : gen) : option gen := next_fuel (length (prevent g)) g.

(** [set_prevent_collision], [insert_prevent_collision] (cleanup_ids.rs:347-361).
    Simplification: the [BTreeSet] is a list. *)
Definition set_prevent (g : gen) (ids : list text) : option gen :=
  let g := Gen (current g) ids in
  if mem_text (current g) (prevent g) then next g else Some g.
(** [insert_prevent_collision] (cleanup_ids.rs:355-361). *)
Definition insert_prevent (g : gen) (id : text) : option gen :=
  let g := Gen (current g) (id :: prevent g) in
  if mem_text (current g) (prevent g) then next g else Some g.

(** Sequencing of steps that may run out of fuel (Fuel of [next] (cleanup_ids.rs:366-397)). *)
Fixpoint foldM {S A} (f : S -> A -> option S) (s : S) (l : list A) : option S :=
  match l with [] => Some s | x :: l => match f s x with Some s => foldM f s l | None => None end end.

Section CleanupIds.
(** [char::is_numeric] on all characters of an id (cleanup_ids.rs:315); the Unicode table is left
    open, so everything below holds for any choice of it. *)
Variable numeric : text -> bool.

(** The options (cleanup_ids.rs:73-89). *)
Record options := Options {
  o_remove : bool; o_minify : bool; o_preserve : list text; o_prefixes : list text; o_force : bool }.
(** [preserve] and [preserve_prefixes] (cleanup_ids.rs:309-339). *)
Definition is_preserved (o : options) (id : text) : bool :=
  existsb (fun p => starts_with p id) (o_prefixes o) || mem_text id (o_preserve o).

(** ** [prepare_id_rename] (cleanup_ids.rs:300-344) *)
Record prep := Prep { replaceable : list text; preserved : list text }.
(** The closure given to [retain] (cleanup_ids.rs:309-339). *)
Definition prepare_attr (o : options) (p : prep) (a : attr) : bool * prep :=
  match as_id a with
  | None => (true, p)
  | Some id =>
      if mem_text id (replaceable p) || numeric id then (false, p)
      else if is_preserved o id then (true, Prep (replaceable p) (id :: preserved p))
      else let e := url_encode id in
           let r := if text_eqb e id then replaceable p else e :: replaceable p in
           (true, Prep (id :: r) (preserved p))
  end.
(** [retain] over the attributes (cleanup_ids.rs:309-339). *)
Fixpoint prepare_attrs (o : options) (p : prep) (l : list attr) : list attr * prep :=
  match l with
  | [] => ([], p)
  | a :: l => let '(keep, p) := prepare_attr o p a in
              let '(l, p) := prepare_attrs o p l in
              ((if keep then a :: l else l), p)
  end.
(** The same for an element (cleanup_ids.rs:300-342). *)
Definition prepare_element (o : options) (sp : store * prep) (e : nat) : store * prep :=
  let '(st, p) := sp in
  let '(l, p) := prepare_attrs o p (st e) in (upd st e l, p).

(** ** The [element] callback (cleanup_ids.rs:134-173) *)
Record rename := Rename { r_elem : nat; r_name : nat; r_id : text }.
(** [track_reference] (cleanup_ids.rs:146-156). *)
Definition track (repl : list text) (e n : nat) (s : list rename * gen) (t : text) : option (list rename * gen) :=
  let '(rs, g) := s in
  if mem_text t repl then Some (rs ++ [Rename e n t], g)
  else match insert_prevent g t with Some g => Some (rs, g) | None => None end.
(** The references the two visits report, in order (cleanup_ids.rs:160-170). *)
Definition url_refs (l : list piece) : list text :=
  flat_map (fun p => match p with
                     | Url (35%N :: f) => [match url_decode f with Some d => d | None => f end]
                     | _ => [] end) l.
(** References to ids that are not urls (cleanup_ids.rs:166-170). *)
Definition id_refs (l : list piece) : list text :=
  flat_map (fun p => match p with IdRef t => [t] | _ => [] end) l.
(** Both visits of an attribute (cleanup_ids.rs:160-170). *)
Definition track_attr (repl : list text) (e : nat) (s : list rename * gen) (a : attr) : option (list rename * gen) :=
  foldM (track repl e (aname a)) s (url_refs (apieces a) ++ id_refs (apieces a)).
(** [element] (cleanup_ids.rs:134-173). *)
Definition track_element (repl : list text) (st : store) (s : list rename * gen) (e : nat) :=
  foldM (track_attr repl e) s (st e).

(** ** [exit_document] (cleanup_ids.rs:175-276) *)
Record renaming := Renaming { minified : list (text * text); used : list text; ids : gen }.
(** [minified_ids.get] (cleanup_ids.rs:212, 240). *)
Definition lookup (t : text) (m : list (text * text)) : option text :=
  match find (fun kv => text_eqb (fst kv) t) m with Some kv => Some (snd kv) | None => None end.
(** The common part of both callbacks (cleanup_ids.rs:211-223, 239-251): the id to use, allocating
    one when the referenced id has none yet.  Simplification: re-inserting an equal entry in the
    map is dropped. *)
Definition assign (n : nat) (r : text) (s : renaming) : option (text * renaming) :=
  let s1 := match lookup r (minified s) with
            | Some m => Some (m, minified s, ids s)
            | None => match next (ids s) with
                      | Some g => Some (current (ids s), (r, current (ids s)) :: minified s, g)
                      | None => None end
            end in
  match s1 with
  | None => None
  | Some (m, mm, g) => Some (m, Renaming mm (if Nat.eqb n 0 then used s else m :: used s) g)
  end.
(** The tests at the start of both callbacks (cleanup_ids.rs:205-210, 236-238). *)
Definition hit_url (r : text) (p : piece) : bool :=
  match p with
  | Url (35%N :: f) => text_eqb f r || match url_decode f with Some d => text_eqb d r | None => false end
  | _ => false end.
(** The test for references to ids (cleanup_ids.rs:236-238). *)
Definition hit_id (r : text) (p : piece) : bool :=
  match p with IdRef t => text_eqb t r | _ => false end.
(** What is written for an url (cleanup_ids.rs:204-234). *)
Definition set_url (m : text) (p : piece) : piece := Url (35%N :: m).
(** What is written for a reference to an id (cleanup_ids.rs:235-261). *)
Definition set_id (m : text) (p : piece) : piece := IdRef m.
(** One visit over a value (cleanup_ids.rs:204-234, 235-261). *)
Fixpoint visit (minify : bool) (hit : piece -> bool) (set : text -> piece -> piece) (n : nat) (r : text)
         (l : list piece) (s : renaming) : option (list piece * renaming) :=
  match l with
  | [] => Some ([], s)
  | p :: l =>
      match (if hit p
             then match assign n r s with
                  | Some (m, s) => Some ((if minify then set m p else p), s)
                  | None => None end
             else Some (p, s)) with
      | None => None
      | Some (p, s) => match visit minify hit set n r l s with
                       | Some (l, s) => Some (p :: l, s) | None => None end
      end
  end.
(** Both visits in turn (cleanup_ids.rs:204-261). *)
Definition rename_value (minify : bool) (n : nat) (r : text) (l : list piece) (s : renaming) :=
  match visit minify (hit_url r) set_url n r l s with
  | Some (l, s) => visit minify (hit_id r) set_id n r l s
  | None => None end.
(** [get_attribute_node_mut(name)] (crates/oxvg_ast/src/element.rs:287-292): the first attribute
    with that id, rewritten in place. *)
Fixpoint rename_attrs (minify : bool) (n : nat) (r : text) (l : list attr) (s : renaming)
  : option (list attr * renaming) :=
  match l with
  | [] => Some ([], s)
  | a :: l =>
      if Nat.eqb (aname a) n
      then match rename_value minify n r (apieces a) s with
           | Some (v, s) => Some (Attr (aname a) v :: l, s) | None => None end
      else match rename_attrs minify n r l s with
           | Some (l, s) => Some (a :: l, s) | None => None end
  end.
(** One iteration of the loop over the recorded references (cleanup_ids.rs:189-262). *)
Definition rename_step (minify : bool) (repl : list text) (x : store * renaming) (r : rename)
  : option (store * renaming) :=
  let '(st, s) := x in
  if negb (mem_text (r_id r) repl) then Some (st, s)
  else match rename_attrs minify (r_name r) (r_id r) (st (r_elem r)) s with
       | Some (l, s) => Some (upd st (r_elem r) l, s)
       | None => None end.
(** The final removal (cleanup_ids.rs:264-274). *)
Definition keep_id (us pv : list text) (a : attr) : bool :=
  match as_id a with Some id => mem_text id us || mem_text id pv | None => true end.
(** The final removal for an element (cleanup_ids.rs:264-274). *)
Definition remove_ids (us pv : list text) (st : store) (e : nat) : store :=
  upd st e (filter (keep_id us pv) (st e)).

(** The whole job (cleanup_ids.rs:106-128): [ignored] is the result of [prepare_ignore_document]
    without [force] (cleanup_ids.rs:280-295), an input because it comes from CSS selection.
    The document node is given by its element children; [find_element] (cleanup_ids.rs:182,
    crates/oxvg_ast/src/element.rs:661-678) returns the first of them. *)
Definition cleanup_ids (o : options) (ignored : bool) (doc : list tree) (st : store) : option store :=
  if ignored && negb (o_force o) then Some st
  else match breadth_first doc with
  | None => None
  | Some order =>
      let '(st1, p) := fold_left (prepare_element o) order (st, Prep [] []) in
      match set_prevent gen_default (preserved p) with
      | None => None
      | Some g =>
      match foldM (track_element (replaceable p) st1) ([], g) (preorder_forest doc) with
      | None => None
      | Some (rs, g) =>
      match hd_error doc with
      | None => Some st1
      | Some root =>
          match foldM (rename_step (o_minify o) (replaceable p)) (st1, Renaming [] [] g) rs with
          | None => None
          | Some (st2, s) =>
              if o_remove o
              then match breadth_first (t_kids root) with
                   | None => None
                   | Some below => Some (fold_left (remove_ids (used s) (prevent (ids s))) below st2)
                   end
              else Some st2
          end
      end end end
  end.
End CleanupIds.

(** * [prefix_ids] (crates/oxvg_optimiser/src/jobs/prefix_ids.rs) *)
(** [PrefixGenerator] (prefix_ids.rs:23-31). *)
Inductive prefix_generator := GPrefix (t : text) | GNone | GDefault.  (** prefix_ids.rs:23-31 *)

(** The first of [Path::components] on unix (prefix_ids.rs:324-328): "/" for an absolute path,
    otherwise everything up to the first "/".  Simplification: paths are UTF-8. *)
Fixpoint before_slash (t : text) : text :=
  match t with [] => [] | c :: t => if (c =? 47)%N then [] else c :: before_slash t end.
(** [get_basename] (prefix_ids.rs:324-328). *)
Definition get_basename (path : text) : option text :=
  match path with
  | [] => None
  | c :: _ => if (c =? 47)%N then Some [47%N] else Some (before_slash path)
  end.
(** [name.replace(['.', ' '], "_")] (prefix_ids.rs:315). *)
Definition underscore (t : text) : text :=
  map (fun c => if (c =? 46)%N || (c =? 32)%N then 95%N else c) t.
(** [GeneratePrefix::generate] (prefix_ids.rs:309-321). *)
Definition generate (g : prefix_generator) (delim : text) (path : option text) : text :=
  match g with
  | GPrefix s => s ++ delim
  | GNone => []
  | GDefault => match path with
                | Some p => match get_basename p with
                            | Some n => underscore n ++ delim
                            | None => delim end
                | None => lit "prefix" ++ delim end
  end.
(** [prefix_id] (prefix_ids.rs:220-230). *)
Definition prefix_id (p id : text) : text := if starts_with p id then id else p ++ id.
(** [prefix_reference] (prefix_ids.rs:232-246). *)
Definition prefix_reference (p url : text) : text :=
  match url with
  | 35%N :: r => if starts_with p r then url else 35%N :: p ++ r
  | _ => url end.
(** The loop over one attribute (prefix_ids.rs:130-147). *)
Definition prefix_piece (ids classes : bool) (p : text) (x : piece) : piece :=
  match x with
  | IdRef t => if ids then IdRef (prefix_id p t) else x
  | ClassRef t => if classes then ClassRef (prefix_id p t) else x
  | Url u => Url (prefix_reference p u)
  | Plain _ => x
  end.
(** An attribute (prefix_ids.rs:130-147). *)
Definition prefix_attr (ids classes : bool) (p : text) (a : attr) : attr :=
  Attr (aname a) (map (prefix_piece ids classes p) (apieces a)).
(** The parts of a style sheet that the CSS visitor reaches (prefix_ids.rs:153-188). *)
Inductive css := CssId (t : text) | CssClass (t : text) | CssUrl (t : text) | CssOther (t : text).
(** The visitor of style sheets (prefix_ids.rs:153-188). *)
Definition prefix_css (ids classes : bool) (p : text) (x : css) : css :=
  match x with
  | CssId t => if ids then CssId (prefix_id p t) else x
  | CssClass t => if classes then CssClass (prefix_id p t) else x
  | CssUrl u => if ids then CssUrl (prefix_reference p u) else x
  | CssOther _ => x
  end.
(** An element with its style sheet: [None] when it is not a [style] element, [Some l] with the
    parts of its parsed style children; [Some []] stands for a [style] element with nothing in it
    ([Node::is_empty], crates/oxvg_ast/src/node.rs:449-455). *)
Record pelem := PElem { pe_attrs : list attr; pe_css : option (list css) }.
(** The [element] callback (prefix_ids.rs:116-150). *)
Definition prefix_element (ids classes : bool) (p : text) (e : pelem) : pelem :=
  match pe_css e with
  | Some [] => e
  | Some l => PElem (map (prefix_attr ids classes p) (pe_attrs e)) (Some (map (prefix_css ids classes p) l))
  | None => PElem (map (prefix_attr ids classes p) (pe_attrs e)) None
  end.
(** The job over a document's elements (prefix_ids.rs:104-114 and the visitor). *)
Definition prefix_ids (g : prefix_generator) (delim : text) (path : option text) (ids classes : bool)
           (doc : list pelem) : list pelem :=
  if negb ids && negb classes then doc
  else map (prefix_element ids classes (generate g delim path)) doc.
