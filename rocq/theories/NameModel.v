(** Model of qualified names and attribute ids: crates/oxvg_collections/src/name.rs and the
    [AttrId] part of attribute.rs. *)
From Coq Require Import String List NArith Bool Arith.
From Verif Require Import Chars.
Import ListNotations.

(** atom.rs 100-104 [Atom::cmp], i.e. [str::cmp]: UTF-8 byte order, which is code-point order. *)
Fixpoint text_cmp (a b : text) : comparison :=
  match a, b with
  | [], [] => Eq
  | [], _ :: _ => Lt
  | _ :: _, [] => Gt
  | x :: a, y :: b => match N.compare x y with Eq => text_cmp a b | c => c end
  end.
(** std [Option::cmp]: [None] is least (used at name.rs:351-356). *)
Definition option_cmp (a b : option text) : comparison :=
  match a, b with
  | None, None => Eq
  | None, Some _ => Lt
  | Some _, None => Gt
  | Some a, Some b => text_cmp a b
  end.

(** name.rs 311-335, the [define_prefix!] invocation: the well-known prefixes. *)
Inductive known : Type := SVG | HTML | XML | XMLNS | XLink | MathML.
(** name.rs 311-335, the uris. *)
Definition known_uri (k : known) : text :=
  match k with
  | SVG => lit "http://www.w3.org/2000/svg"
  | HTML => lit "http://www.w3.org/1999/xhtml"
  | XML => lit "http://www.w3.org/XML/1998/namespace"
  | XMLNS => lit "http://www.w3.org/2000/xmlns/"
  | XLink => lit "http://www.w3.org/1999/xlink"
  | MathML => lit "http://www.w3.org/1998/Math/MathML"
  end.
(** name.rs 311-335, the usual prefix names ([_name], 41-44). *)
Definition known_name (k : known) : option text :=
  match k with
  | SVG => None
  | HTML => Some (lit "html")
  | XML => Some (lit "xml")
  | XMLNS => Some (lit "xmlns")
  | XLink => Some (lit "xlink")
  | MathML => Some (lit "mathml")
  end.
(** name.rs 311-335, in order of declaration. *)
Definition all_known : list known := [SVG; HTML; XML; XMLNS; XLink; MathML].
(** name.rs, comparison of discriminants as derived pattern matching does it (name.rs:51-90, 121-140). *)
Definition known_eqb (a b : known) : bool :=
  match a, b with
  | SVG, SVG | HTML, HTML | XML, XML | XMLNS, XMLNS | XLink, XLink | MathML, MathML => true
  | _, _ => false
  end.

(** name.rs 117-128 [NS]. *)
Inductive ns : Type := NSKnown (k : known) | NSUnknown (uri : text).
(** name.rs 47-69 [Prefix]. *)
Inductive prefix : Type :=
| PKnown (k : known)
| PUnknown (name : option text) (n : ns)
| PAliased (p : prefix) (alias : option text).

(** name.rs 236-241 [NS::new]. *)
Definition ns_new (uri : text) : ns :=
  match find (fun k => text_eqb (known_uri k) uri) all_known with
  | Some k => NSKnown k
  | None => NSUnknown uri
  end.
(** name.rs 244-249 [NS::uri]. *)
Definition ns_uri (n : ns) : text := match n with NSKnown k => known_uri k | NSUnknown u => u end.
(** name.rs 252-260 [NS::eq]. *)
Definition ns_eqb (a b : ns) : bool :=
  match a, b with
  | NSKnown a, NSKnown b => known_eqb a b
  | NSUnknown a, NSUnknown b => text_eqb a b
  | _, _ => false
  end.

(** name.rs: equality of optional prefix names in the patterns of [Prefix::new] (name.rs:155-190). *)
Definition otext_eqb (a b : option text) : bool :=
  match a, b with
  | None, None => true
  | Some a, Some b => text_eqb a b
  | _, _ => false
  end.
(** name.rs 155-168 [Prefix::new]: first the arms with the usual name, then the aliases, then the
    empty uri without a name, then unknown. *)
Definition prefix_new (uri : text) (name : option text) : prefix :=
  match find (fun k => text_eqb (known_uri k) uri && otext_eqb (known_name k) name) all_known with
  | Some k => PKnown k
  | None =>
      match find (fun k => text_eqb (known_uri k) uri) all_known with
      | Some k => PAliased (PKnown k) name
      | None =>
          match uri, name with
          | [], None => PKnown SVG
          | _, _ => PUnknown name (ns_new uri)
          end
      end
  end.
(** name.rs 177-183 [Prefix::value]. *)
Definition prefix_value (p : prefix) : option text :=
  match p with
  | PKnown k => known_name k
  | PUnknown n _ => n
  | PAliased _ a => a
  end.
(** name.rs 186-192 [Prefix::ns]. *)
Fixpoint prefix_ns (p : prefix) : ns :=
  match p with
  | PKnown k => NSKnown k
  | PUnknown _ n => n
  | PAliased p _ => prefix_ns p
  end.
(** name.rs 195-202 [Prefix::is_ns]. *)
Fixpoint is_ns (p : prefix) (n : ns) : bool :=
  match p with
  | PAliased p _ => is_ns p n
  | PKnown k => match n with NSKnown k' => known_eqb k k' | _ => false end
  | PUnknown _ m => match n with NSUnknown uri => text_eqb (ns_uri m) uri | _ => false end
  end.
(** name.rs 208-210 [Prefix::is_empty]. *)
Definition prefix_is_empty (p : prefix) : bool :=
  match prefix_value p with None => true | Some _ => false end.
(** name.rs 222-231 [Prefix::unaliased] (the debug assertion is not modelled). *)
Definition prefix_unaliased (p : prefix) : prefix := match p with PAliased p _ => p | p => p end.
(** name.rs 345-349 [Prefix::eq]. *)
Definition prefix_eqb (p q : prefix) : bool := is_ns p (prefix_ns q).
(** name.rs 351-355 [Prefix::cmp]. *)
Definition prefix_cmp (p q : prefix) : comparison := option_cmp (prefix_value p) (prefix_value q).

(** What is written to a [std::hash::Hasher], as a sequence: equal sequences hash equally, and
    different sequences are told apart by a good hasher (name.rs:117, 265, 337-349). *)
Inductive hashed : Type := HTag (n : N) | HText (s : text).
(** name.rs: position of a variant, hashed by the derived implementation (name.rs:117-140). *)
Definition known_tag (k : known) : N :=
  match k with SVG => 0 | HTML => 1 | XML => 2 | XMLNS => 3 | XLink => 4 | MathML => 5 end%N.
(** name.rs 117, the derived [Hash] of [NS]. *)
Definition ns_hash (n : ns) : list hashed :=
  match n with NSKnown k => [HTag (known_tag k)] | NSUnknown u => [HTag 6; HText u] end.
(** name.rs 337-341 [Prefix::hash]. *)
Definition prefix_hash (p : prefix) : list hashed := ns_hash (prefix_ns p).

(** name.rs 264-273 [QualName]. *)
Record qual_name : Type := mkName { q_prefix : prefix; q_local : text }.
(** name.rs 265, the derived [PartialEq] of [QualName]. *)
Definition qual_name_eqb (a b : qual_name) : bool :=
  prefix_eqb (q_prefix a) (q_prefix b) && text_eqb (q_local a) (q_local b).
(** name.rs 265, the derived [Hash] of [QualName]. *)
Definition qual_name_hash (a : qual_name) : list hashed := prefix_hash (q_prefix a) ++ [HText (q_local a)].

(** attribute.rs 240-260: one of the known variants of [AttrId], by its identifier, with its
    prefix and local name ([_prefix], [_local_name]).  The variants are listed in AttrTable.v. *)
Record kind : Type := mkKind { kind_id : text; kind_prefix : known; kind_local : text }.
(** attribute.rs 245-261 [AttrId] without [Aliased]. *)
Inductive base_id : Type := BKnown (k : kind) | BUnknown (q : qual_name).
(** attribute.rs 245-261 [AttrId].  Simplification: an alias of an alias is not representable
    (the debug assertion in [unaliased], 2767-2770, excludes it; [==] panics on it). *)
Inductive attr_id : Type := ABase (b : base_id) | AAliased (p : prefix) (b : base_id).

(** attribute.rs 2762-2775 [AttrId::unaliased]. *)
Definition id_unaliased (a : attr_id) : base_id := match a with ABase b => b | AAliased _ b => b end.
(** attribute.rs 340-346 [AttrId::prefix], known and unknown variants. *)
Definition base_prefix (b : base_id) : prefix :=
  match b with BKnown k => PKnown (kind_prefix k) | BUnknown q => q_prefix q end.
(** attribute.rs 340-346 [AttrId::prefix]. *)
Definition id_prefix (a : attr_id) : prefix :=
  match a with ABase b => base_prefix b | AAliased p _ => p end.
(** attribute.rs 358-364 [AttrId::local_name], known and unknown variants. *)
Definition base_local (b : base_id) : text :=
  match b with BKnown k => kind_local k | BUnknown q => q_local q end.
(** attribute.rs 358-364 [AttrId::local_name]. *)
Definition id_local (a : attr_id) : text := base_local (id_unaliased a).
(** attribute.rs 509-519 [AttrId::eq]. *)
Definition id_eqb (a b : attr_id) : bool :=
  match id_unaliased a, id_unaliased b with
  | BKnown k, BKnown k' => text_eqb (kind_id k) (kind_id k')
  | BUnknown q, BUnknown q' => qual_name_eqb q q'
  | _, _ => false
  end.
(** attribute.rs 525-531 [AttrId::cmp]. *)
Definition id_cmp (a b : attr_id) : comparison :=
  match prefix_cmp (id_prefix a) (id_prefix b) with
  | Eq => text_cmp (id_local a) (id_local b)
  | c => c
  end.
(** attribute.rs 238, the derived [Hash] of [AttrId]: the variant, then its fields.  Variants are
    tagged by their identifier. *)
Definition base_hash (b : base_id) : list hashed :=
  match b with
  | BKnown k => [HText (kind_id k)]
  | BUnknown q => HTag 1 :: qual_name_hash q
  end.
(** attribute.rs 238, the derived [Hash] of [AttrId]. *)
Definition id_hash (a : attr_id) : list hashed :=
  match a with
  | ABase b => base_hash b
  | AAliased p b => HTag 0 :: prefix_hash p ++ base_hash b
  end.
