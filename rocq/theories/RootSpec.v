(** What it means to add attributes and classes to an element. *)
From Coq Require Import String List NArith Bool.
From Verif Require Import Chars NameModel ElemModel PruneModel PruneSpec BareSpec.
Import ListNotations.

(** An attribute as it is read from a document: its namespace has the usual prefix, or none of the known ones; without a prefix it is SVG's. *)
Definition usual_prefix (p : prefix) : Prop := match p with PKnown _ => True | PUnknown (Some _) (NSUnknown _) => True | _ => False end.
Definition read_for (e : elem_id) (a : attr_id) : Prop := exists p n, a = parse_attr_id e p n /\ usual_prefix p.
(** The default namespace, if it is declared, is SVG's. *)
Definition svg_default (attrs : list (attr_id * text)) : Prop := forall k v, In (ABase (BKnown k), v) attrs -> kind_id k = lit "XMLNS" -> v = known_uri SVG.
(** The pairs of which the name is not there yet. *)
Definition missing (attrs : list (attr_id * text)) (pair : text * text) : bool := negb (existsb (fun a => text_eqb (qualified (fst a)) (fst pair)) attrs).
Definition no_colon (t : text) : Prop := ~ In 58%N t.
Definition known_as (id : string) (a : attr_id) : Prop := exists k, id_unaliased a = BKnown k /\ kind_id k = lit id.
Definition is_svg (e : elem_id) : Prop := elem_is e (lit "Svg") = true.
(** An element is of a class. *)
Definition class_of (attrs : list (attr_id * text)) (c : text) : Prop := exists a v l, In (a, v) attrs /\ qualified a = lit "class" /\ class_value v = Some l /\ In c l.
