(** What it means that attributes are removed. *)
From Coq Require Import String List NArith ZArith Bool.
From Verif Require Import Chars NameModel ElemModel MatcherModel MatcherSpec.
Import ListNotations.

(** The name of an attribute as it stands in the document. *)
Definition qualified (a : attr_id) : text := match prefix_value (id_prefix a) with Some p => p ++ lit ":" ++ id_local a | None => id_local a end.
(** A list without the entries of which [P] holds. *)
Inductive without {A} (P : A -> Prop) : list A -> list A -> Prop :=
| without_nil : without P [] []
| without_drop x l m : P x -> without P l m -> without P (x :: l) m
| without_keep x l m : ~ P x -> without P l m -> without P (x :: l) (x :: m).
(** [d'] is [d], but that an attribute of the element at [p] is gone if [P p] holds of it. *)
Definition less (P : place -> attr_id * text -> Prop) (d d' : list tnode) : Prop :=
  (forall p t, node_in d' p (TText t) <-> node_in d p (TText t)) /\ (forall p, node_in d' p TNote <-> node_in d p TNote) /\
  forall p e attrs', element_at d' p e attrs' <-> exists attrs, element_at d p e attrs /\ without (P p) attrs attrs'.
(** What an item of the options asks for. *)
Definition asked_for (d : list tnode) (sel : list complex) (names : list text) (p : place) (a : attr_id * text) : Prop :=
  selects d (Some []) sel p /\ In (qualified (fst a)) names.
(** One item after another. *)
Inductive stages : list (list complex * list text) -> list tnode -> list tnode -> Prop :=
| stages_nil d : stages [] d d
| stages_cons sel names items d d1 d2 : less (asked_for d sel names) d d1 -> stages items d1 d2 -> stages ((sel, names) :: items) d d2.

(** A component asks for one of the attributes. *)
Fixpoint mentions (names : list text) (s : simple) : Prop :=
  match s with
  | SId _ => In (lit "id") names
  | SClass _ => In (lit "class") names
  | SAttr _ n _ => In n names
  | SNot c => (fix any (l : list simple) : Prop := match l with [] => False | s :: l => mentions names s \/ any l end) c
  | _ => False
  end.
(** The attributes are asked for of the element itself only, not of those around it. *)
Definition local_only (names : list text) (sel : list complex) : Prop := Forall (fun c => Forall (fun r => Forall (fun s => ~ mentions names s) (snd r)) (c_rest c)) sel.
(** No attribute has a prefix other than the usual one of its namespace. *)
Definition usual_prefixes (d : list tnode) : Prop := forall a v, attr_somewhere d a v -> match a with ABase _ => True | AAliased _ _ => False end.
