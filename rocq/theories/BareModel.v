(** Model of removeAttributesBySelector: crates/oxvg_optimiser/src/jobs/remove_attributes_by_selector.rs, on the selectors of MatcherModel. *)
From Coq Require Import String List NArith ZArith Bool.
From Verif Require Import Chars NameModel ElemModel MatcherModel.
Import ListNotations.

(** crates/oxvg_collections/src/attribute.rs 2777-2784: the text of a name, of one that is not an alias. *)
Definition name_text (b : base_id) : text :=
  match prefix_value (base_prefix b) with Some p => p ++ 58%N :: base_local b | None => base_local b end.
(** remove_attributes_by_selector.rs 58: [attr.name()] is the name behind an alias (crates/oxvg_collections/src/attribute.rs:435-442). *)
Definition stays (names : list text) (a : attr_id * text) : bool := negb (existsb (text_eqb (name_text (id_unaliased (fst a)))) names).
(** remove_attributes_by_selector.rs 56-58: [retain] on the element at one place ([here]); the other elements are as they were. *)
Fixpoint strip_node (here : place -> bool) (names : list text) (p : place) (n : tnode) : tnode :=
  match n with
  | TElem e a k => TElem e (if here p then filter (stays names) a else a)
      ((fix go (i : nat) (l : list tnode) : list tnode := match l with [] => [] | n :: l => strip_node here names (i :: p) n :: go (S i) l end) 0 k)
  | n => n
  end.
(** remove_attributes_by_selector.rs 56-58, in a list of children. *)
Fixpoint strip_list (here : place -> bool) (names : list text) (p : place) (i : nat) (l : list tnode) : list tnode :=
  match l with [] => [] | n :: l => strip_node here names (i :: p) n :: strip_list here names p (S i) l end.
(** remove_attributes_by_selector.rs 56-58, in a document. *)
Definition strip_at (d : list tnode) (names : list text) (p : place) : list tnode := strip_list (place_eqb p) names [] 0 d.

Section Job.
  Variable show : attr_id -> text -> option text.
  Variable opaque : place -> N.
  Variable scope_at : N.
  (** remove_attributes_by_selector.rs 55-59: elements are matched one at a time, in the document as it has become.  The walk only looks at children
      (crates/oxvg_ast/src/element.rs:842-848), which stay the same, so that it is given from the start. *)
  Fixpoint strip_loop (sel : list complex) (names : list text) (l : list place) (d : list tnode) (cs : caches) : list tnode :=
    match l with
    | [] => d
    | p :: l => let (b, cs) := eval_list d show opaque (Some scope_at) sel p cs in
        if b then strip_loop sel names l (strip_at d names p) cs else strip_loop sel names l d cs
    end.
  (** remove_attributes_by_selector.rs 51-62 [document]; the flag tells whether the job failed (54). *)
  Fixpoint run (items : list (list complex * list text)) (d : list tnode) : list tnode * bool :=
    match items with
    | [] => (d, false)
    | (sel, names) :: items => if readable_list sel then run items (strip_loop sel names (breadth_first d []) d no_caches) else (d, true)
    end.
End Job.
