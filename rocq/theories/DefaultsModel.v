(** Model of the removal of presentation attributes that have their default or inherited value: crates/oxvg_optimiser/src/jobs/remove_unknowns_and_defaults.rs,
    over whole documents, with the computed styles of CascadeModel.v.

    Simplifications: only presentation attributes are seen, under the names of CascadeModel.v, and all are permitted where they are (C66); the tables are arguments (C67 has them). *)
From Coq Require Import List Bool Arith.
From Verif Require Import Chars CascadeModel.
Import ListNotations.

(** A document: an element, whether it has an [id], and its children (remove_unknowns_and_defaults.rs:145-163). *)
Inductive tree : Type := Node (e : elem) (has_id : bool) (kids : list tree).

Section Job.
  Variable select : text -> elem -> option bool.
  (** [AttributeInfo::Inheritable] and [PresentationNonInheritableGroupAttrs], the [Inheritable] types and [AttrId::default] (crates/oxvg_collections/src/attribute.rs). *)
  Variable inheritable non_group inh_type : prop -> bool.
  Variable default : prop -> option value.
  (** remove_unknowns_and_defaults.rs:57-69: [default_attrs], [useless_overrides]. *)
  Variable default_attrs useless_overrides : bool.

  (** remove_unknowns_and_defaults.rs:230-268: whether a presentation attribute stays. *)
  Definition retain (has_id : bool) (inherited_styles : styles) (a : prop * value) : bool :=
    let (p, v) := a in
    let inherited_value := if inh_type p then get inheritable inherited_styles p else None in
    if default_attrs && negb has_id && match inherited_value with None => true | Some _ => false end
       && match default p with Some d => Nat.eqb d v | None => false end then false
    else if useless_overrides && negb has_id && negb (non_group p)
       && match inherited_value with Some (w, Static) => Nat.eqb w v | _ => false end then false
    else true.
  (** crates/oxvg_ast/src/style.rs:203-254 [with_inherited] on [default()]: what the ancestors, nearest first, hand down. *)
  Definition with_inherited (sheets : list rule) (ancestors : list elem) : option styles :=
    match ancestors with
    | [] => Some no_styles
    | _ => match with_all select sheets ancestors with Some parent => Some (inherit_from parent no_styles) | None => None end
    end.
  (** remove_unknowns_and_defaults.rs:145-166 for an element and then those in it; the ancestors have been dealt with. [None]: the job ends in an error. *)
  Fixpoint clean (sheets : list rule) (ancestors : list elem) (t : tree) : option tree :=
    match t with
    | Node e has_id kids =>
        match with_inherited sheets ancestors with
        | None => None
        | Some inherited_styles =>
            let e' := mkElem (e_id e) (filter (retain has_id inherited_styles) (e_attrs e)) (e_style e) in
            match (fix go (l : list tree) : option (list tree) :=
                     match l with
                     | [] => Some []
                     | k :: l => match clean sheets (e' :: ancestors) k with
                                 | None => None
                                 | Some k' => match go l with Some l' => Some (k' :: l') | None => None end
                                 end
                     end) kids with
            | Some kids' => Some (Node e' has_id kids')
            | None => None
            end
        end
    end.
End Job.
