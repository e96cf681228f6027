(** Model of the job mergePaths (crates/oxvg_optimiser/src/jobs/merge_paths.rs).

    Simplifications: numbers are rationals (SegmentModel); whether two outlines meet (crates/oxvg_path/src/paths/segment.rs, gjk_intersection.rs) is an argument; whether the
    computed style forbids merging (merge_paths.rs:135-152) is given with each child. Values of attributes are texts. *)
From Coq Require Import String List NArith QArith Qcanon Bool Arith.
From Verif Require Import Chars TextModel SegmentModel.
Import ListNotations.
Local Close Scope Q_scope.
Local Open Scope nat_scope.

(** A child element as the job sees it (merge_paths.rs:86-119). [c_key] stands for all else. *)
Record child : Type := mkChild {
  c_key : nat;
  c_path : bool;                     (** is a [path] *)
  c_empty : bool;                    (** has nothing in it *)
  c_attrs : list (text * text);      (** attributes other than [d] *)
  c_d : option (list out);           (** path data; the flags are those of [Data::Implicit] *)
  c_forbidden : bool }.              (** its computed style has markers, clips, masks or references *)
(** [get_named_item] (crates/oxvg_ast/src/attribute.rs:154-159) by name. *)
Fixpoint find_attr (n : text) (l : list (text * text)) : option text :=
  match l with [] => None | (m, v) :: l => if text_eqb m n then Some v else find_attr n l end.
(** [has_attribute!(prev_child, Id)] (merge_paths.rs:99). *)
Definition has_id (c : child) : bool := match find_attr (lit "id") (c_attrs c) with Some _ => true | None => false end.
(** [set_attribute!(prev_child, D(data))] (merge_paths.rs:91). *)
Definition set_d (d : list out) (c : child) : child :=
  mkChild (c_key c) (c_path c) (c_empty c) (c_attrs c) (Some d) (c_forbidden c).
(** merge_paths.rs:121-132: the first move becomes absolute, and an implicit command after it explicit, unless it is an absolute line. *)
Definition absolute_start (d : list out) : list out :=
  match d with
  | (false, Move true p) :: l =>
      (false, Move false p) ::
      match l with
      | (true, Line false q) :: l => (true, Line false q) :: l
      | (true, c) :: l => (false, c) :: l
      | l => l
      end
  | d => d
  end.
(** merge_paths.rs:184-191: a trailing move is dropped. *)
Fixpoint pop_move (d : list out) : list out :=
  match d with
  | [] => []
  | [(_, Move _ _)] => []
  | c :: d => c :: pop_move d
  end.
(** [len] of the attributes (merge_paths.rs:160). *)
Definition count (c : child) : nat := List.length (c_attrs c) + match c_d c with Some _ => 1 | None => 0 end.
(** merge_paths.rs:166-168. *)
Definition attr_diff (prev c : child) : bool :=
  existsb (fun a => match find_attr (fst a) (c_attrs prev) with Some v => negb (text_eqb v (snd a)) | None => true end) (c_attrs c).
(** The macro [update_previous_path] (merge_paths.rs:88-95). *)
Definition flush (c : child) (data : option (list out)) : child := match data with Some d => set_d d c | None => c end.

Section Job.
  Variable intersects : list out -> list out -> bool.
  Variable force : bool.
  (** merge_paths.rs:86-214: the loop over pairs of neighbours, with the child before and the data gathered so far; at its end the data goes to the last child. *)
  Fixpoint merge_loop (prev : child) (data : option (list out)) (l : list child) {struct l} : list child :=
    match l with
    | [] => [flush prev data]
    | c :: l =>
        if negb (c_path prev) || negb (c_empty prev) || has_id prev then flush prev data :: merge_loop c None l
        else if negb (c_path c) || negb (c_empty c) then flush prev data :: merge_loop c None l
        else match c_d c with
        | None => flush prev data :: merge_loop c None l
        | Some d =>
            let d := absolute_start d in
            let c := set_d d c in
            if c_forbidden c then flush prev data :: merge_loop c None l
            else if negb (count prev =? count c) then flush prev data :: merge_loop c None l
            else if attr_diff prev c then flush prev data :: merge_loop c None l
            else match (match data with Some x => Some x | None => c_d prev end) with
            | None => prev :: merge_loop c None l
            | Some x =>
                let x := pop_move x in
                if force || negb (intersects x d) then merge_loop c (Some (x ++ d)) l
                else (match data with Some _ => set_d x prev | None => prev end) :: merge_loop c None l
            end
        end
    end.
  (** merge_paths.rs:74-217 [element]: the child elements of an element. *)
  Definition merge (l : list child) : list child :=
    match l with
    | c :: l => merge_loop c None l
    | [] => []
    end.
End Job.
