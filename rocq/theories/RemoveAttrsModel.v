(** removeAttrs: attributes that match a pattern go (crates/oxvg_optimiser/src/jobs/remove_attrs.rs). *)
From Coq Require Import String List NArith Bool.
From Verif Require Import Chars.
Import ListNotations.

(** Regular expressions, as far as they are modelled (utils/regex_memo.rs:28-34; those of the regex crate). *)
Inductive re : Type := Empty | Blank | Chr (c : N) | Dot | Cat (a b : re) | Alt (a b : re) | Star (a : re).
(** Whether the empty string matches (regex crate, remove_attrs.rs:144, 161, 171). *)
Fixpoint nullable (r : re) : bool :=
  match r with
  | Empty | Chr _ | Dot => false
  | Blank | Star _ => true
  | Cat a b => nullable a && nullable b
  | Alt a b => nullable a || nullable b
  end.
(** What is to follow after a character (regex crate, remove_attrs.rs:144, 161, 171). *)
Fixpoint deriv (c : N) (r : re) : re :=
  match r with
  | Empty | Blank => Empty
  | Chr d => if N.eqb c d then Blank else Empty
  | Dot => if N.eqb c 10 then Empty else Blank
  | Cat a b => if nullable a then Alt (Cat (deriv c a) b) (deriv c b) else Cat (deriv c a) b
  | Alt a b => Alt (deriv c a) (deriv c b)
  | Star a => Cat (deriv c a) (Star a)
  end.
(** All of a string matches (regex crate, remove_attrs.rs:144, 161, 171). *)
Fixpoint full (r : re) (t : text) : bool := match t with [] => nullable r | c :: s => full (deriv c r) s end.
(** Some beginning of a string matches (regex crate, remove_attrs.rs:144, 161, 171). *)
Fixpoint leading (r : re) (t : text) : bool := nullable r || match t with [] => false | c :: s => leading (deriv c r) s end.
(** A predicate holds of some end of a string (regex crate, remove_attrs.rs:144, 161, 171). *)
Fixpoint somewhere (p : text -> bool) (t : text) : bool := p t || match t with [] => false | _ :: s => somewhere p s end.
(** [is_match] of the expression [^part$] (remove_attrs.rs:96): what comes before [|] has the first anchor, what comes after it the last. *)
Definition is_match (alternatives : list re) (t : text) : bool :=
  match alternatives with
  | [] => false
  | [r] => full r t
  | r :: rest => leading r t || existsb (fun m => somewhere (leading m) t) (removelast rest) || somewhere (full (last rest Empty)) t
  end.
Section Job.
  (** The expressions that [|] separates in a part, at its top level; [None] if it cannot be read (utils/regex_memo.rs:28-34). *)
  Variable compile : text -> option (list re).
  (** remove_attrs.rs:91-98 [create_regex]; the inner [None] is a part that matches all. *)
  Definition create_regex (part : text) : option (option (list re)) :=
    if text_eqb part (lit "*") || text_eqb part (lit ".*") then Some None
    else match compile part with Some l => Some (Some l) | None => None end.
  (** [split_once] (remove_attrs.rs:105-106). *)
  Fixpoint split_once (separator t : text) : option (text * text) :=
    match strip_prefix separator t with
    | Some r => Some ([], r)
    | None => match t with
              | [] => None
              | c :: s => match split_once separator s with Some (a, b) => Some (c :: a, b) | None => None end
              end
    end.
  (** A pattern: expressions for the element, the attribute and the value (remove_attrs.rs:104). *)
  Definition pattern : Type := (option (list re) * option (list re) * option (list re))%type.
  (** remove_attrs.rs:101-125 [parse_pattern]. *)
  Definition parse_pattern (separator p : text) : option pattern :=
    match split_once separator p with
    | Some (first, rest) =>
        match split_once separator rest with
        | Some (middle, last) => match create_regex first, create_regex middle, create_regex last with Some a, Some b, Some c => Some (a, b, c) | _, _, _ => None end
        | None => match create_regex first, create_regex rest with Some a, Some b => Some (a, b, None) | _, _ => None end
        end
    | None => match create_regex p with Some b => Some (None, b, None) | None => None end
    end.
  (** The type of an attribute, as far as it is asked for: paints, like [fill], and colours, like [stop-color]; the value as it is printed; and whether
      that is [currentColor] (remove_attrs.rs:150-155, attribute.rs:2317-2503, crates/oxvg_collections/src). *)
  Inductive kind : Type := PaintKind | ColorKind | OtherKind.
  (** See [kind] (remove_attrs.rs:149-171). *)
  Record attr : Type := mkAttr { a_name : text; a_kind : kind; a_value : text; a_current : bool }.
  (** An expression that is not there matches all (remove_attrs.rs:142-144, 161, 171). *)
  Definition none_or (p : option (list re)) (t : text) : bool := match p with None => true | Some l => is_match l t end.
  (** remove_attrs.rs:149-172: whether an attribute stays. *)
  Definition stays (preserve : bool) (p : pattern) (a : attr) : bool :=
    let '(_, n, v) := p in
    if preserve && match a_kind a with PaintKind => a_current a | _ => false end then true
    else if negb (none_or v (a_value a)) then true
    else negb (none_or n (a_name a)).
  (** remove_attrs.rs:141-173. *)
  Definition apply_pattern (preserve : bool) (name : text) (l : list attr) (p : pattern) : list attr :=
    if none_or (fst (fst p)) name then filter (stays preserve p) l else l.
  (** remove_attrs.rs:136-140. *)
  Fixpoint parse_all (separator : text) (ps : list text) : option (list pattern) :=
    match ps with
    | [] => Some []
    | p :: r => match parse_pattern separator p, parse_all separator r with Some x, Some l => Some (x :: l) | _, _ => None end
    end.
  (** remove_attrs.rs:131-176, for an element with its attributes; [None] is an error. *)
  Definition element (patterns : list text) (separator : text) (preserve : bool) (name : text) (l : list attr) : option (list attr) :=
    match parse_all separator patterns with
    | None => None
    | Some ps => Some (fold_left (apply_pattern preserve name) ps l)
    end.
End Job.
