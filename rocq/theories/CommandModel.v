(** Model of how the list of actions of a command line is read and of which actions are described (crates/oxvg/src/commands/action.rs:184-367). *)
From Coq Require Import String List NArith Bool.
From Verif Require Import Chars ParseModel ClockModel.
Import ListNotations.

(** [oxvg_actions::Action] (crates/oxvg_actions/src/actions.rs:41-86). *)
Inductive action :=
| Attr (name value : text) | Class (name : text) | PathIntersect | PathUnion | PathSubtract | PathXor | Style (property value : text)
| Matrix (a b c d e f : dec) | Translate (x : dec) (y : option dec) | Scale (x : dec) (y : option dec) | Rotate (angle : dec) (origin : option (dec * dec))
| SkewX (angle : dec) | SkewY (angle : dec) | Insert (name : text) | Forget | Select (query : text) | SelectMore (query : text) | Deselect.
(** What comes of reading: a value, an error that is printed, or a panic (action.rs:284). *)
Inductive result (A : Type) : Type := Done (a : A) | Bad | Crash.
Arguments Done {A} a. Arguments Bad {A}. Arguments Crash {A}.
(** [?] (action.rs:301, 322). *)
Definition and_then {A B} (r : result A) (f : A -> result B) : result B := match r with Done a => f a | Bad => Bad | Crash => Crash end.

Section Numbers.
  (** As in ClockModel (crates/oxvg_parse/src/types/number.rs:42-46). *)
  Variable finite : dec -> bool.
  Variable f32 : dec -> dec.

  (** [f32::parse_string] (crates/oxvg_parse/src/types/number.rs:42-46; lib.rs:280-287). *)
  Definition number (t : text) : out dec := parse_string (parse_f32 finite f32) t.
  (** [get_part] (action.rs:293-298). *)
  Definition get_part (parts : list text) : result (text * list text) := match parts with [] => Bad | p :: parts => Done (p, parts) end.
  (** [get_part_f32] (action.rs:299-302). *)
  Definition get_part_f32 (parts : list text) : result (dec * list text) :=
    and_then (get_part parts) (fun x => match number (fst x) with Ok d _ => Done (d, snd x) | Fail _ _ => Bad | Panic | Loop => Crash end).
  (** [get_part_f32_peek] (action.rs:303-314). *)
  Definition get_part_f32_peek (parts : list text) : result (option dec * list text) :=
    match parts with
    | [] => Done (None, [])
    | p :: rest => match number p with Ok d _ => Done (Some d, rest) | Fail _ _ => Done (None, parts) | Panic | Loop => Crash end
    end.

  (** One action after its name (action.rs:318-364). *)
  Definition parse_action (name : text) (parts : list text) : result (action * list text) :=
    let one (f : text -> action) := and_then (get_part parts) (fun x => Done (f (fst x), snd x)) in
    let two (f : text -> text -> action) := and_then (get_part parts) (fun x => and_then (get_part (snd x)) (fun y => Done (f (fst x) (fst y), snd y))) in
    let none (a : action) := Done (a, parts) in
    let num (f : dec -> action) := and_then (get_part_f32 parts) (fun x => Done (f (fst x), snd x)) in
    let num_opt (f : dec -> option dec -> action) := and_then (get_part_f32 parts) (fun x => and_then (get_part_f32_peek (snd x)) (fun y => Done (f (fst x) (fst y), snd y))) in
    if text_eqb name (lit "-attr") then two Attr
    else if text_eqb name (lit "-class") then one Class
    else if text_eqb name (lit "-path-intersect") then none PathIntersect
    else if text_eqb name (lit "-path-union") then none PathUnion
    else if text_eqb name (lit "-path-subtract") then none PathSubtract
    else if text_eqb name (lit "-path-xor") then none PathXor
    else if text_eqb name (lit "-style") then two Style
    else if text_eqb name (lit "-matrix") then
      and_then (get_part_f32 parts) (fun a => and_then (get_part_f32 (snd a)) (fun b => and_then (get_part_f32 (snd b)) (fun c =>
      and_then (get_part_f32 (snd c)) (fun d => and_then (get_part_f32 (snd d)) (fun e => and_then (get_part_f32 (snd e)) (fun f =>
      Done (Matrix (fst a) (fst b) (fst c) (fst d) (fst e) (fst f), snd f)))))))
    else if text_eqb name (lit "-translate") then num_opt Translate
    else if text_eqb name (lit "-scale") then num_opt Scale
    else if text_eqb name (lit "-rotate") then
      and_then (get_part_f32 parts) (fun a => and_then (get_part_f32_peek (snd a)) (fun x =>
        match fst x with
        | Some v => and_then (get_part_f32 (snd x)) (fun y => Done (Rotate (fst a) (Some (v, fst y)), snd y))
        | None => Done (Rotate (fst a) None, snd x)
        end))
    else if text_eqb name (lit "-skewX") then num SkewX
    else if text_eqb name (lit "-skewY") then num SkewY
    else if text_eqb name (lit "-forget") then none Forget
    else if text_eqb name (lit "-insert") || text_eqb name (lit "-create-element") then one Insert
    else if text_eqb name (lit "-select") then one Select
    else if text_eqb name (lit "-select-more") then one SelectMore
    else if text_eqb name (lit "-deselect") then none Deselect
    else Bad.
  (** [parse] (action.rs:284-367); the fuel is the number of words, and each round takes one. *)
  Fixpoint parse_actions (fuel : nat) (parts : list text) {struct fuel} : result (list action) :=
    match parts with
    | [] => Done []
    | name :: parts =>
        match fuel with
        | 0 => Crash
        | S fuel =>
            if negb (starts_with [45%N] name) then Bad
            else and_then (parse_action name parts) (fun x => and_then (parse_actions fuel (snd x)) (fun l => Done (fst x :: l)))
        end
    end.
  (** action.rs 284 [parse]. *)
  Definition parse_commands (words : list text) : result (list action) := parse_actions (List.length words) words.
End Numbers.

(** The titles that are printed and the names they are printed for (action.rs:184-260). *)
Definition sections : list (string * list string) :=
  [("Attribute", ["-attr"]); ("Class", ["-class"]); ("Path Intersect", ["-path-intersect"]); ("Path Union", ["-path-union"]); ("Path Subtract", ["-path-subtract"]); ("Path Xor", ["-path-xor"]);
   ("Style", ["-style"]); ("Matrix", ["-matrix"]); ("Translate", ["-translate"]); ("Scale", ["-scale"]); ("Rotate", ["-rotate"]); ("Skew X", ["-skewX"]); ("Skew Y", ["-skewY"]);
   ("Insert", ["-insert"; "-create-element"]); ("Forget", ["-forget"]); ("Select", ["-select"]); ("Select More", ["-select-more"]); ("Deselect", ["-deselect"])]%string.
(** [ActionList::run] (action.rs:184-262). *)
Definition describe (words : list text) : list string :=
  map fst (filter (fun s => match words with [] => true | _ => existsb (fun n => existsb (text_eqb (lit n)) words) (snd s) end) sections).
