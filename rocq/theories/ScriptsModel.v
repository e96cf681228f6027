(** Model of the job removeScripts (crates/oxvg_optimiser/src/jobs/remove_scripts.rs). *)
From Coq Require Import String List NArith Bool.
From Verif Require Import Chars NameModel AttrTable ElemModel DomModel WalkModel NodeModel TextModel.
Import ListNotations.

(** [attr.name().attribute_group().intersects(AttributeGroup::event())] (remove_scripts.rs:63-68). *)
Definition event_attr (a : attr_id * text) : bool := intersects (id_groups (fst a)) g_event.
(** The closure at remove_scripts.rs:82-87.  The value of both attributes is kept as written
    ([Url] is [Anything], crates/oxvg_collections/src/attribute/core_attrs.rs:443). *)
Definition js_attr (a : attr_id * text) : bool :=
  (attr_is (fst a) (lit "Href") || attr_is (fst a) (lit "XLinkHref")) && starts_with (lit "javascript:") (trim_start (snd a)).
(** remove_scripts.rs:52-71 [element]. *)
Definition scripts_enter (fuel : nat) (s : wstate ninfo unit) (n : nat) : option (wstate ninfo unit * bool) :=
  match w_info s n with
  | NElem e attrs =>
      if elem_is e (lit "Script") then Some (put_heap s (remove (w_heap s) n), false)
      else Some (put_info s n (NElem e (filter (fun a => negb (event_attr a)) attrs)), false)
  | _ => None
  end.
(** remove_scripts.rs:73-96 [exit_element]. *)
Definition scripts_exit (fuel : nat) (s : wstate ninfo unit) (n : nat) : option (wstate ninfo unit) :=
  match w_info s n with
  | NElem e attrs =>
      if negb (elem_is e (lit "A")) then Some s
      else if negb (existsb js_attr attrs) then Some s
      else
        match retain_children fuel (w_heap s) n (fun c => negb (is_text (w_info s c))) with
        | None => None
        | Some h => match flatten fuel h n with None => None | Some h => Some (put_heap s h) end
        end
  | _ => None
  end.
(** visitor.rs:138-224: the callbacks the job leaves at their default. *)
Definition scripts_leaf (fuel : nat) (s : wstate ninfo unit) (n : nat) : option (wstate ninfo unit) := Some s.
(** The job ([prepare], remove_scripts.rs:40-50, lets the walk go ahead when the option is set). *)
Definition remove_scripts (enabled : bool) (fuel : nat) (s : wstate ninfo unit) (root : nat) : option (wstate ninfo unit) :=
  if enabled then visit_document ninfo unit is_elem scripts_enter scripts_exit scripts_leaf fuel s root else Some s.
