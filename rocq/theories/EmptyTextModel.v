(** removeEmptyText: text elements without text (crates/oxvg_optimiser/src/jobs/remove_empty_text.rs). *)
From Coq Require Import String List NArith Bool.
From Verif Require Import Chars StripModel.
Import ListNotations.

(** remove_empty_text.rs:31-43: the options; [None] is the default. *)
Record options : Type := mkOptions { o_text : option bool; o_tspan : option bool; o_tref : option bool }.
(** remove_empty_text.rs:53, 57, 61: [unwrap_or(true)]. *)
Definition on (o : option bool) : bool := match o with Some b => b | None => true end.
(** [has_attribute!(element, XLinkHref)] (remove_empty_text.rs:63). *)
Definition has_href (l : list (name * text)) : bool :=
  existsb (fun a => text_eqb (n_uri (fst a)) (lit "http://www.w3.org/1999/xlink") && text_eqb (n_local (fst a)) (lit "href")) l.
(** remove_empty_text.rs:53-66: whether an element goes. *)
Definition goes (o : options) (n : node) : bool :=
  match n with
  | Elem m _ _ l k =>
      (on (o_text o) && is_svg "text" m && is_empty k) || (on (o_tspan o) && is_svg "tspan" m && is_empty k) ||
      (on (o_tref o) && is_svg "tref" m && negb (has_href l))
  | _ => false
  end.
(** remove_empty_text.rs:48-69; every element is visited before its children. *)
Definition remove_empty_text (o : options) (d : list node) : list node := without (goes o) d.
