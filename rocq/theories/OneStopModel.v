(** convertOneStopGradients: gradients with one stop become a colour
    (crates/oxvg_optimiser/src/jobs/convert_one_stop_gradients.rs). *)
From Coq Require Import List Bool Arith.
Import ListNotations.

(** A colour of a paint: one that is written out, or [currentColor] (convert_one_stop_gradients.rs:207-211). *)
Inductive color : Type := Rgb (n : nat) | CurrentColor.
(** What is known of the property [stop-color] (convert_one_stop_gradients.rs:205-218): nothing, [inherit], a colour, or a colour
    by a rule that applies under conditions, with the one that it comes to. *)
Inductive stop_color : Type := Unset | Inherit | Fixed (c : color) | Dynamic (n : nat).
(** A [stop] element (convert_one_stop_gradients.rs:138-141), with the colour that it would inherit, its property [color] and its opacity. *)
Record stop : Type := mkStop { decl : stop_color; inherited : nat; own : nat; opacity : nat }.
(** The value of a reference (convert_one_stop_gradients.rs:112-113): [#id] or another one. *)
Inductive reference : Type := Local (i : nat) | External.
(** A paint (convert_one_stop_gradients.rs:221-236): none, a colour, or [url(#id)] with what to use if there is no such element. *)
Inductive paint : Type := NoPaint | Color (c : color) | Url (i : nat) (fallback : option color).
(** An element (convert_one_stop_gradients.rs:88-164).  [uid] is its allocation; [gradient] holds the stops if it is a gradient, and
    [geometry] stands for the other attributes of a gradient.  [attrs] are the paints in presentation attributes, [styles] those in
    the style attribute, and [css] those of rules in style elements that match.  [color_of] is its property [color], [titled] says whether
    it has other attributes in the namespace of XLink, and [declares] whether it declares the prefix [xlink]. *)
Record element : Type := mkElement {
  uid : nat; id : option nat; gradient : option (list stop); geometry : option nat; xlink : option reference; href : option reference;
  attrs : list paint; styles : list paint; css : list paint; color_of : nat; titled : bool; declares : bool }.
(** What is visited (convert_one_stop_gradients.rs:88-197): elements in document order, and the end of an [svg] element. *)
Inductive item : Type := Elem (e : element) | End (svg : nat).

(** The first element with an id (convert_one_stop_gradients.rs:113-115).  Simplification: in document order. *)
Definition lookup (i : nat) (doc : list element) : option element :=
  find (fun e => match id e with Some j => Nat.eqb i j | None => false end) doc.
(** The stops of an element (convert_one_stop_gradients.rs:105-107, 138-141). *)
Definition stops (e : element) : list stop := match gradient e with Some l => l | None => [] end.
(** convert_one_stop_gradients.rs:109-129: [effective_node]. *)
Definition effective (doc : list element) (e : element) : option element :=
  match stops e with
  | [] =>
      match (match xlink e with Some r => Some r | None => href e end) with
      | Some (Local i) => lookup i doc
      | Some External | None => Some e
      end
  | _ => Some e
  end.
(** convert_one_stop_gradients.rs:196-218 [get_color].  Simplification: values that only CSS can hold are left out. *)
Definition get_color (s : stop) : option color :=
  match decl s with
  | Fixed c => Some c
  | Unset | Inherit | Dynamic _ => None
  end.
(** convert_one_stop_gradients.rs:228-235, 255-263: a paint with the reference replaced. *)
Definition substitute (i : nat) (c : color) (p : paint) : paint :=
  match p with
  | Url j _ => if Nat.eqb i j then Color c else p
  | _ => p
  end.
(** convert_one_stop_gradients.rs:221-284 [update_color_references] and [update_style_references]: attributes and style attributes. *)
Definition update (i : nat) (c : color) (e : element) : element :=
  mkElement (uid e) (id e) (gradient e) (geometry e) (xlink e) (href e) (map (substitute i c) (attrs e)) (map (substitute i c) (styles e)) (css e) (color_of e) (titled e) (declares e).

(** convert_one_stop_gradients.rs:52-60 [State], with the document; which [defs] elements become empty is left out. *)
Record state : Type := mkState { doc : list element; detach : list element; count : nat }.
(** convert_one_stop_gradients.rs:88-164 [element].  Simplification: stylesheets that make [get_color] fail are left out. *)
Definition visit (s : state) (e : element) : state :=
  let n := match xlink e with Some _ => S (count s) | None => count s end in
  match gradient e with
  | None => mkState (doc s) (detach s) n
  | Some _ =>
      match effective (doc s) e with
      | None => mkState (doc s) (detach s ++ [e]) n
      | Some node =>
          match stops node with
          | [x] =>
              match id e, get_color x with
              | Some i, Some c => mkState (map (update i c) (doc s)) (detach s ++ [e]) n
              | _, _ => mkState (doc s) (detach s ++ [e]) n
              end
          | _ => mkState (doc s) (detach s) n
          end
      end
  end.
(** convert_one_stop_gradients.rs:174-180: the count goes down for each gradient, also for one that was removed before; [None] is an
    overflow, a panic in debug builds. *)
Fixpoint decrement (l : list element) (n : nat) : option nat :=
  match l with
  | [] => Some n
  | e :: r => match xlink e with
              | Some _ => match n with S m => decrement r m | 0 => None end
              | None => decrement r n
              end
  end.
(** Whether an element is among those to remove (convert_one_stop_gradients.rs:174-180). *)
Definition detached (l : list element) (e : element) : bool := existsb (fun g => Nat.eqb (uid g) (uid e)) l.
(** convert_one_stop_gradients.rs:182-187: the declaration of the prefix is removed from the [svg] element. *)
Definition undeclare (svg : nat) (e : element) : element :=
  if Nat.eqb svg (uid e) then mkElement (uid e) (id e) (gradient e) (geometry e) (xlink e) (href e) (attrs e) (styles e) (css e) (color_of e) (titled e) false else e.
(** convert_one_stop_gradients.rs:166-197 [exit_element]; the list of gradients is not emptied. *)
Definition leave (s : state) (svg : nat) : option state :=
  match decrement (detach s) (count s) with
  | None => None
  | Some n =>
      let d := filter (fun e => negb (detached (detach s) e)) (doc s) in
      Some (mkState (if Nat.eqb n 0 then map (undeclare svg) d else d) (detach s) n)
  end.
(** The visits in order (convert_one_stop_gradients.rs:70-73). *)
Fixpoint visits (l : list item) (s : state) : option state :=
  match l with
  | [] => Some s
  | Elem e :: r => visits r (visit s e)
  | End n :: r => match leave s n with Some s => visits r s | None => None end
  end.
(** The elements of a document (convert_one_stop_gradients.rs:113). *)
Definition elements (l : list item) : list element := flat_map (fun i => match i with Elem e => [e] | End _ => [] end) l.
(** convert_one_stop_gradients.rs:63-74 [prepare], the job as a whole. *)
Definition run (l : list item) : option (list element) := option_map doc (visits l (mkState (elements l) [] 0)).
