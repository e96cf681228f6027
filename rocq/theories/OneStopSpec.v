(** How paints look (SVG 2, 13.2 and 14.2). *)
From Coq Require Import List Bool Arith.
From Verif Require Import OneStopModel.
Import ListNotations.

(** Nothing, one colour with an opacity in percent, or a gradient. *)
Inductive rendered : Type := Nothing | Solid (c o : nat) | Ramp (l : list (nat * nat)) (geometry : option nat).
(** The element that a gradient takes stops and attributes from: [href] has precedence. *)
Definition template (d : list element) (e : element) : option element :=
  match (match href e with Some r => Some r | None => xlink e end) with
  | Some (Local i) => lookup i d
  | _ => None
  end.
(** Stops, and the other attributes, are those of the gradient or else of its template; [n] bounds the length of the chain. *)
Fixpoint all_stops (n : nat) (d : list element) (e : element) : list stop :=
  match n with
  | 0 => []
  | S n => match gradient e with
           | None => []
           | Some [] => match template d e with Some t => all_stops n d t | None => [] end
           | Some l => l
           end
  end.
Fixpoint all_geometry (n : nat) (d : list element) (e : element) : option nat :=
  match n with
  | 0 => None
  | S n => match gradient e with
           | None => None
           | Some _ => match geometry e with
                       | Some g => Some g
                       | None => match template d e with Some t => all_geometry n d t | None => None end
                       end
           end
  end.
(** The colour of a stop: black by default. *)
Definition resolve (current : nat) (c : color) : nat := match c with Rgb n => n | CurrentColor => current end.
Definition used_color (s : stop) : nat :=
  match decl s with
  | Unset => 0
  | Inherit => inherited s
  | Fixed c => resolve (own s) c
  | Dynamic n => n
  end.
Definition ramp (l : list stop) (g : option nat) : rendered :=
  match l with
  | [] => Nothing
  | [s] => Solid (used_color s) (opacity s)
  | _ => Ramp (map (fun s => (used_color s, opacity s)) l) g
  end.
(** [current] is the property [color] of the element that is painted. *)
Definition look (n : nat) (d : list element) (current : nat) (p : paint) : rendered :=
  match p with
  | NoPaint => Nothing
  | Color c => Solid (resolve current c) 100
  | Url i f =>
      let otherwise := match f with Some c => Solid (resolve current c) 100 | None => Nothing end in
      match lookup i d with
      | Some e => match gradient e with Some _ => ramp (all_stops n d e) (all_geometry n d e) | None => otherwise end
      | None => otherwise
      end
  end.
Definition paints (e : element) : list paint := attrs e ++ styles e ++ css e.
Definition looks (n : nat) (d : list element) (e : element) : list rendered := map (look n d (color_of e)) (paints e).

(** A gradient with one stop, of its own or of its template. *)
Definition one_stop (d : list element) (e : element) : Prop := exists s, all_stops 2 d e = [s].
(** Documents that are converted right. *)
Record sound (d : list element) : Prop := {
  uids : NoDup (map uid d);
  ids : forall e f i, In e d -> In f d -> id e = Some i -> id f = Some i -> e = f;
  (** [href] and [xlink:href] do not differ *)
  hrefs : forall e a b, In e d -> href e = Some a -> xlink e = Some b -> a = b;
  (** templates exist *)
  present : forall e r i, In e d -> gradient e = Some [] -> href e = Some r \/ xlink e = Some r -> r = Local i -> lookup i d <> None;
  (** the one stop has a colour that is written out, and is opaque *)
  plain : forall e s, In e d -> all_stops 2 d e = [s] -> opacity s = 100 /\ exists n, decl s = Fixed (Rgb n);
  (** what has more stops does not refer to what has one *)
  templates : forall e t, In e d -> gradient e <> None -> template d e = Some t -> one_stop d t -> one_stop d e;
  (** style elements do not refer to what has one stop *)
  sheets : forall e i f g, In e d -> In (Url i f) (css e) -> lookup i d = Some g -> ~ one_stop d g }.
