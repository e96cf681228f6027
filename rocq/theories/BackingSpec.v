(** What it means to clean up the backgrounds of elements. *)
From Coq Require Import String List NArith QArith Bool.
From Verif Require Import Chars ViewModel BackingModel BareSpec.
Import ListNotations.

(** Two trees of the same shape with related elements. *)
Inductive alike (R : belem -> belem -> Prop) : btree -> btree -> Prop :=
| alike_node e e' kids kids' : R e e' -> Forall2 (alike R) kids kids' -> alike R (BNode e kids) (BNode e' kids').
(** The elements of a tree. *)
Inductive element_of : btree -> belem -> Prop :=
| of_here e kids : element_of (BNode e kids) e
| of_below e kids t x : In t kids -> element_of t x -> element_of (BNode e kids) x.
(** There is a filter below the root. *)
Definition has_filter (t : btree) : Prop := exists e kids k x, t = BNode e kids /\ In k kids /\ element_of k x /\ b_kind x = BFilter.
(** A declaration [enable-background: new ...]. *)
Definition declares_new (d : decl) : Prop := exists tokens, d = DCustom (lit "enable-background") (TIdent (lit "new") :: tokens).
(** The style without such declarations; no style at all if there is nothing left. *)
Inductive style_without : option bstyle -> option bstyle -> Prop :=
| style_none : style_without None None
| style_text n : style_without (Some (BText n)) (Some (BText n))
| style_gone i n : without declares_new i [] -> without declares_new n [] -> style_without (Some (BStyle i n)) None
| style_left i n i' n' : without declares_new i i' -> without declares_new n n' -> i' <> [] \/ n' <> [] -> style_without (Some (BStyle i n)) (Some (BStyle i' n')).
(** What the job does not touch. *)
Definition same_rest (e e' : belem) : Prop := b_kind e' = b_kind e /\ b_width e' = b_width e /\ b_height e' = b_height e /\ b_rest e' = b_rest e.
(** The area that the element asks for is as wide and as high as the element. *)
Definition sized (e : belem) : Prop := exists x y w h lw lh pw ph, b_back e = Some (BDefined (BNew (Some (x, y, w, h)))) /\ b_width e = Some lw /\ b_height e = Some lh /\
  to_px lw = Some pw /\ to_px lh = Some ph /\ (pw == w)%Q /\ (ph == h)%Q.
(** The background without a filter in the document, and with one. *)
Definition without_filter (e e' : belem) : Prop := same_rest e e' /\ style_without (b_style e) (b_style e') /\ b_back e' = None.
Definition with_filter (e e' : belem) : Prop := same_rest e e' /\ style_without (b_style e) (b_style e') /\
  (sized e -> b_kind e = BSvg -> b_back e' = None) /\
  (sized e -> b_kind e = BMask \/ b_kind e = BPattern -> b_back e' = Some (BDefined (BNew None))) /\
  (~ sized e \/ ~ In (b_kind e) [BSvg; BMask; BPattern] -> b_back e' = b_back e).

(** The background that an element sets up: a declaration decides over the attribute, an important one over others, a later over an earlier.
    [inl tokens]: by a declaration; [inr a]: by the attribute. *)
Definition background_decl (d : decl) : option (list token) := match d with DCustom n v => if text_eqb n (lit "enable-background") then Some v else None | DKnown _ => None end.
Definition last_decl (l : list decl) : option (list token) := fold_left (fun acc d => match background_decl d with Some v => Some v | None => acc end) l None.
Definition background (e : belem) : option (list token + battr) :=
  match match b_style e with Some (BStyle i n) => match last_decl i with Some v => Some v | None => last_decl n end | _ => None end with
  | Some v => Some (inl v)
  | None => match b_back e with Some a => Some (inr a) | None => None end
  end.
(** The canvas that the attribute asks for begins where the element begins. *)
Definition at_origin (e : belem) : Prop := forall x y w h, b_back e = Some (BDefined (BNew (Some (x, y, w, h)))) -> (x == 0)%Q /\ (y == 0)%Q.
(** The effect of an element on the backgrounds that filters see is the same: the same background, or one that covers exactly the element, which is what an svg has anyway
    and what [new] means for a mask or a pattern. *)
Definition covers (e : belem) : Prop := sized e /\ at_origin e.
Definition same_effect (e e' : belem) : Prop := background e' = background e \/
  (covers e /\ b_kind e = BSvg /\ (exists a, background e = Some (inr a)) /\ background e' = None) \/
  (covers e /\ (b_kind e = BMask \/ b_kind e = BPattern) /\ (exists a, background e = Some (inr a)) /\ background e' = Some (inr (BDefined (BNew None)))).
(** No declaration in a style asks for a new background. *)
Definition attributes_only (e : belem) : Prop := forall i n, b_style e = Some (BStyle i n) -> Forall (fun d => ~ declares_new d) (i ++ n).
Definition root_of (t : btree) : belem := match t with BNode e _ => e end.
