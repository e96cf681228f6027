(** What removal of hidden elements may take out. *)
From Coq Require Import String List NArith Bool Arith.
From Verif Require Import Chars HiddenModel.
Import ListNotations.

(** Nodes of a tree with their ancestors, nearest first. *)
Inductive deep : list tree -> tree -> list tree -> tree -> Prop :=
| deep_self : forall anc t, deep anc t anc t
| deep_kid : forall anc n e kids k anc' t, In k kids -> deep (Elem n e kids :: anc) k anc' t -> deep anc (Elem n e kids) anc' t.
(** Nodes of a document. *)
Definition at_ (doc : list tree) (anc : list tree) (t : tree) : Prop := exists r, In r doc /\ deep [] r anc t.
(** Numbers tell nodes apart. *)
Definition unique (doc : list tree) : Prop := forall a t b u, at_ doc a t -> at_ doc b u -> num t = num u -> a = b /\ t = u.
Fixpoint numbers (t : tree) : list nat :=
  match t with Elem n _ kids => n :: (fix go (l : list tree) : list nat := match l with [] => [] | k :: l => numbers k ++ go l end) kids | Node n _ => [n] end.
Definition all_numbers (doc : list tree) : list nat := flat_map numbers doc.
(** A node is in the document that is left: neither it nor an ancestor is gone. *)
Definition left_in (g : list nat) (anc : list tree) (t : tree) : Prop := forall a, In a (t :: anc) -> ~ In (num a) g.
(** Nodes in what is left of a tree, and those properly below. *)
Inductive within (g : list nat) (t : tree) : tree -> Prop :=
| within_self : within g t t
| within_kid : forall u k, within g t u -> In k (kids_of u) -> ~ In (num k) g -> within g t k.
Definition properly (g : list nat) (t : tree) (u : tree) : Prop := exists k, In k (kids_of t) /\ ~ In (num k) g /\ within g k u.
(** Nothing but blank text is left in it. *)
Definition bare (g : list nat) (t : tree) : Prop := forall k, In k (kids_of t) -> In (num k) g \/ exists n, k = Node n true.
(** What a use refers to: its href without the first character. *)
Definition refers (u : tree) (i : text) : Prop := exists n e kids c, u = Elem n e kids /\ e_kind e = KUse /\ In (c :: i) (e_hrefs e).
(** An href that starts with a character of one byte. *)
Definition ascii_start (h : text) : Prop := exists c i, h = c :: i /\ (c < 128)%N.
Definition no_cover (t : tree) : Prop := forall n e kids, t = Elem n e kids -> non_rendering (e_kind e) = false /\ e_kind e <> KPath.

Section Spec.
  Variable style_of : list tree -> option style.
  Variable o : options.
  Variable doc : list tree.
  (** A use that is left, outside of non-rendering elements and paths. *)
  Definition used (g : list nat) (i : text) : Prop := exists anc u, at_ doc anc u /\ left_in g anc u /\ Forall no_cover anc /\ refers u i.
  (** A shape without extent. *)
  Inductive void (g : list nat) (t : tree) (st : style) : elem -> Prop :=
  | void_circle : forall e, o_circle o = true -> e_kind e = KCircle -> e_r0 e = true -> bare g t -> void g t st e
  | void_ellipse : forall e, e_kind e = KEllipse -> (o_rx o = true /\ e_rx0 e = true \/ o_ry o = true /\ e_ry0 e = true) -> void g t st e
  | void_rect : forall e, e_kind e = KRect -> bare g t -> (o_rect_w o = true /\ e_w0 e = true \/ o_rect_h o = true /\ e_h0 e = true) -> void g t st e
  | void_pattern : forall e, e_kind e = KPattern -> (o_pattern_w o = true /\ e_w0 e = true \/ o_pattern_h o = true /\ e_h0 e = true) -> void g t st e
  | void_image : forall e, e_kind e = KImage -> (o_image_w o = true /\ e_w0 e = true \/ o_image_h o = true /\ e_h0 e = true) -> void g t st e
  | void_path : forall e, o_path o = true -> e_kind e = KPath -> (e_d e = None \/ e_d e = Some 0 \/ (e_d e = Some 1 /\ s_markers st = false)) -> void g t st e
  | void_polyline : forall e, o_polyline o = true -> e_kind e = KPolyline -> e_points e = false -> void g t st e
  | void_polygon : forall e, o_polygon o = true -> e_kind e = KPolygon -> e_points e = false -> void g t st e.
  (** An element that is not seen: transparent; hidden, with nothing visible in it, or not displayed, and nothing in it is used; without extent. [ch] is what its style comes from. *)
  Inductive unseen (g : list nat) (ch : list tree) : tree -> Prop :=
  | unseen_transparent : forall n e kids st, style_of ch = Some st -> o_opacity o = true -> s_opacity0 st = true ->
      non_rendering (e_kind e) = false -> e_kind e <> KPath -> unseen g ch (Elem n e kids)
  | unseen_hidden : forall n e kids st, style_of ch = Some st ->
      (o_hidden o = true /\ s_hidden st = true /\ (forall m f l, properly g (Elem n e kids) (Elem m f l) -> e_visible f = false) \/
       o_display o = true /\ s_none st = true /\ e_kind e <> KMarker) ->
      (forall u i, within g (Elem n e kids) u -> name_of u = Some i -> ~ used g i) -> unseen g ch (Elem n e kids)
  | unseen_void : forall n e kids st, style_of ch = Some st -> void g (Elem n e kids) st e -> unseen g ch (Elem n e kids).
  (** An element with a style that hides it, with an id that some use refers to: what is below is not looked at. *)
  Definition shielded (l : list tree) : Prop :=
    exists t anc st i, l = t :: anc /\ style_of l = Some st /\ (s_hidden st = true \/ s_none st = true) /\ name_of t = Some i /\ exists a u, at_ doc a u /\ refers u i.
  Fixpoint in_the_open (anc : list tree) : Prop := match anc with [] => True | _ :: rest => ~ shielded anc /\ in_the_open rest end.
  (** An id that what is left refers to, not below a shielded element. *)
  Definition referenced (g : list nat) (i : text) : Prop :=
    exists anc n e kids, at_ doc anc (Elem n e kids) /\ left_in g anc (Elem n e kids) /\ in_the_open anc /\ In i (e_refs e).

  Variable deoptimized : bool.
  (** Why a node with all its ancestors left is gone. *)
  Inductive why (g : list nat) (anc : list tree) : tree -> Prop :=
  | why_unseen : forall t, unseen g (t :: anc) t -> why g anc t
  | why_last : forall t c, is_kind t KDefs = true -> In c (kids_of t) -> unseen g (c :: t :: anc) c ->
      (forall k, In k (kids_of t) -> is_elem k = true -> k = c \/ In (num k) g) -> why g anc t
  | why_use : forall t i p rest x j, refers t i -> at_ doc (p :: rest) x -> is_kind p KDefs = true -> name_of x = Some i ->
      unseen g (firstn (S j) (x :: p :: rest)) x -> why g anc t
  | why_unreferenced : forall n e kids, deoptimized = false ->
      (non_rendering (e_kind e) = true \/ e_kind e = KPath /\ o_opacity o = true /\ exists j st, style_of (firstn (S j) (Elem n e kids :: anc)) = Some st /\ s_opacity0 st = true) ->
      (forall u i, within g (Elem n e kids) u -> name_of u = Some i -> ~ referenced g i) -> why g anc (Elem n e kids)
  | why_empty : forall t, is_kind t KDefs = true -> bare g t -> why g anc t.
End Spec.
