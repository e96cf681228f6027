(** What it means to remove elements, and which elements: raster images, elements with an id or class, style sheets. *)
From Coq Require Import String List NArith Bool.
From Verif Require Import Chars NameModel AttrTable ElemModel ElemSpec TextSpec ScriptModel ScriptSpec.
Import ListNotations.

(** [cut P l l']: [l'] is [l] without the elements that satisfy [P] and what is inside them; all else is as before. *)
Inductive cut (P : sname -> list (sname * text) -> Prop) : list src -> list src -> Prop :=
| cut_nil : cut P [] []
| cut_drop n df attrs kids l l' : P n attrs -> cut P l l' -> cut P (SEl n df attrs kids :: l) l'
| cut_keep n df attrs kids kids' l l' : ~ P n attrs -> cut P kids kids' -> cut P l l' -> cut P (SEl n df attrs kids :: l) (SEl n df attrs kids' :: l')
| cut_other l l' : cut P l l' -> cut P (SOther :: l) (SOther :: l').

Definition unique (attrs : list (sname * text)) : Prop := NoDup (map (fun a => (space (fst a), s_local (fst a))) attrs).
(** Names are bound, the default namespace is none or SVG's, and no element has an attribute twice. *)
Definition fine (d : src) : Prop := well d /\ usual d /\ forall n default attrs, within d n default attrs -> unique attrs.

(** One of the four names stands at the start, after a full stop, or after [image/]. *)
Definition marked (v : text) : Prop := exists pre ext post, v = pre ++ ext ++ post /\ In ext (map lit ["jpeg"; "jpg"; "png"; "gif"]%string) /\
  (pre = [] \/ (exists p, pre = p ++ [46%N]) \/ exists p, pre = p ++ lit "image/").
Definition raster (n : sname) (attrs : list (sname * text)) : Prop :=
  svg_named n ["image"%string] /\ exists a v, In (a, v) attrs /\ space a = xlink_space /\ s_local a = lit "href" /\ marked v.
Definition style_sheet (n : sname) (attrs : list (sname * text)) : Prop := svg_named n ["style"%string].

(** An attribute in no namespace. *)
Definition plain_named (a : sname) (l : string) : Prop := s_uri a = [] /\ s_prefix a = None /\ s_local a = lit l.
Definition has_id (attrs : list (sname * text)) (i : text) : Prop := exists a, plain_named a "id" /\ In (a, i) attrs.
Definition has_class (attrs : list (sname * text)) (c : text) : Prop := exists a v ws, plain_named a "class" /\ In (a, v) attrs /\ words_of v ws /\ In c ws.
Definition picked (ids classes : list text) (n : sname) (attrs : list (sname * text)) : Prop :=
  (exists i, In i ids /\ has_id attrs i) \/ exists c, In c classes /\ has_class attrs c.
(** Values as they are usually written: an id without white space, classes separated by single spaces and not beginning with quotes; no attribute has the
    namespace of SVG by a prefix. *)
Definition word (t : text) : Prop := t <> [] /\ Forall (fun c => is_whitespace c = false) t.
Definition unquoted (t : text) : Prop := hd_error t <> Some 34%N /\ hd_error t <> Some 39%N.
Definition spaced (ws : list text) : text := match ws with [] => [] | w :: ws => w ++ flat_map (fun w => 32%N :: w) ws end.
Definition tidy (d : src) : Prop := forall n default attrs a v, within d n default attrs -> In (a, v) attrs ->
  (s_local a = lit "id" -> word v) /\ (s_local a = lit "class" -> exists ws, v = spaced ws /\ Forall (fun w => word w /\ unquoted w) ws) /\ (space a = svg_space -> s_uri a = [] /\ s_prefix a = None).

(** Independently of how the job looks for them: a file name with the extension of a raster or of a vector format, in any case. *)
Definition raster_file (v : text) : Prop := exists stem ext, map lower v = stem ++ 46%N :: ext /\ In ext (map lit ["png"; "jpg"; "jpeg"; "gif"; "webp"]%string).
Definition vector_file (v : text) : Prop := exists stem, v = stem ++ lit ".svg".
(** The picture an element [image] shows; a plain reference comes before one of xlink. *)
Definition shows_file (n : sname) (attrs : list (sname * text)) (v : text) : Prop := svg_named n ["image"%string] /\
  exists a, In (a, v) attrs /\ s_local a = lit "href" /\ ((s_uri a = [] /\ s_prefix a = None) \/ (space a = xlink_space /\ ~ exists b w, In (b, w) attrs /\ plain_named b "href")).
