(** convertStyleToAttrs: declarations of [style] become attributes (crates/oxvg_optimiser/src/jobs/convert_style_to_attrs.rs).
    Values are numbers. *)
From Coq Require Import String List Bool.
Import ListNotations.
Local Open Scope string_scope.

(** A declaration: its property, whether that has a vendor prefix, whether its value is one of the property rather than unparsed, such as [var(--a)] or
    [inherit], or one that cannot be converted, and the value (attribute.rs:2611-2642, crates/oxvg_collections/src). *)
Record declaration : Type := mkDecl { prop : string; vendor : bool; parsed : bool; val : nat }.
(** [DeclarationBlock] of lightningcss (convert_style_to_attrs.rs:100-109). *)
Record block : Type := mkBlock { declarations : list declaration; important : list declaration }.
(** An element: its name, its attributes but for [style], and [style] (convert_style_to_attrs.rs:69-77). *)
Record element : Type := mkElement { name : string; attrs : list (string * nat); style : option block }.
(** attribute.rs:2683-2731 (crates/oxvg_collections/src): the properties that become attributes. *)
Definition convertible : list string :=
  ["clip-path"; "clip-rule"; "color"; "color-interpolation"; "color-interpolation-filters"; "color-rendering"; "cursor"; "display"; "fill"; "fill-opacity";
   "fill-rule"; "filter"; "font"; "font-family"; "font-size"; "font-stretch"; "font-style"; "font-weight"; "image-rendering"; "letter-spacing"; "marker-end";
   "marker-mid"; "marker-start"; "marker"; "mask"; "opacity"; "overflow"; "shape-rendering"; "stroke"; "stroke-dasharray"; "stroke-dashoffset";
   "stroke-linecap"; "stroke-linejoin"; "stroke-miterlimit"; "stroke-opacity"; "stroke-width"; "text-decoration"; "text-rendering"; "transform";
   "transform-origin"; "unicode-bidi"; "visibility"; "word-spacing"].
(** attribute.rs:2614-2641 (crates/oxvg_collections/src) [try_from] and convert_style_to_attrs.rs:85-88: the attribute, if the declaration becomes one. *)
Definition to_attr (d : declaration) : option (string * nat) :=
  if parsed d && negb (vendor d) && existsb (String.eqb (prop d)) convertible then Some (prop d, val d) else None.
(** convert_style_to_attrs.rs:89-96: an attribute is added, or replaces the one of the same name in its place. *)
Fixpoint put (a : string * nat) (l : list (string * nat)) : list (string * nat) :=
  match l with
  | [] => [a]
  | b :: r => if String.eqb (fst a) (fst b) then a :: r else b :: put a r
  end.
(** convert_style_to_attrs.rs:84-98: one declaration; whether it stays, and the new attributes. *)
Definition collect (l : list (string * nat)) (d : declaration) : list (string * nat) := match to_attr d with Some a => put a l | None => l end.
(** convert_style_to_attrs.rs:85-97: what stays. *)
Definition stays (d : declaration) : bool := match to_attr d with Some _ => false | None => true end.
Section Job.
  (** Minification by lightningcss (utils/minify_style.rs:11-16), which is not modelled. *)
  Variable minify : block -> block.
  (** Whether to keep important declarations (convert_style_to_attrs.rs:53-56). *)
  Variable keep_important : bool.
  (** convert_style_to_attrs.rs:69-120; [put] is [set_named_item] as well (attribute.rs:222-233, crates/oxvg_ast/src). *)
  Definition job (e : element) : element :=
    match style e with
    | None => e
    | Some b =>
        let b := minify b in
        let found := fold_left collect (if keep_important then declarations b else declarations b ++ important b) [] in
        let left_ := mkBlock (filter stays (declarations b)) (if keep_important then important b else filter stays (important b)) in
        mkElement (name e) (fold_left (fun l a => put a l) found (attrs e))
          (match declarations left_, important left_ with [], [] => None | _, _ => Some left_ end)
    end.
End Job.
