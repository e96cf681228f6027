(** Model of the job convertColors: crates/oxvg_optimiser/src/jobs/convert_colors.rs. *)
From Coq Require Import List NArith Bool.
Import ListNotations.

(** A colour (lightningcss [CssColor]), as it is used at convert_colors.rs:123-131: the text colour, or another. *)
Inductive color : Type := Current | Rgb (n : N).
(** What is painted if a paint server is missing (lightningcss [SVGPaintFallback]; crates/oxvg_collections/src/attribute/core_attrs.rs:376-377). *)
Inductive fallback : Type := FNone | FColor (c : color).
(** crates/oxvg_collections/src/attribute/core_attrs.rs 376-377 [Paint]. *)
Inductive paint : Type := PNone | PColor (c : color) | PUrl (u : N) (f : option fallback) | PContext (n : N).
(** The values that may have a colour (crates/oxvg_collections/src/content_type.rs:416-433), [inherit] (attribute/inheritable.rs:11-16), and other values. *)
Inductive cvalue : Type := VColor (c : color) | VPaint (p : paint) | VDeco (c : color) (n : N) | VInherit | VElse (n : N).
(** An attribute: the style, as declarations in the order of increasing precedence, or another (convert_colors.rs:103-111). *)
Inductive cattr : Type := AStyle (decls : list (N * cvalue)) | AAttr (name : N) (v : cvalue).
(** An element: whether it is a mask (convert_colors.rs:97), and its attributes. *)
Record celem : Type := mkCelem { c_mask : bool; c_attrs : list cattr }.
(** The elements of the document (crates/oxvg_ast/src/visitor.rs:312-380). *)
Inductive ctree : Type := CNode (e : celem) (kids : list ctree).
(** convert_colors.rs 28-40 [Method]. *)
Inductive method : Type := Lightning | CurrentColor.

(** convert_colors.rs 123-131 [visit_color]. *)
Definition visit_color (m : method) (c : color) : color := match m with CurrentColor => Current | Lightning => c end.
(** crates/oxvg_collections/src/content_type.rs 401-433 [visit_color]: the fallback of a paint server is not visited.
    Simplification: no attribute has a list of colours (convert_colors.rs:107-109). *)
Definition visit_attr (m : method) (v : cvalue) : cvalue :=
  match v with
  | VColor c => VColor (visit_color m c)
  | VPaint (PColor c) => VPaint (PColor (visit_color m c))
  | VDeco c n => VDeco (visit_color m c) n
  | v => v
  end.
(** [style.visit(&mut method)] (convert_colors.rs:105): the visitor derived in lightningcss goes through every colour. *)
Definition visit_decl (m : method) (v : cvalue) : cvalue :=
  match v with
  | VPaint (PUrl u (Some (FColor c))) => VPaint (PUrl u (Some (FColor (visit_color m c))))
  | v => visit_attr m v
  end.
(** convert_colors.rs 103-111: one attribute. *)
Definition convert_attr (m : method) (a : cattr) : cattr :=
  match a with
  | AStyle decls => AStyle (map (fun d => (fst d, visit_decl m (snd d))) decls)
  | AAttr name v => AAttr name (visit_attr m v)
  end.
(** convert_colors.rs 92-114 [element]; [above]: the elements around it, from the inside to the outside (crates/oxvg_ast/src/element.rs:574-584 [closest]). *)
Definition convert_element (m : method) (above : list celem) (e : celem) : celem :=
  let masked := c_mask e || existsb c_mask above in
  let m := if masked && match m with CurrentColor => true | Lightning => false end then Lightning else m in
  mkCelem (c_mask e) (map (convert_attr m) (c_attrs e)).
(** The walk over all elements (crates/oxvg_ast/src/visitor.rs:312-380). *)
Fixpoint convert_tree (m : method) (above : list celem) (t : ctree) : ctree :=
  match t with CNode e kids => CNode (convert_element m above e) (map (convert_tree m (convert_element m above e :: above)) kids) end.
(** convert_colors.rs 75-90 [prepare]. *)
Definition convert (m : option method) (t : ctree) : ctree :=
  match m with
  | Some CurrentColor => convert_tree CurrentColor [] t
  | _ => t
  end.
