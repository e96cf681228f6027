(** Model of which elements applyTransforms changes, and of what it does to their strokes
    (crates/oxvg_optimiser/src/jobs/apply_transforms.rs:56-246; the path data are in ApplyModel).

    Simplifications: numbers are reals; each element has, for each property that matters here, what its attribute says and what the declaration of a stylesheet
    says that wins for it (see CascadeModel for how that is found); lengths are numbers, without units. *)
From Coq Require Import Reals List Bool.
Import ListNotations.
Open Scope R_scope.

(** [Inheritable] (crates/oxvg_collections/src/attribute/inheritable.rs:17-22). *)
Inductive inh (A : Type) : Type := Defined (a : A) | Inherited.
Arguments Defined {A} a.
Arguments Inherited {A}.
(** [SVGPaint]: [none], a colour, or a gradient or pattern (used at apply_transforms.rs:191-193). *)
Inductive paint : Type := PNone | PColor (n : nat) | PServer (n : nat).
(** Whether a declaration is certain to count: [Mode::Static], or [Mode::Dynamic] or one that could not be read (style.rs:72-99). *)
Inductive mode : Type := Static | Unclear.
(** apply_transforms.rs:248-257: a matrix. *)
Record mat := Mat { m0 : R; m1 : R; m2 : R; m3 : R; m4 : R; m5 : R }.
(** A transform attribute (apply_transforms.rs:110-121, 156-163): none, [inherit], an empty list, one that has no matrix in two dimensions, one that has. *)
Inductive tattr : Type := TAbsent | TInherit | TEmpty | TSpatial | TMatrix (m : mat).
(** What is said about an element: by attributes ([a_]) and by stylesheets ([c_]). [c_transform]: [None] within if it cannot be an attribute
    (crates/oxvg_collections/src/attribute/transform.rs:452-500). *)
Record el : Type := El {
  has_d : bool;
  named : bool;  (* an id, a style attribute, or an attribute with a reference other than [fill] and [stroke] (apply_transforms.rs:86-104) *)
  path_length : bool;
  a_transform : tattr; c_transform : option (option mat * mode);
  a_fill : option (inh paint); c_fill : option (inh paint * mode);
  a_stroke : option (inh paint); c_stroke : option (inh paint * mode);
  a_width : option (inh R); c_width : option (inh R * mode);
  a_dash : option (inh (list R)); c_dash : option (inh (list R) * mode);
  a_offset : option (inh R); c_offset : option (inh R * mode);
  a_fixed : option bool; c_fixed : option (bool * mode) (* [vector-effect]: is it [non-scaling-stroke] *) }.
(** [ApplyTransforms] (apply_transforms.rs:56-63). *)
Record options : Type := mkOptions { precision : option R; stroked : bool }.

(** [get_computed_style!] of an inherited property (style.rs:373-401): the nearest that says something. *)
Fixpoint computed {A} (a : el -> option (inh A)) (c : el -> option (inh A * mode)) (chain : list el) : option (inh A * mode) :=
  match chain with
  | [] => None
  | e :: rest =>
      match c e, a e with
      | Some x, _ => Some x
      | None, Some v => Some (v, Static)
      | None, None => computed a c rest
      end
  end.
(** [!=] of matrices (apply_transforms.rs:129). *)
Definition mat_eq (m n : mat) : bool :=
  if Req_EM_T (m0 m) (m0 n) then if Req_EM_T (m1 m) (m1 n) then if Req_EM_T (m2 m) (m2 n) then if Req_EM_T (m3 m) (m3 n) then
  if Req_EM_T (m4 m) (m4 n) then if Req_EM_T (m5 m) (m5 n) then true else false else false else false else false else false else false.
(** [==] of numbers (apply_transforms.rs:200-201, 218). *)
Definition same (x y : R) : bool := if Req_EM_T x y then true else false.
(** apply_transforms.rs:89-103: [fill] or [stroke] of the element refer to something. *)
Definition server (p : option (inh paint)) : bool := match p with Some (Defined (PServer _)) => true | _ => false end.

Section Job.
  (** [f64::round] (Rust [std]; used at apply_transforms.rs:216). *)
  Variable round : R -> R.
  (** apply_transforms.rs:214-217. *)
  Definition scale_of (o : options) (m : mat) : R :=
    let scale := sqrt (m0 m * m0 m + m1 m * m1 m) in
    match precision o with Some p => round (scale * p) / p | None => scale end.
  (** apply_transforms.rs:181-246 [apply_stroked]: [None] if the transform is not to be applied. *)
  Definition apply_stroked (o : options) (m : mat) (paint : paint) (width : option (inh R)) (e : el) : option el :=
    match paint with
    | PNone => Some e
    | _ =>
        if stroked o then None
        else if (negb (same (m0 m) (m3 m)) || negb (same (m1 m) (- m2 m))) && (negb (same (m0 m) (- m3 m)) || negb (same (m1 m) (m2 m))) then None
        else if match a_fixed e with Some b => b | None => false end then Some e
        else
          let scale := scale_of o m in
          if same scale 1 then Some e
          else Some (El (has_d e) (named e) (path_length e) (a_transform e) (c_transform e) (a_fill e) (c_fill e) (a_stroke e) (c_stroke e)
                        (Some (Defined match width with Some (Defined w) => w * scale | _ => scale end)) (c_width e)
                        match a_dash e with Some (Defined l) => Some (Defined (map (fun d => d * scale) l)) | x => x end (c_dash e)
                        match a_offset e with Some (Defined d) => Some (Defined (d * scale)) | x => x end (c_offset e) (a_fixed e) (c_fixed e))
    end.
  (** What happens: a panic, nothing, or the path data are multiplied by a matrix and the element is changed (apply_transforms.rs:77-178). *)
  Inductive outcome : Type := Panic | Kept | Applied (m : mat) (e : el).
  (** [element.remove_attribute] (apply_transforms.rs:176). *)
  Definition without_transform (e : el) : el :=
    El (has_d e) (named e) (path_length e) TAbsent (c_transform e) (a_fill e) (c_fill e) (a_stroke e) (c_stroke e) (a_width e) (c_width e)
       (a_dash e) (c_dash e) (a_offset e) (c_offset e) (a_fixed e) (c_fixed e).
  (** apply_transforms.rs:133-177: from the look at the stroke on. *)
  Definition apply_matrix (o : options) (m : mat) (e : el) (ancestors : list el) : outcome :=
    match computed a_stroke c_stroke (e :: ancestors) with
    | Some (_, Unclear) => Kept
    | stroke =>
        match computed a_width c_width (e :: ancestors) with
        | Some (_, Unclear) => Kept
        | width =>
            match match stroke with Some (Defined paint, _) => apply_stroked o m paint (option_map fst width) e | _ => Some e end with
            | None => Kept
            | Some e' => Applied m (without_transform e')
            end
        end
    end.
  (** apply_transforms.rs:77-178 [element].  A declared transform that cannot be an attribute makes [ComputedStyles::get] panic (style.rs:381-394); one
      that is the same matrix is let through (122-132). *)
  Definition element (o : options) (e : el) (ancestors : list el) : outcome :=
    if negb (has_d e) || named e || server (a_fill e) || server (a_stroke e) then Kept
    else
      match a_transform e with
      | TAbsent | TInherit | TEmpty => Kept
      | TSpatial => match c_transform e with Some (None, _) => Panic | _ => Kept end
      | TMatrix m =>
          match c_transform e with
          | Some (None, _) => Panic
          | Some (Some n, Static) => if mat_eq m n then apply_matrix o m e ancestors else Kept
          | Some (Some _, Unclear) | None => apply_matrix o m e ancestors
          end
      end.
End Job.
