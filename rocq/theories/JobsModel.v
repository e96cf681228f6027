(** Model of the job configuration and of the job runner (crates/oxvg_optimiser/src/jobs/mod.rs,
    crates/oxvg_optimiser/src/lib.rs, crates/oxvg/src/config.rs). *)
From Coq Require Import String List NArith Bool Arith.
From Verif Require Import Chars.
Import ListNotations.

(** The fields of [Jobs], in order (mod.rs:282-344). The constructor is the job type. *)
Inductive job :=
| Precheck
| AddAttributesToSVGElement
| AddClassesToSVGElement
| CleanupListOfValues
| ConvertOneStopGradients
| ConvertStyleToAttrs
| RemoveAttributesBySelector
| RemoveAttrs
| RemoveDimensions
| RemoveElementsByAttr
| RemoveOffCanvasPaths
| RemoveRasterImages
| RemoveScripts
| RemoveStyleElement
| RemoveTitle
| RemoveViewBox
| ReusePaths
| RemoveXMLNS
| RemoveDoctype
| RemoveXMLProcInst
| RemoveComments
| RemoveDeprecatedAttrs
| RemoveMetadata
| RemoveEditorsNSData
| CleanupAttrs
| MergeStyles
| InlineStyles
| MinifyStyles
| CleanupIds
| RemoveUselessDefs
| CleanupNumericValues
| ConvertColors
| RemoveUnknownsAndDefaults
| RemoveNonInheritableGroupAttrs
| RemoveUselessStrokeAndFill
| CleanupEnableBackground
| RemoveHiddenElems
| RemoveEmptyText
| ConvertShapeToPath
| ConvertEllipseToCircle
| MoveElemsAttrsToGroup
| MoveGroupAttrsToElems
| CollapseGroups
| ApplyTransforms
| ConvertPathData
| ConvertTransform
| RemoveEmptyAttrs
| RemoveEmptyContainers
| RemoveUnusedNS
| MergePaths
| SortAttrs
| SortDefsChildren
| RemoveDesc
| PrefixIds
| RemoveXlink.

(** The declaration order of the table, which is the order of the [if let] blocks in [run_jobs] (mod.rs:282-344, 60). *)
Definition all_jobs : list job :=
  [Precheck;
   AddAttributesToSVGElement;
   AddClassesToSVGElement;
   CleanupListOfValues;
   ConvertOneStopGradients;
   ConvertStyleToAttrs;
   RemoveAttributesBySelector;
   RemoveAttrs;
   RemoveDimensions;
   RemoveElementsByAttr;
   RemoveOffCanvasPaths;
   RemoveRasterImages;
   RemoveScripts;
   RemoveStyleElement;
   RemoveTitle;
   RemoveViewBox;
   ReusePaths;
   RemoveXMLNS;
   RemoveDoctype;
   RemoveXMLProcInst;
   RemoveComments;
   RemoveDeprecatedAttrs;
   RemoveMetadata;
   RemoveEditorsNSData;
   CleanupAttrs;
   MergeStyles;
   InlineStyles;
   MinifyStyles;
   CleanupIds;
   RemoveUselessDefs;
   CleanupNumericValues;
   ConvertColors;
   RemoveUnknownsAndDefaults;
   RemoveNonInheritableGroupAttrs;
   RemoveUselessStrokeAndFill;
   CleanupEnableBackground;
   RemoveHiddenElems;
   RemoveEmptyText;
   ConvertShapeToPath;
   ConvertEllipseToCircle;
   MoveElemsAttrsToGroup;
   MoveGroupAttrsToElems;
   CollapseGroups;
   ApplyTransforms;
   ConvertPathData;
   ConvertTransform;
   RemoveEmptyAttrs;
   RemoveEmptyContainers;
   RemoveUnusedNS;
   MergePaths;
   SortAttrs;
   SortDefsChildren;
   RemoveDesc;
   PrefixIds;
   RemoveXlink].

(** The field name, [stringify!($name)] (mod.rs:282-344). *)
Definition field_name (j : job) : text :=
  lit match j with
  | Precheck => "precheck"
  | AddAttributesToSVGElement => "add_attributes_to_s_v_g_element"
  | AddClassesToSVGElement => "add_classes_to_s_v_g_element"
  | CleanupListOfValues => "cleanup_list_of_values"
  | ConvertOneStopGradients => "convert_one_stop_gradients"
  | ConvertStyleToAttrs => "convert_style_to_attrs"
  | RemoveAttributesBySelector => "remove_attributes_by_selector"
  | RemoveAttrs => "remove_attrs"
  | RemoveDimensions => "remove_dimensions"
  | RemoveElementsByAttr => "remove_elements_by_attr"
  | RemoveOffCanvasPaths => "remove_off_canvas_paths"
  | RemoveRasterImages => "remove_raster_images"
  | RemoveScripts => "remove_scripts"
  | RemoveStyleElement => "remove_style_element"
  | RemoveTitle => "remove_title"
  | RemoveViewBox => "remove_view_box"
  | ReusePaths => "reuse_paths"
  | RemoveXMLNS => "remove_x_m_l_n_s"
  | RemoveDoctype => "remove_doctype"
  | RemoveXMLProcInst => "remove_x_m_l_proc_inst"
  | RemoveComments => "remove_comments"
  | RemoveDeprecatedAttrs => "remove_deprecated_attrs"
  | RemoveMetadata => "remove_metadata"
  | RemoveEditorsNSData => "remove_editors_n_s_data"
  | CleanupAttrs => "cleanup_attrs"
  | MergeStyles => "merge_styles"
  | InlineStyles => "inline_styles"
  | MinifyStyles => "minify_styles"
  | CleanupIds => "cleanup_ids"
  | RemoveUselessDefs => "remove_useless_defs"
  | CleanupNumericValues => "cleanup_numeric_values"
  | ConvertColors => "convert_colors"
  | RemoveUnknownsAndDefaults => "remove_unknowns_and_defaults"
  | RemoveNonInheritableGroupAttrs => "remove_non_inheritable_group_attrs"
  | RemoveUselessStrokeAndFill => "remove_useless_stroke_and_fill"
  | CleanupEnableBackground => "cleanup_enable_background"
  | RemoveHiddenElems => "remove_hidden_elems"
  | RemoveEmptyText => "remove_empty_text"
  | ConvertShapeToPath => "convert_shape_to_path"
  | ConvertEllipseToCircle => "convert_ellipse_to_circle"
  | MoveElemsAttrsToGroup => "move_elems_attrs_to_group"
  | MoveGroupAttrsToElems => "move_group_attrs_to_elems"
  | CollapseGroups => "collapse_groups"
  | ApplyTransforms => "apply_transforms"
  | ConvertPathData => "convert_path_data"
  | ConvertTransform => "convert_transform"
  | RemoveEmptyAttrs => "remove_empty_attrs"
  | RemoveEmptyContainers => "remove_empty_containers"
  | RemoveUnusedNS => "remove_unused_n_s"
  | MergePaths => "merge_paths"
  | SortAttrs => "sort_attrs"
  | SortDefsChildren => "sort_defs_children"
  | RemoveDesc => "remove_desc"
  | PrefixIds => "prefix_ids"
  | RemoveXlink => "remove_xlink"
  end.

(** The jobs marked [is_default: true] (mod.rs:282-344). *)
Definition is_default (j : job) : bool :=
  match j with
  | Precheck
  | AddAttributesToSVGElement
  | AddClassesToSVGElement
  | CleanupListOfValues
  | ConvertOneStopGradients
  | ConvertStyleToAttrs
  | RemoveAttributesBySelector
  | RemoveAttrs
  | RemoveDimensions
  | RemoveElementsByAttr
  | RemoveOffCanvasPaths
  | RemoveRasterImages
  | RemoveScripts
  | RemoveStyleElement
  | RemoveTitle
  | RemoveViewBox
  | ReusePaths
  | RemoveXMLNS
  | PrefixIds
  | RemoveXlink => false
  | _ => true
  end.

(** The jobs listed in [Jobs::safe] (mod.rs:365-403). *)
Definition safe_jobs : list job :=
  [Precheck;
   RemoveDoctype;
   RemoveXMLProcInst;
   RemoveComments;
   RemoveDeprecatedAttrs;
   RemoveMetadata;
   RemoveEditorsNSData;
   CleanupAttrs;
   MergeStyles;
   InlineStyles;
   MinifyStyles;
   CleanupIds;
   RemoveUselessDefs;
   CleanupNumericValues;
   ConvertColors;
   RemoveUnknownsAndDefaults;
   RemoveNonInheritableGroupAttrs;
   RemoveUselessStrokeAndFill;
   CleanupEnableBackground;
   RemoveHiddenElems;
   RemoveEmptyText;
   ConvertShapeToPath;
   ConvertEllipseToCircle;
   MoveElemsAttrsToGroup;
   MoveGroupAttrsToElems;
   CollapseGroups;
   ApplyTransforms;
   ConvertPathData;
   ConvertTransform;
   RemoveEmptyAttrs;
   RemoveEmptyContainers;
   RemoveUnusedNS;
   MergePaths;
   SortAttrs;
   SortDefsChildren;
   RemoveDesc].

Section Config.
  (** The settings of a job and their [Default]; documents; raw SVGO parameters (JSON). *)
  Context {P D R : Type}.
  Variable default_params : job -> P.

  (** [Jobs] (mod.rs:33-38): for each field, the settings or nothing. *)
  Definition jobs := job -> option P.

  (** Assignment to the field called [name]; no effect when there is none (mod.rs:190, 196, 236, 267). *)
  Definition set_field (name : text) (v : job -> option P) (c : jobs) : jobs :=
    fun j => if text_eqb name (field_name j) then v j else c j.
  (** The match arms before [_] (mod.rs:190, 196, 236, 267). *)
  Definition known (name : text) : bool := existsb (fun j => text_eqb name (field_name j)) all_jobs.

  (** [Jobs::none] (mod.rs:273-277). *)
  Definition none : jobs := fun _ => None.
  (** [Jobs::default] (mod.rs:40-50). *)
  Definition default : jobs := fun j => if is_default j then Some (default_params j) else None.
  (** [Jobs::safe] (mod.rs:365-405). *)
  Definition safe : jobs :=
    fun j => if existsb (fun k => text_eqb (field_name k) (field_name j)) safe_jobs then Some (default_params j) else None.
  (** [Jobs::extend] (mod.rs:258-262). *)
  Definition extend (self other : jobs) : jobs :=
    fun j => match other j with Some p => Some p | None => self j end.
  (** [Jobs::omit] (mod.rs:265-270). *)
  Definition omit (name : text) (self : jobs) : jobs := set_field name (fun _ => None) self.

  (** [Extends] (lib.rs:61-78) without the NAPI placeholder; [Extends::jobs] (lib.rs:83-91) and
      [Extends::extend] (lib.rs:94-98). *)
  Inductive extends := ExtendsNone | ExtendsDefault | ExtendsSafe.
  (** [Extends::jobs] (lib.rs:83-91). *)
  Definition preset (e : extends) : jobs :=
    match e with ExtendsNone => none | ExtendsDefault => default | ExtendsSafe => safe end.
  (** [Extends::extend] (lib.rs:94-98). *)
  Definition extend_preset (e : extends) (other : jobs) : jobs := extend (preset e) other.

  (** The command line's [Optimise] configuration (crates/oxvg/src/config.rs:11-20). *)
  Record optimise := Optimise { o_extends : option extends; o_jobs : jobs; o_omit : option (list text) }.
  (** [Optimise::resolve_jobs] (config.rs:69-80). *)
  Definition resolve_jobs (o : optimise) : jobs :=
    match o_extends o with
    | None => o_jobs o
    | Some e =>
      let result := extend_preset e (o_jobs o) in
      match o_omit o with
      | Some l => fold_left (fun r name => omit name r) l result
      | None => result
      end
    end.

  (** ** SVGO configurations *)

  (** [from_svgo_plugin_to_snake_case] (mod.rs:245-255). Simplification: only ASCII capitals get the underscore here;
      a name with any other character matches no job either way. *)
  Definition is_upper (c : N) : bool := (65 <=? c)%N && (c <=? 90)%N.
  (** [from_svgo_plugin_to_snake_case] (mod.rs:245-255). *)
  Definition snake_case (name : text) : text :=
    flat_map (fun c => if is_upper c then [95%N; (c + 32)%N] else [c]) name.

  (** One entry of SVGO's plugin list. [POther] is a JSON value of any other type; the name of an object may be missing
      or not a string (mod.rs:156-217). *)
  Inductive plugin := PString (name : text) | PObject (name : option text) (params : option R) | POther.

  (** Decoding of parameters (serde): [decode] may fail; [decode_path] is the hand-written conversion for
      [convert_path_data] (mod.rs:170-186), [None] when the parameters are not an object; [decode_apply] is its
      [applyTransforms] parameter (mod.rs:188-199). *)
  Variable decode : job -> R -> option P.
  Variable decode_path : R -> option P.
  Variable decode_apply : R -> option P.

  (** [set_svgo_plugin_string] (mod.rs:223-243). *)
  Definition set_svgo_plugin_string (c : jobs) (svgo_name : text) : option jobs :=
    if text_eqb svgo_name (lit "preset-default") then
      Some (fun j => if is_default j then Some (default_params j) else c j)
    else
      let name := snake_case svgo_name in
      if known name then
        let c := set_field name (fun j => Some (default_params j)) c in
        Some (if text_eqb name (lit "convert_path_data")
              then set_field (field_name ApplyTransforms) (fun j => Some (default_params j)) c else c)
      else None.

  (** The field a name selects (mod.rs:201-212, 235-238). *)
  Definition find_job (name : text) : option job := find (fun j => text_eqb name (field_name j)) all_jobs.

  (** One turn of the loop of [from_svgo_plugin_config] (mod.rs:156-217). *)
  Definition svgo_step (c : jobs) (p : plugin) : option jobs :=
    match p with
    | PString name => set_svgo_plugin_string c name
    | PObject None _ => None
    | PObject (Some svgo_name) (Some r) =>
      let name := snake_case svgo_name in
      if text_eqb name (lit "convert_path_data") then
        match decode_path r with
        | None => Some c
        | Some p =>
          let c := set_field name (fun _ => Some p) c in
          Some match decode_apply r with
               | Some q => set_field (field_name ApplyTransforms) (fun _ => Some q) c
               | None => c
               end
        end
      else
        match find_job name with
        | Some j => match decode j r with Some p => Some (set_field name (fun _ => Some p) c) | None => None end
        | None => None
        end
    | PObject (Some svgo_name) None =>
      let name := snake_case svgo_name in
      if known name then
        let c := set_field name (fun j => Some (default_params j)) c in
        Some (if text_eqb name (lit "convert_path_data")
              then set_field (field_name ApplyTransforms) (fun j => Some (default_params j)) c else c)
      else None
    | POther => None
    end.
  (** The loop of [from_svgo_plugin_config] (mod.rs:155-218). *)
  Fixpoint svgo_loop (c : jobs) (l : list plugin) : option jobs :=
    match l with
    | [] => Some c
    | p :: l => match svgo_step c p with Some c => svgo_loop c l | None => None end
    end.
  (** [from_svgo_plugin_config] (mod.rs:149-221). *)
  Definition from_svgo_plugin_config (value : option (list plugin)) : option jobs :=
    match value with None => Some default | Some l => svgo_loop none l end.

  (** ** Running *)

  (** [JobsError] (crates/oxvg_optimiser/src/error.rs:35-50) without payloads, and [is_important] (71-82). *)
  Inductive jobs_error := ComputedStylesError | CleanupValuesPrecision | Precheck_ | InvalidUserSelector | InvalidUserRegex.
  (** [is_important] (crates/oxvg_optimiser/src/error.rs:71-82). *)
  Definition is_important (e : jobs_error) : bool :=
    match e with ComputedStylesError => false | _ => true end.
  (** What [start_with_info] returns: an error, or the prepare outcome, of which only [skip] matters here
      (mod.rs:62-68). It may change the document in every case. *)
  Inductive outcome := Failed (e : jobs_error) | Finished (skip : bool).
  Variable start : job -> P -> D -> outcome * D.

  (** [run_jobs] (mod.rs:54-71): the count or the error, and the document afterwards. *)
  Fixpoint run_list (c : jobs) (l : list job) (count : nat) (d : D) : (jobs_error + nat) * D :=
    match l with
    | [] => (inr count, d)
    | j :: l =>
      match c j with
      | None => run_list c l count d
      | Some p =>
        let (o, d) := start j p d in
        match o with
        | Failed e => if is_important e then (inl e, d) else run_list c l count d
        | Finished skip => run_list c l (if skip then count else S count) d
        end
      end
    end.
  (** [run_jobs] (mod.rs:54-71). *)
  Definition run_jobs (c : jobs) (d : D) : (jobs_error + nat) * D := run_list c all_jobs 0 d.
  (** [Jobs::run] (mod.rs:349-362). [has_element] is whether [Element::from_parent] finds a root element; the count is
      only logged. *)
  Variable has_element : D -> bool.
  (** [Jobs::run] (mod.rs:349-362). *)
  Definition run (c : jobs) (d : D) : option jobs_error * D :=
    if has_element d then
      match run_jobs c d with
      | (inl e, d) => (Some e, d)
      | (inr _, d) => (None, d)
      end
    else (None, d).
End Config.
