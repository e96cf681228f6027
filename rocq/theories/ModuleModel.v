(** Model of the module around a component (crates/oxvg_jsx/src/swc/get_variables.rs). *)
From Coq Require Import String List NArith ZArith QArith Bool.
From Verif Require Import Chars NameModel AttrTable ElemModel JsxNamesModel JsxModel PresetModel.
Import ListNotations.

(** crates/oxvg_jsx/src/config.rs 355-377 [JsxRuntimeImport]. *)
Record runtime_import : Type := mkRuntime
  { r_source_namespace : option text; r_source : text; r_specifiers : list text; r_namespace : option text; r_default : option text }.
(** crates/oxvg_jsx/src/config.rs 341-353 [JSXRuntime]. *)
Inductive runtime : Type := Classic | Automatic | ClassicPreact.
(** crates/oxvg_jsx/src/config.rs 214-243: the options that get_variables.rs reads besides those of preset.rs, with the defaults of config.rs:245-280. *)
Record moptions : Type := mkModule
  { m_name : text; m_typescript : bool; m_memo : bool; m_named : bool; m_export : option text; m_runtime : runtime; m_import : option runtime_import }.
(** Import specifiers (get_variables.rs:77-113, 448-535). *)
Inductive specifier : Type := SDefault (x : text) | SStar (x : text) | SNamed (x : text).
(** A parameter of the component (get_variables.rs:124-299): names taken from an object, the rest, and the names in its type; or a name with its type. *)
Inductive param : Type := PObject (names : list text) (rest : option text) (types : list text) | PName (x : text) (types : list text).
(** The module (get_variables.rs:359-415, 564-610): imports, interfaces with their properties, the component, wrappers of it (name, function and
    argument), the name that is exported and the name it is exported as; [None] is the default export. *)
Record module : Type := mkMod
  { imports : list (text * list specifier); interfaces : list (text * list text); component_name : text; params : list param; body : jsx;
    wrappers : list (text * text * text); exported : text; exported_as : option text }.
(** What becomes of it: a module, an error (crates/oxvg_jsx/src/error.rs 20-50), or a panic (get_variables.rs:602). *)
Inductive outcome : Type := Module (m : module) | BadIdent (x : text) | BadPreset (e : failed) | Panic.

(** config.rs 282-309 [jsx_runtime_import]. *)
Definition runtime_of (m : moptions) : runtime_import :=
  match m_import m with
  | Some r => r
  | None => match m_runtime m with
            | Classic => mkRuntime None (lit "react") [] (Some (lit "React")) None
            | ClassicPreact => mkRuntime (Some (lit "preact")) (lit "preact/compat") [lit "h"] None None
            | Automatic => mkRuntime None (lit "react") [] None None
            end
  end.
(** config.rs 127-135 [ExpandProps::is_some]. *)
Definition expands (o : options) : bool := match o_expand o with Nowhere => false | _ => true end.
(** get_variables.rs 441-557 [get_jsx_runtime_import]: the imports of the namespace, of the names, and of the default, or the name that is wrong.  [ident]
    is swc's check of names. *)
Definition runtime_imports (ident : text -> bool) (o : options) (m : moptions) : text + (list (text * list specifier) * list (text * list specifier) * list (text * list specifier)) :=
  let r := runtime_of m in
  match find (fun x => negb (ident x)) (r_specifiers r) with
  | Some x => inl x
  | None =>
      let source := match r_source_namespace r with Some x => x | None => r_source r end in
      match find (fun x => negb (ident x)) (match r_namespace r with Some x => [x] | None => [] end ++ match r_default r with Some x => [x] | None => [] end) with
      | Some x => inl x
      | None =>
          let extra := (if o_ref o then [SNamed (lit "forwardRef")] else []) ++ (if m_memo m then [SNamed (lit "memo")] else []) ++
                       (if expands o && m_typescript m && negb (o_native o) then [SNamed (lit "SVGProps")] else []) in
          let spaced := match r_source_namespace r with Some _ => true | None => false end in
          let namespace := (match r_namespace r with Some x => [SStar x] | None => [] end) ++ if spaced then extra else [] in
          let names := map SNamed (r_specifiers r) ++ if spaced then [] else extra in
          inr (match namespace with [] => [] | l => [(source, l)] end, match names with [] => [] | l => [(r_source r, l)] end,
               match r_default r with Some x => [(source, [SDefault x])] | None => [] end)
      end
  end.
(** get_variables.rs 74-122: the import of react-native; [ids] are the names that are used, in the order of the set. *)
Definition native_imports (o : options) (m : moptions) (ids : list text) : list (text * list specifier) :=
  if o_native o then
    let has x := existsb (text_eqb (lit x)) ids in
    [(lit "react-native-svg",
      (if has "Svg"%string then [SDefault (lit "Svg")] else []) ++
      (if m_typescript m && expands o then [SNamed (lit "SVGProps")] else []) ++
      map SNamed (filter (fun x => negb (text_eqb x (lit "Svg"))) ids) ++
      (if o_title o && negb (has "Title"%string) then [SNamed (lit "Title")] else []) ++
      (if o_desc o && negb (has "Desc"%string) then [SNamed (lit "Desc")] else []))]
  else [].
(** get_variables.rs 162-180: the properties that are taken out. *)
Definition taken (o : options) : list text :=
  (if o_title o then [lit "title"; lit "titleId"] else []) ++ (if o_desc o then [lit "desc"; lit "descId"] else []).
(** get_variables.rs 63: the name of the interface. *)
Definition props_ident (m : moptions) : text := m_name m ++ lit "Props".
(** get_variables.rs 124-299: the parameters. *)
Definition make_params (o : options) (m : moptions) : list param :=
  let first :=
    if o_title o || o_desc o then
      [PObject (taken o) (if expands o then Some (lit "props") else None)
         (if m_typescript m then if expands o then [lit "SVGProps"; lit "SVGSVGElement"; props_ident m] else [props_ident m] else [])]
    else if expands o then [PName (lit "props") (if m_typescript m then [props_ident m] else [])] else [] in
  if o_ref o then
    (match first with [] => [PName (lit "_") []] | l => l end) ++ [PName (lit "ref") (if m_typescript m then [lit "Ref"; lit "SVGSVGElement"] else [])]
  else first.
(** get_variables.rs 182-193: the interface. *)
Definition make_interfaces (o : options) (m : moptions) : list (text * list text) :=
  if (o_title o || o_desc o) && m_typescript m then [(props_ident m, taken o)] else [].
(** get_variables.rs 300-327 and 329-357: the wrappers, and the name that is exported. *)
Definition make_wrappers (o : options) (m : moptions) : list (text * text * text) * text :=
  let name := if o_ref o then lit "ForwardRef" else m_name m in
  ((if o_ref o then [(lit "ForwardRef", lit "forwardRef", m_name m)] else []) ++ (if m_memo m then [(lit "Memo", lit "memo", name)] else []),
   if m_memo m then lit "Memo" else name).
(** get_variables.rs 51-416 [Variables::new] and 564-610 [default_template]. *)
Definition make_module (ident : text -> bool) (o : options) (m : moptions) (j : jsx) (ids : list text) : outcome :=
  match runtime_imports ident o m with
  | inl x => BadIdent x
  | inr (namespace, names, default) =>
      let (ws, x) := make_wrappers o m in
      match (if m_named m then find (fun n => negb (ident n)) (match m_export m with Some n => [n] | None => [] end) else None) with
      | Some n => BadIdent n
      | None =>
          match j with
          | JElement _ _ _ _ _ | JFragment _ =>
              Module (mkMod (namespace ++ native_imports o m ids ++ names ++ default) (make_interfaces o m) (m_name m) (make_params o m) j ws x
                        (if m_named m then Some (match m_export m with Some n => n | None => x end) else None))
          | _ => Panic
          end
      end
  end.
(** crates/oxvg_jsx/src/lib.rs 54-96 [transform], without the optimiser and with the default template.  The names to import are
    a set (lib.rs:85). *)
Definition transform (uni : N -> bool) (camel : text -> text) (parse : text -> option text) (ident : text -> bool) (o : options) (m : moptions) (d : xnode) : outcome :=
  match preset parse o (to_jsx uni camel d) with
  | inl e => BadPreset e
  | inr (j, ids) => make_module ident o m j (nodup (list_eq_dec N.eq_dec) ids)
  end.
