(** Model of where components are written, how they are called and how the index lists them (crates/oxvg/src/commands/jsx.rs:267-367, 568-620).
    Simplifications: those of ShellModel; names of files are texts. *)
From Coq Require Import String List NArith Bool Arith.
From Verif Require Import Chars ParseModel OnsetModel ShellModel.
Import ListNotations.

(** [char::is_ascii_alphanumeric] (jsx.rs:573). *)
Definition alphanumeric (c : N) : bool := is_ascii_digit c || ((65 <=? c) && (c <=? 90))%N || ((97 <=? c) && (c <=? 122))%N.
(** [char::to_ascii_uppercase] (jsx.rs:576). *)
Definition upper (c : N) : N := if ((97 <=? c) && (c <=? 122))%N then (c - 32)%N else c.
(** The closure of [filter_map] (jsx.rs:572-584), with its flag. *)
Fixpoint pascal (next_capital : bool) (t : text) : text :=
  match t with
  | [] => []
  | c :: t => if alphanumeric c then (if next_capital then upper c else c) :: pascal false t else pascal true t
  end.
(** [path_to_component_name] (jsx.rs:568-587). *)
Definition component_name (stem : text) : text := drop_while is_ascii_digit (pascal true stem).

(** [Path::file_stem] (jsx.rs:304, 595): what is before the last dot, unless that is nothing. *)
Definition file_stem (name : text) : text := match before_last (N.eqb 46) name with Some [] => name | Some b => b | None => name end.
(** [PathBuf::set_extension] (jsx.rs:301). *)
Definition set_extension (p : path) (e : text) : path := match p with [] => [] | _ => removelast p ++ [file_stem (last p []) ++ 46%N :: e] end.

(** What of the options matters here (jsx.rs:113, 116, 196): [named] is [ExportType::Named]. *)
Record jsx_options : Type := mkJsx { j_typescript : bool; j_named : bool; j_no_index : bool }.
(** A line of the index (jsx.rs:602-617). *)
Definition index_line (o : jsx_options) (component stem : text) : text :=
  (if j_named o then lit "export { " else lit "export { default as ") ++ component ++ lit " } from ""./" ++ stem ++ lit """" ++ [10%N].
(** The index beside a file (jsx.rs:596). *)
Definition index_of (o : jsx_options) (output : path) : path := removelast output ++ [if j_typescript o then lit "index.ts" else lit "index.js"].
(** The file for a component (jsx.rs:297-302): below the output, or beside the input. *)
Definition component_file (o : jsx_options) (input dest : option path) : option path :=
  option_map (fun p => set_extension p (if j_typescript o then lit "tsx" else lit "jsx")) (match dest with Some p => Some p | None => input end).
(** The name of a component (jsx.rs:303-308; crates/oxvg_jsx/src/config.rs:321-327). *)
Definition name_for (input : option path) : text := match input with Some (n :: p) => component_name (file_stem (last (n :: p) [])) | _ => lit "SvgComponent" end.

Section Jsx.
  (** As in ShellModel (walk.rs:71, 73). *)
  Variable denied : path -> bool.
  Variable D : Type.
  Variable parse : text -> option D.
  (** [transform] (jsx.rs:318-325): what is written for a document and a name, and whether it went well to the end. *)
  Variable transform : D -> text -> text * bool.
  Variable o : jsx_options.

  (** [append_to_index_js] (jsx.rs:589-620). *)
  Definition append_index (output : path) (component : text) (s : fs) : fs * bool :=
    let index := index_of o output in
    let line := index_line o component (file_stem (last output [])) in
    if denied index then (s, false)
    else match get s index with
         | Some Dir => (s, false)
         | Some (File (Utf8 t)) => (put s index (File (Utf8 (t ++ line))), true)
         | Some (File (Raw n)) => (put s index (File (Raw n)), true)
         | None => (put s index (File (Utf8 line)), true)
         end.
  (** One document (jsx.rs:286-357). *)
  Definition visit_jsx (source : text) (input dest : option path) (w : world) : world :=
    match parse source with
    | None => report true input w
    | Some d =>
        let name := name_for input in
        let t := transform d name in
        match component_file o input dest with
        | None =>
            let w := mkWorld (w_files w) (w_out w ++ [fst t]) (w_reports w) (w_flag w) in
            if snd t then w else report true input w
        | Some out =>
            let (s, ok) := create_dirs denied [] (removelast out) (w_files w) in
            let files s := mkWorld s (w_out w) (w_reports w) (w_flag w) in
            if negb ok || is_dir s out || denied out then report true input (files s)
            else
              let s := put s out (File (Utf8 (fst t))) in
              if snd t then let (s, ok) := append_index out name s in if ok then files s else report true input (files s)
              else report true input (files s)
        end
    end.
  (** The documents one after another (walk.rs:154-177), as (source, input, destination). *)
  Definition visit_all (l : list (text * option path * option path)) (w : world) : world :=
    fold_left (fun w x => visit_jsx (fst (fst x)) (snd (fst x)) (snd x) w) l w.
  (** [run] (jsx.rs:267-366); the result of a walk that cannot begin is an error. *)
  Definition jsx ignored shuffle (walk : options) (terminal : bool) (stdin : option text) (s : fs) : world * bool :=
    match run ignored shuffle walk terminal stdin visit_jsx (start s) with Some w => (w, negb (w_flag w)) | None => (start s, false) end.
End Jsx.
