(** Model of how the commands of the program go through files and where they write: crates/oxvg/src/walk.rs, commands/optimise.rs, commands/format.rs,
    commands/action.rs and commands/lint.rs.
    Simplifications: paths are normalised lists of names, the current directory is the empty one and is written [.]; one document is handled after another, in any order,
    and the files of a directory are listed before the first of them is handled; links, threads and the lines about sizes are left out. *)
From Coq Require Import String List NArith Bool Arith.
From Verif Require Import Chars OnsetModel.
Import ListNotations.

(** [PathBuf] (walk.rs:6). *)
Definition path : Type := list text.
(** What a file holds: text, or bytes that are not UTF-8 (walk.rs:172). *)
Inductive bytes : Type := Utf8 (t : text) | Raw (n : N).
(** An entry of the file system (walk.rs:66, 71-73, 162). *)
Inductive entry : Type := File (b : bytes) | Dir.
(** The file system (walk.rs:66-76). *)
Definition fs : Type := list (path * entry).

(** [Path::eq] (walk.rs:108, 140). *)
Fixpoint path_eqb (p q : path) : bool := match p, q with [], [] => true | a :: p, b :: q => text_eqb a b && path_eqb p q | _, _ => false end.
(** [Path::strip_prefix] (walk.rs:140). *)
Fixpoint strip_prefix (p q : path) : option path :=
  match p, q with [], q => Some q | a :: p, b :: q => if text_eqb a b then strip_prefix p q else None | _, [] => None end.
(** [Path::metadata] (walk.rs:66): the current directory exists. *)
Definition get (s : fs) (p : path) : option entry :=
  match p with [] => Some Dir | _ => match find (fun e => path_eqb (fst e) p) s with Some e => Some (snd e) | None => None end end.
(** Creating or replacing an entry (walk.rs:71-75). *)
Definition put (s : fs) (p : path) (e : entry) : fs := (p, e) :: filter (fun x => negb (path_eqb (fst x) p)) s.
(** [Metadata::is_dir] (walk.rs:66). *)
Definition is_dir (s : fs) (p : path) : bool := match get s p with Some Dir => true | _ => false end.
(** [Path::extension] (walk.rs:166): after the last dot, unless there is nothing before it. *)
Definition extension (name : text) : option text :=
  match before_last (N.eqb 46) name with Some [] => None | Some b => Some (skipn (S (List.length b)) name) | None => None end.

(** walk.rs 18-50 [Walk]. *)
Record options : Type := mkOptions { o_paths : list path; o_output : option (list path); o_recursive : bool; o_hidden : bool; o_no_ignore : bool }.
(** What can be seen from outside: the files, what was printed, the inputs errors were printed for ([None]: standard input), and the flag of format.rs:37 and action.rs:134. *)
Record world : Type := mkWorld { w_files : fs; w_out : list text; w_reports : list (option path); w_flag : bool }.
(** The level of a lint rule (commands/lint.rs:19; crates/oxvg_lint/src/rules/mod.rs:34-46). *)
Inductive level : Type := LOff | LWarn | LError.
(** What linting a document gives (commands/lint.rs:32-37): nothing, problems at some levels, or an error. *)
Inductive verdict : Type := Fine | Problems (l : list level) | Broken.

Section Walk.
  (** Whether a path is excluded by a file such as [.gitignore] (walk.rs:151-152). *)
  Variable ignored : path -> bool.
  (** Whether the operating system does not let a file or directory be created (walk.rs:71, 73). *)
  Variable denied : path -> bool.
  (** The order in which the threads get to the files (walk.rs:154-156). *)
  Variable shuffle : list path -> list path.

  (** walk.rs 149-152: what [WalkBuilder] yields below a path; the path itself is always yielded. *)
  Definition listed (o : options) (root p : path) : bool :=
    match strip_prefix root p with
    | None => false
    | Some rel => (o_recursive o || (List.length rel <=? 1)) && (o_hidden o || negb (existsb (starts_with [46%N]) rel))
                  && (o_no_ignore o || match rel with [] => true | _ => negb (ignored p) end)
    end.
  (** walk.rs 148-164: the files. *)
  Definition listing (o : options) (root : path) (s : fs) : list path :=
    filter (listed o root) (map fst (filter (fun e => match snd e with File _ => true | Dir => false end) s)).
  (** [Option::first] of the option [output] (walk.rs:130, 137). *)
  Definition first_output (o : options) : option path := match o_output o with Some (p :: _) => Some p | _ => None end.
  (** walk.rs 136-147 [output_path]; the outer [None] is an error. *)
  Definition output_path (o : options) (root input : path) : option (option path) :=
    match first_output o with
    | None => Some None
    | Some out => match strip_prefix root input with None => None | Some [] => Some (Some out) | Some rel => Some (Some (out ++ rel)) end
    end.
  (** walk.rs 158-177: one file. *)
  Definition visit_file (o : options) (visitor : text -> option path -> option path -> world -> world) (root : path) (w : world) (p : path) : world :=
    if negb (match extension (last p []) with Some e => text_eqb e (lit "svg") | None => false end) then w
    else match output_path o root p with
         | None => w
         | Some dest => match get (w_files w) p with Some (File (Utf8 t)) => visitor t (Some p) dest w | _ => w end
         end.
  (** walk.rs 135-179 [handle_path]. *)
  Definition handle_path (o : options) visitor (w : world) (root : path) : world :=
    fold_left (visit_file o visitor root) (shuffle (listing o root (w_files w))) w.
  (** walk.rs 102-133 [Walk::run]: [stdin] is [None] if it is not UTF-8; the result [None] is an error. *)
  Definition run (o : options) (terminal : bool) (stdin : option text) visitor (w : world) : option world :=
    if negb terminal && (List.length (o_paths o) <=? 1) && match o_paths o with [] => true | p :: _ => path_eqb p [] end then
      match stdin with Some t => Some (visitor t None (first_output o) w) | None => None end
    else match o_paths o with [] => None | paths => Some (fold_left (handle_path o visitor) paths w) end.

  (** [std::fs::create_dir_all] (walk.rs:70-72), with the directories above given first; the flag tells whether it went well. *)
  Fixpoint create_dirs (above rest : path) (s : fs) : fs * bool :=
    match rest with
    | [] => (s, true)
    | n :: rest =>
        let here := above ++ [n] in
        match get s here with
        | Some Dir => create_dirs here rest s
        | Some (File _) => (s, false)
        | None => if denied here then (s, false) else create_dirs here rest (put s here Dir)
        end
    end.

  Section Documents.
    (** A parsed document (walk.rs:54). *)
    Variable D : Type.
    Variable parse : text -> option D.
    (** What is written, and whether it went well to the end (walk.rs:68, 75, 89). *)
    Variable serialise : D -> text * bool.

    (** Printing to standard output (walk.rs:68, 89). *)
    Definition print (d : D) (w : world) : world * bool :=
      (mkWorld (w_files w) (w_out w ++ [fst (serialise d)]) (w_reports w) (w_flag w), snd (serialise d)).
    (** walk.rs 60-93 [Output::output]. *)
    Definition output (d : D) (input dest : option path) (w : world) : world * bool :=
      match dest with
      | None => print d w
      | Some p =>
          if match input with None => is_dir (w_files w) p | Some _ => false end then print d w
          else
            let (s, ok) := create_dirs [] (removelast p) (w_files w) in
            let put_files s := mkWorld s (w_out w) (w_reports w) (w_flag w) in
            if negb ok || is_dir s p || denied p then (put_files s, false)
            else (put_files (put s p (File (Utf8 (fst (serialise d))))), snd (serialise d))
      end.
    (** An error is printed (commands/optimise.rs:105-106; commands/format.rs:66-71; commands/action.rs:171-176). *)
    Definition report (flagging : bool) (input : option path) (w : world) : world :=
      mkWorld (w_files w) (w_out w) (w_reports w ++ [input]) (w_flag w || flagging).
    (** commands/optimise.rs 74-109, commands/format.rs 45-73 and commands/action.rs 143-179: one document. *)
    Definition visit (flagging : bool) (work : D -> option D) (source : text) (input dest : option path) (w : world) : world :=
      match parse source with
      | None => report flagging input w
      | Some d => match work d with
                  | None => report flagging input w
                  | Some d => let (w, ok) := output d input dest w in if ok then w else report flagging input w
                  end
      end.
    (** The world at the beginning (commands/format.rs:37). *)
    Definition start (s : fs) : world := mkWorld s [] [] false.
    (** commands/optimise.rs 41-57, 66-111 [run] and [walk]; [jobs] are those of the configuration. *)
    Definition optimise (jobs : D -> option D) (o : options) (terminal : bool) (stdin : option text) (s : fs) : world * bool :=
      match run o terminal stdin (visit false jobs) (start s) with Some w => (w, true) | None => (start s, false) end.
    (** commands/format.rs 36-84 [run]. *)
    Definition format (o : options) (terminal : bool) (stdin : option text) (s : fs) : world * bool :=
      match run o terminal stdin (visit true Some) (start s) with Some w => (w, negb (w_flag w)) | None => (start s, false) end.
    (** commands/action.rs 128-182 [run]: [None] is a command that was not understood. *)
    Definition action (actions : option (D -> option D)) (o : options) (terminal : bool) (stdin : option text) (s : fs) : world * bool :=
      match actions with
      | None => (start s, false)
      | Some work => match run o terminal stdin (visit true work) (start s) with Some w => (w, true) | None => (start s, false) end
      end.
  End Documents.

  (** commands/lint.rs 31-39: one document; problems are printed. *)
  Definition visit_lint (lint : text -> verdict) (source : text) (input dest : option path) (w : world) : world :=
    match lint source with
    | Fine => w
    | Problems _ | Broken => mkWorld (w_files w) (w_out w) (w_reports w ++ [input]) (w_flag w)
    end.
  (** commands/lint.rs 21-41 [run] and [walk]: the level is not used. *)
  Definition check (lint : text -> verdict) (l : level) (o : options) (terminal : bool) (stdin : option text) (s : fs) : world * bool :=
    let o := mkOptions (o_paths o) None (o_recursive o) (o_hidden o) (o_no_ignore o) in
    match run o terminal stdin (visit_lint lint) (start s) with Some w => (w, true) | None => (start s, false) end.
End Walk.
