(** Model of how the commands of the command line get their configuration (crates/oxvg/src/main.rs, config.rs, commands/optimise.rs, commands/lint.rs,
    commands/jsx.rs, commands/format.rs, commands/action.rs).  Simplifications: a file is its text, and reading and writing of JSON are any functions; there is a
    current directory; what the commands then do with the jobs and rules is the subject of C36, C37, C107, C110 and C111. *)
From Coq Require Import String List NArith Bool.
From Verif Require Import Chars JobsModel.
Import ListNotations.

(** [Severity] (crates/oxvg_lint/src/rules/mod.rs:37-46). *)
Inductive severity : Type := Off | Warn | Error.
(** [Rules] (crates/oxvg_lint/src/rules/mod.rs:55-80). *)
Record rules : Type := Rules {
  no_unknown_elements : severity; no_unknown_attributes : severity; no_deprecated : severity; no_default_attributes : severity;
  no_x_link : severity; no_unused_ids : severity; no_unused_xmlns : severity; no_invalid_attributes : severity }.
(** [Default] of [Rules], derived from that of [Severity] (crates/oxvg_lint/src/rules/mod.rs:34-48). *)
Definition default_rules : rules := Rules Error Error Error Error Error Error Error Error.
(** [Rules::recommended] (crates/oxvg_lint/src/parse.rs:46-57). *)
Definition recommended : rules := Rules Error Error Error Warn Warn Warn Warn Error.

Section Config.
  Context {P : Type}.
  Variable default_params : job -> P.
  Notation jobs := (jobs (P := P)).
  Notation optimise := (optimise (P := P)).

  (** [Config] (config.rs:25-30). *)
  Record config : Type := Config { c_optimise : option optimise; c_lint : option rules }.
  (** [Config::default], derived (config.rs:22-30). *)
  Definition empty : config := Config None None.
  (** [Optimise::default], derived (config.rs:9-20). *)
  Definition default_optimise : optimise := Optimise None (default default_params) None.

  (** [serde_json::from_str] and [serde_json::from_reader] (config.rs:56; commands/optimise.rs:118); [serde_json::to_writer] (commands/optimise.rs:123-129). *)
  Variable read : text -> option config.
  Variable write : config -> text.
  (** The files that can be read, the path of [oxvgrc.json] in the current directory, and that of [oxvg/config.json] in the directory of the user, if there is one
      (config.rs:33-46). *)
  Variable files : text -> option text.
  Variable local : text.
  Variable base : option text.

  (** What comes of loading (config.rs:54-63): a panic, or a configuration, the one of [unwrap_or_default] if there is no file (main.rs:13). *)
  Definition load : option config :=
    match files local with
    | Some t => read t
    | None =>
      match base with
      | None => None
      | Some b => match files b with Some t => read t | None => Some empty end
      end
    end.

  (** The commands (args.rs:40-64) with the options that concern the configuration: the paths of [num_args(0..=1)], the preset, and for JSX whether any of the
      options of [JSXConfig] is given, with [no_oxvg], [svg_props] and [replace_attr_values] (commands/optimise.rs:22-31; commands/lint.rs:13-16, 45-47;
      commands/jsx.rs:68-155). *)
  Inductive command : Type :=
  | COptimise (paths : option (list text)) (preset : option extends)
  | CFormat
  | CCheck (paths : option (list text))
  | CServe (paths : option (list text))
  | CAction
  | CJsx (paths : option (list text)) (preset : option extends) (options : option (bool * list text)).
  (** What a command comes to: it optimises with jobs, lints with rules, does its work without a configuration, prints, reports an error, or panics
      (main.rs:15-29). *)
  Inductive effect : Type :=
  | Runs (j : jobs) | Lints (r : rules) | Works | Prints (t : text) | Fails | Panics.

  (** [Optimise::handle_config] (commands/optimise.rs:113-145): an error, a printed text, or the configuration. *)
  Definition handle_config (paths : option (list text)) (preset : option extends) (c : config) : option (text + config) :=
    match paths with
    | Some (p :: _) =>
      match files p with None => None | Some t => match read t with Some c => Some (inr c) | None => None end end
    | Some [] =>
      Some (inl (write (Config (Some (match c_optimise c with Some o => o | None => default_optimise end))
                               (Some (match c_lint c with Some r => r | None => default_rules end)))))
    | None =>
      match preset with
      | Some e => Some (inr (Config (Some (Optimise (Some e) none None)) (c_lint c)))
      | None => Some (inr c)
      end
    end.
  (** [Optimise::run] (commands/optimise.rs:41-58). *)
  Definition jobs_of (c : config) : jobs :=
    match c_optimise c with Some o => resolve_jobs default_params o | None => default default_params end.
  (** [Optimise::run] (commands/optimise.rs:41-58). *)
  Definition run_optimise (paths : option (list text)) (preset : option extends) (c : config) : effect :=
    match handle_config paths preset c with
    | None => Fails
    | Some (inl t) => Prints t
    | Some (inr c) => Runs (jobs_of c)
    end.
  (** [Check::run] and [Serve::run] (commands/lint.rs:22-26, 48-53). *)
  Definition run_lint (c : config) : effect := Lints (match c_lint c with Some r => r | None => recommended end).
  (** [split_once('=')] of each of the pairs (commands/jsx.rs:226-248). *)
  Definition pairs_ok (l : list text) : bool := forallb (existsb (N.eqb 61)) l.
  (** [resolve_config] (commands/jsx.rs:538-549) and the optimisation of [transform] (crates/oxvg_jsx/src/lib.rs:70-78). *)
  Definition run_jsx (options : option (bool * list text)) (c : config) : effect :=
    let jobs := match option_map (resolve_jobs default_params) (c_optimise c) with Some j => j | None => default default_params end in
    match options with
    | None => Runs jobs
    | Some (no_oxvg, pairs) => if pairs_ok pairs then if no_oxvg then Works else Runs jobs else Fails
    end.
  (** [main] (main.rs:11-29). *)
  Definition main (c : command) : effect :=
    match load with
    | None => Panics
    | Some config =>
      match c with
      | COptimise paths preset => run_optimise paths preset config
      | CFormat => Works
      | CCheck _ => run_lint config
      | CServe _ => run_lint config
      | CAction => Works
      | CJsx _ _ options => run_jsx options config
      end
    end.
End Config.
