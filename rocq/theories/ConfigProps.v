From Coq Require Import String List NArith Bool.
From Verif Require Import Chars JobsModel ConfigModel ConfigSpec ConfigProofs.
Import ListNotations.

(** C124: the configuration of a command. *)
Theorem C124_file_partial : forall (P : Type) (defaults : job -> P) read write files local base c0 p l e c,
  found read files local base c0 -> holds read files p c -> omits_from_preset c ->
  runs_with defaults (main defaults read write files local (Some base) (COptimise (Some (p :: l)) e)) c.
Proof. exact @optimise_file. Qed.
Print Assumptions C124_file_partial.
Theorem C124_missing : forall (P : Type) (defaults : job -> P) read write files local base c0 p l e,
  found read files local base c0 -> (forall c, ~ holds read files p c) -> main defaults read write files local (Some base) (COptimise (Some (p :: l)) e) = Fails.
Proof. exact @optimise_missing. Qed.
Print Assumptions C124_missing.
Theorem C124_preset_partial : forall (P : Type) (defaults : job -> P) read write files local base c0 e,
  found read files local base c0 -> exists js, main defaults read write files local (Some base) (COptimise None (Some e)) = Runs js /\ forall j, js j = preset defaults e j.
Proof. exact @optimise_preset. Qed.
Print Assumptions C124_preset_partial.
Theorem C124_found_partial : forall (P : Type) (defaults : job -> P) read write files local base c,
  found read files local base c -> omits_from_preset c -> runs_with defaults (main defaults read write files local (Some base) (COptimise None None)) c.
Proof. exact @optimise_found. Qed.
Print Assumptions C124_found_partial.
Theorem C124_lint_partial : forall (P : Type) (defaults : job -> P) read write files local base c k,
  found read files local base c -> (k = CCheck None \/ k = CServe None) -> exists r, main defaults read write files local (Some base) k = Lints r /\ means_rules c r.
Proof. exact @lint_found. Qed.
Print Assumptions C124_lint_partial.
Theorem C124_jsx_partial : forall (P : Type) (defaults : job -> P) read write files local base c,
  found read files local base c -> omits_from_preset c -> runs_with defaults (main defaults read write files local (Some base) (CJsx None None None)) c.
Proof. exact @jsx_found. Qed.
Print Assumptions C124_jsx_partial.
Theorem C124_jsx_options_partial : forall (P : Type) (defaults : job -> P) read write files local base c n ps, found read files local base c -> omits_from_preset c ->
  (Forall (In 61%N) ps -> n = false -> runs_with defaults (main defaults read write files local (Some base) (CJsx None None (Some (n, ps)))) c) /\
  (Forall (In 61%N) ps -> n = true -> main defaults read write files local (Some base) (CJsx None None (Some (n, ps))) = Works) /\
  (~ Forall (In 61%N) ps -> main defaults read write files local (Some base) (CJsx None None (Some (n, ps))) = Fails).
Proof. exact @jsx_options. Qed.
Print Assumptions C124_jsx_options_partial.
(** Every command panics if, and only if, the configuration that is found cannot be read. *)
Theorem C124_panics_partial : forall (P : Type) (defaults : job -> P) read write files local base k,
  main defaults read write files local (Some base) k = Panics <-> broken read files local base.
Proof. exact @panics. Qed.
Print Assumptions C124_panics_partial.
Theorem C124_unconcerned_partial : forall (P : Type) (defaults : job -> P) read write files local base c k,
  found read files local base c -> (k = CFormat \/ k = CAction) -> main defaults read write files local (Some base) k = Works.
Proof. exact @unconcerned. Qed.
Print Assumptions C124_unconcerned_partial.
(** What [--config] prints is a configuration of the jobs that are run without it, and of the rules if there are some. *)
Theorem C124_print_partial : forall (P : Type) (defaults : job -> P) read write files local base e c,
  (forall c, read (write c) = Some c) -> found read files local base c -> omits_from_preset c ->
  exists t c', main defaults read write files local (Some base) (COptimise (Some []) e) = Prints t /\ read t = Some c' /\
    runs_with defaults (main defaults read write files local (Some base) (COptimise None None)) c' /\ forall r, c_lint c = Some r -> means_rules c' r.
Proof. exact @printed_again. Qed.
Print Assumptions C124_print_partial.

(** A small world: settings are numbers; a text that starts with [!] is no configuration, one that starts with [x] removes comments only and turns linting off. *)
Definition only_comments : config (P := nat) := Config (Some (Optimise (Some ExtendsNone) (fun j => match j with RemoveComments => Some 1 | _ => None end) None)) (Some (Rules Off Off Off Off Off Off Off Off)).
Definition reading (t : text) : option (config (P := nat)) := match t with 33%N :: _ => None | 120%N :: _ => Some only_comments | _ => Some (Config None None) end.
Definition numbers (j : job) : nat := 0.
Definition nothing (c : config (P := nat)) : text := [].
Definition here (t : text) : option text := if text_eqb t (lit "given") then Some (lit "x") else None.
Definition broken_here (t : text) : option text := if text_eqb t (lit "given") then Some (lit "x") else Some (lit "!").
Example C124_example : found reading here (lit "oxvgrc.json") (lit "config.json") (Config None None) /\ holds reading here (lit "given") only_comments /\ omits_from_preset only_comments /\
  exists js, main numbers reading nothing here (lit "oxvgrc.json") (Some (lit "config.json")) (COptimise (Some [lit "given"]) None) = Runs js /\ js RemoveComments = Some 1 /\ js CleanupIds = None.
Proof.
  split; [apply found_none; reflexivity|]. split; [exists (lit "x"); split; reflexivity|]. split; [intros o l H; injection H as <-; discriminate|].
  eexists. split; [reflexivity|]. split; reflexivity.
Qed.
(** The linter and its server pay no attention to the file they are given. *)
Theorem C124_lint_refuted : exists files local base p c r, found reading files local base (Config None None) /\ holds reading files p c /\
  main numbers reading nothing files local (Some base) (CCheck (Some [p])) = Lints r /\ main numbers reading nothing files local (Some base) (CServe (Some [p])) = Lints r /\ ~ means_rules c r.
Proof.
  exists here, (lit "oxvgrc.json"), (lit "config.json"), (lit "given"), only_comments, recommended. split; [apply found_none; reflexivity|]. split; [exists (lit "x"); split; reflexivity|].
  split; [reflexivity|]. split; [reflexivity|]. intros H. inversion H as [r E|E]; discriminate E.
Qed.
Print Assumptions C124_lint_refuted.
(** Nor does the converter to JSX, nor to the preset it is given. *)
Theorem C124_jsx_refuted : exists files local base p c js, found reading files local base (Config None None) /\ holds reading files p c /\
  main numbers reading nothing files local (Some base) (CJsx (Some [p]) None None) = Runs js /\ ~ (forall j, means numbers c j (js j)) /\
  main numbers reading nothing files local (Some base) (CJsx None (Some ExtendsNone) None) = Runs js /\ exists j, js j <> preset numbers ExtendsNone j.
Proof.
  exists here, (lit "oxvgrc.json"), (lit "config.json"), (lit "given"), only_comments, (default numbers). split; [apply found_none; reflexivity|]. split; [exists (lit "x"); split; reflexivity|].
  split; [reflexivity|]. split; [|split; [reflexivity|]; exists RemoveComments; discriminate].
  intros H. specialize (H CleanupIds). inversion H as [A|o A B C|o l A B C|o e p A B C D|o e A B C D]; try discriminate A; injection A as <-; try discriminate. cbn in B. injection B as <-. discriminate.
Qed.
Print Assumptions C124_jsx_refuted.
(** A broken file that nobody asked for stops the command that has one that can be read, and those that need none. *)
Theorem C124_broken_refuted : exists files local base p c, holds reading files p c /\
  main numbers reading nothing files local (Some base) (COptimise (Some [p]) None) = Panics /\ main numbers reading nothing files local (Some base) CFormat = Panics.
Proof. exists broken_here, (lit "oxvgrc.json"), (lit "config.json"), (lit "given"), only_comments. split; [exists (lit "x"); split; reflexivity|]. split; reflexivity. Qed.
Print Assumptions C124_broken_refuted.
(** The rules that are printed without a configuration are not the ones that are used. *)
Theorem C124_print_refuted : exists (read : text -> option (config (P := nat))) write files local base c r s,
  found read files local base (Config None None) /\ main numbers read write files local (Some base) (COptimise (Some []) None) = Prints (write c) /\ read (write c) = Some c /\
  means_rules c r /\ main numbers read write files local (Some base) (CCheck None) = Lints s /\ r <> s.
Proof.
  exists (fun _ => Some (Config (Some (default_optimise numbers)) (Some default_rules))), nothing, (fun _ => None), (lit "oxvgrc.json"), (lit "config.json"). eexists. exists default_rules, recommended.
  split; [apply found_none; reflexivity|]. split; [reflexivity|]. split; [reflexivity|]. split; [apply means_given; reflexivity|]. split; [reflexivity|]. discriminate.
Qed.
Print Assumptions C124_print_refuted.
(** With a preset, what is printed is not what is run with that preset. *)
Theorem C124_print_preset_refuted : exists (read : text -> option (config (P := nat))) write files local base c js,
  found read files local base (Config None None) /\ main numbers read write files local (Some base) (COptimise (Some []) (Some ExtendsNone)) = Prints (write c) /\ read (write c) = Some c /\
  main numbers read write files local (Some base) (COptimise None (Some ExtendsNone)) = Runs js /\ ~ runs_with numbers (Runs js) c.
Proof.
  exists (fun _ => Some (Config (Some (default_optimise numbers)) (Some default_rules))), nothing, (fun _ => None), (lit "oxvgrc.json"), (lit "config.json"). eexists. eexists.
  split; [apply found_none; reflexivity|]. split; [reflexivity|]. split; [reflexivity|]. split; [reflexivity|].
  intros (js & E & H). injection E as <-. specialize (H RemoveComments). inversion H as [A|o A B C D|o l A B C|o e p A B C D|o e A B C D]; try discriminate A; injection A as <-; discriminate.
Qed.
Print Assumptions C124_print_preset_refuted.
(** Without a directory for configurations of the user every command panics unless there is a file in the current one. *)
Theorem C124_homeless_refuted : exists files local, files local = None /\ main numbers reading nothing files local None CFormat = Panics.
Proof. exists (fun _ => None), (lit "oxvgrc.json"). split; reflexivity. Qed.
Print Assumptions C124_homeless_refuted.
