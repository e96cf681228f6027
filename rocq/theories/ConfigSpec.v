(** Which configuration a command is to run with (the help of the command line), apart from the model's functions. *)
From Coq Require Import String List NArith Bool.
From Verif Require Import Chars JobsModel ConfigModel.
Import ListNotations.

Section Spec.
  Context {P : Type}.
  Variable default_params : job -> P.
  Variable read : text -> option (config (P := P)).
  Variable files : text -> option text.
  (** The configuration that is in a file. *)
  Definition holds (p : text) (c : config) : Prop := exists t, files p = Some t /\ read t = Some c.
  (** The configuration that is found without being asked for: that of the directory, else that of the user, else none. *)
  Inductive found (local base : text) : config (P := P) -> Prop :=
  | found_local c : holds local c -> found local base c
  | found_base c : files local = None -> holds base c -> found local base c
  | found_none : files local = None -> files base = None -> found local base (Config None None).
  (** The file that is found cannot be read as a configuration. *)
  Definition broken (local base : text) : Prop :=
    (exists t, files local = Some t /\ read t = None) \/ (files local = None /\ exists t, files base = Some t /\ read t = None).
  (** The jobs a configuration means: those of the default preset if it is silent; else those it has, over the preset it extends, without the omitted ones. *)
  Inductive means (c : config (P := P)) (j : job) : option P -> Prop :=
  | means_default : c_optimise c = None -> means c j (preset default_params ExtendsDefault j)
  | means_plain o : c_optimise c = Some o -> o_extends o = None -> (forall l, o_omit o = Some l -> ~ In (field_name j) l) -> means c j (o_jobs o j)
  | means_omitted o l : c_optimise c = Some o -> o_omit o = Some l -> In (field_name j) l -> means c j None
  | means_own o e p : c_optimise c = Some o -> o_extends o = Some e -> (forall l, o_omit o = Some l -> ~ In (field_name j) l) -> o_jobs o j = Some p -> means c j (Some p)
  | means_preset o e : c_optimise c = Some o -> o_extends o = Some e -> (forall l, o_omit o = Some l -> ~ In (field_name j) l) -> o_jobs o j = None ->
      means c j (preset default_params e j).
  (** A configuration that omits jobs extends a preset (without one the omitted jobs are run, C36). *)
  Definition omits_from_preset (c : config (P := P)) : Prop := forall o l, c_optimise c = Some o -> o_omit o = Some l -> o_extends o <> None.
  (** The rules a configuration means. *)
  Inductive means_rules (c : config (P := P)) : rules -> Prop :=
  | means_given r : c_lint c = Some r -> means_rules c r
  | means_recommended : c_lint c = None -> means_rules c recommended.
  (** A command runs with the jobs that a configuration means. *)
  Definition runs_with (e : effect (P := P)) (c : config) : Prop := exists js, e = Runs js /\ forall j, means c j (js j).
End Spec.
