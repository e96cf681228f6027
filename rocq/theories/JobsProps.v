(** Properties C36, C37 and C57: job configuration, running the jobs, SVGO configurations. *)
From Coq Require Import String List NArith Bool Arith.
From Verif Require Import Chars JobsModel JobsSpec JobsProofs.
Import ListNotations.

(** ** C36 *)

(** Merging takes the second configuration's settings where it has them and the first one's elsewhere; it is associative,
    repeating it changes nothing, and the empty configuration is neutral. *)
Theorem C36_extend (P : Type) (a b c : job -> option P) (j : job) :
  (forall p, b j = Some p -> extend a b j = Some p) /\
  (b j = None -> extend a b j = a j) /\
  extend a (extend b c) j = extend (extend a b) c j /\
  extend (extend a b) b j = extend a b j /\
  extend a (fun _ => None) j = a j.
Proof.
  split; [intros p E; rewrite extend_spec, E; reflexivity|]. split; [intros E; rewrite extend_spec, E; reflexivity|].
  split; [apply extend_assoc|]. split; [apply extend_idem|]. exact (proj1 (extend_none a j)).
Qed.

(** With a preset to extend, an omitted job is off; a job that is not omitted has the user's settings, or else the preset's. *)
Theorem C36_resolve_partial (P : Type) (defaults : job -> P) (o : optimise) (e : extends) (j : job) :
  o_extends o = Some e ->
  (forall l, o_omit o = Some l -> In (field_name j) l -> resolve_jobs defaults o j = None) /\
  ((forall l, o_omit o = Some l -> ~ In (field_name j) l) ->
   resolve_jobs defaults o j = match o_jobs o j with Some p => Some p | None => preset defaults e j end).
Proof. exact (resolve_spec defaults o e j). Qed.
(** Distinct jobs have distinct names, so that omitting one leaves the others alone. *)
Theorem C36_names (a b : job) : field_name a = field_name b -> a = b.
Proof. exact (field_name_inj a b). Qed.
(** The safe preset is the default one and the precheck. *)
Theorem C36_safe (P : Type) (defaults : job -> P) (j : job) :
  (j = Precheck -> preset defaults ExtendsSafe j = Some (defaults j)) /\
  (j <> Precheck -> preset defaults ExtendsSafe j = preset defaults ExtendsDefault j).
Proof. cbn [preset]. rewrite safe_spec. destruct j; split; congruence || reflexivity. Qed.
(** Without a preset the list of omitted jobs is ignored. *)
Theorem C36_omit_refuted : exists (o : optimise (P := nat)) (j : job) (l : list text),
  o_omit o = Some l /\ In (field_name j) l /\ resolve_jobs (fun _ => 0) o j <> None.
Proof.
  exists {| o_extends := None; o_jobs := fun j => match j with CleanupIds => Some 1 | _ => None end; o_omit := Some [lit "cleanup_ids"] |},
    CleanupIds, [lit "cleanup_ids"]. split; [reflexivity|]. split; [left; reflexivity|]. vm_compute. discriminate.
Qed.
(** Without a preset the configured jobs are the user's. *)
Theorem C36_no_preset_partial (P : Type) (defaults : job -> P) (o : optimise) (j : job) :
  o_extends o = None -> resolve_jobs defaults o j = o_jobs o j.
Proof. exact (resolve_without defaults o j). Qed.
Print Assumptions C36_extend.
Print Assumptions C36_resolve_partial.
Print Assumptions C36_names.
Print Assumptions C36_safe.
Print Assumptions C36_omit_refuted.
Print Assumptions C36_no_preset_partial.

Example C36_example :
  let o := {| o_extends := Some ExtendsDefault; o_jobs := fun j => match j with PrefixIds => Some 7 | _ => None end;
              o_omit := Some [lit "cleanup_ids"; lit "cleanupAttrs"] |} in
  let c := resolve_jobs (fun _ => 1) o in
  c PrefixIds = Some 7 /\ c CleanupIds = None /\ c CleanupAttrs = Some 1 /\ c RemoveScripts = None.
Proof. vm_compute. auto. Qed.

(** ** C37 *)

(** A run executes the configured jobs in table order: all of them, or those up to and including the first one that fails with
    an error that matters, which is then the result. Otherwise the count is that of the jobs that finished without skipping.
    The document is the one the executed jobs produce one after the other. *)
Theorem C37_run (P D : Type) (start : job -> P -> D -> outcome * D) (c : job -> option P) (d : D) :
  exists executed rest outcomes,
    configured c = executed ++ rest /\
    runs start c executed d outcomes (snd (run_jobs start c d)) /\
    match fst (run_jobs start c d) with
    | inr n => rest = [] /\ Forall (fun o => ~ fatal o) outcomes /\ n = List.length (filter counted outcomes)
    | inl e => exists before, outcomes = before ++ [Failed e] /\ fatal (Failed e) /\ Forall (fun o => ~ fatal o) before
    end.
Proof. exact (run_jobs_spec start c d). Qed.
(** Each configured job is in the list once, and nothing else is. *)
Theorem C37_each_once (P : Type) (c : job -> option P) :
  NoDup (configured c) /\ forall j, In j (configured c) <-> exists p, c j = Some p.
Proof. exact (configured_spec c). Qed.
(** The whole run reports just such an error, and leaves a document without an element alone. *)
Theorem C37_result (P D : Type) (start : job -> P -> D -> outcome * D) (has_element : D -> bool) (c : job -> option P) (d : D) :
  (has_element d = false -> run start has_element c d = (None, d)) /\
  (has_element d = true -> run start has_element c d =
    (match fst (run_jobs start c d) with inl e => Some e | inr _ => None end, snd (run_jobs start c d))).
Proof. split; [apply run_empty|apply run_result]. Qed.
(** Configurations with the same settings run alike, however they were put together. *)
Theorem C37_same_settings (P D : Type) (start : job -> P -> D -> outcome * D) (has_element : D -> bool) (c c' : job -> option P) (d : D) :
  (forall j, c j = c' j) -> run start has_element c d = run start has_element c' d.
Proof. exact (run_ext start has_element c c' d). Qed.
Print Assumptions C37_run.
Print Assumptions C37_each_once.
Print Assumptions C37_result.
Print Assumptions C37_same_settings.

(** Jobs that write their name into the document: [remove_attrs] fails on the user's regex, [inline_styles] on computed styles. *)
Example C37_example :
  let start j (p : bool) d := ((match j with
                                | InlineStyles => Failed ComputedStylesError
                                | RemoveAttrs => if p then Failed InvalidUserRegex else Finished true
                                | _ => Finished false end), d ++ [j]) in
  let c p := fun j => match j with RemoveXlink | InlineStyles | Precheck | RemoveAttrs => Some p | _ => None end in
  run_jobs start (c false) [] = (inr 2, [Precheck; RemoveAttrs; InlineStyles; RemoveXlink]) /\
  run_jobs start (c true) [] = (inl InvalidUserRegex, [Precheck; RemoveAttrs]).
Proof. vm_compute. auto. Qed.

(** ** C57 *)

(** A list of plugin names: the jobs they name are on with their defaults, [preset-default] standing for the default jobs
    and [convertPathData] for [apply_transforms] as well, all others are off; the list is rejected exactly when it has a
    name of no job. *)
Theorem C57_names_partial (P R : Type) (defaults : job -> P) decode decode_path decode_apply (l : list text) :
  Forall (fun s => ~ In 95%N s) l ->
  match from_svgo_plugin_config (R := R) defaults decode decode_path decode_apply (Some (map PString l)) with
  | Some c => Forall (fun s => s = lit "preset-default" \/ exists j, names s j) l /\
              forall j, (Exists (fun s => asks s j) l -> c j = Some (defaults j)) /\
                        (~ Exists (fun s => asks s j) l -> c j = None)
  | None => Exists (fun s => s <> lit "preset-default" /\ forall j, ~ names s j) l
  end.
Proof. exact (svgo_strings defaults decode decode_path decode_apply l). Qed.
(** A plugin with parameters sets that job's settings to the decoded ones and nothing else, except for [convertPathData]. *)
Theorem C57_params_partial (P R : Type) (defaults : job -> P) decode decode_path decode_apply (svgo : text) (r : R) (c : job -> option P) (j : job) (p : P) :
  ~ In 95%N svgo -> names svgo j -> j <> ConvertPathData -> decode j r = Some p ->
  exists c', svgo_step defaults decode decode_path decode_apply c (PObject (Some svgo) (Some r)) = Some c' /\
    c' j = Some p /\ forall k, k <> j -> c' k = c k.
Proof. exact (object_step defaults decode decode_path decode_apply svgo r c j p). Qed.
(** The default preset is not accepted in the object form, where SVGO takes its overrides. *)
Theorem C57_preset_refuted : exists params : option nat,
  from_svgo_plugin_config (P := nat) (fun _ => 0) (fun _ _ => Some 1) (fun _ => Some 1) (fun _ => None)
    (Some [PObject (Some (lit "preset-default")) params]) = None.
Proof. exists (Some 0). vm_compute. reflexivity. Qed.
(** Parameters of [convertPathData] that are not an object turn the whole job off without an error. *)
Theorem C57_path_refuted : exists (decode_path : nat -> option nat) (c : job -> option nat),
  from_svgo_plugin_config (fun _ => 0) (fun _ _ => Some 1) decode_path (fun _ => None)
    (Some [PObject (Some (lit "convertPathData")) (Some 0)]) = Some c /\ c ConvertPathData = None.
Proof. exists (fun _ => None), none. split; [vm_compute|]; reflexivity. Qed.
Print Assumptions C57_names_partial.
Print Assumptions C57_params_partial.
Print Assumptions C57_preset_refuted.
Print Assumptions C57_path_refuted.

Example C57_example :
  match from_svgo_plugin_config (R := nat) (fun _ => 0) (fun _ r => Some r) (fun r => Some r) (fun _ => None)
    (Some [PString (lit "removeXMLNS"); PString (lit "convertPathData"); PObject (Some (lit "prefixIds")) (Some 3)]) with
  | Some c => configured c = [RemoveXMLNS; ApplyTransforms; ConvertPathData; PrefixIds] /\ c PrefixIds = Some 3
  | None => False
  end.
Proof. vm_compute. auto. Qed.
Example C57_example_name : names (lit "removeXMLNS") RemoveXMLNS /\ ~ In 95%N (lit "removeXMLNS").
Proof. split; [apply snake_camel; [vm_compute; intuition discriminate|reflexivity]|vm_compute; intuition discriminate]. Qed.
