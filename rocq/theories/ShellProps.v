From Coq Require Import String List NArith Bool Arith Permutation.
From Verif Require Import Chars ShellModel ShellSpec ShellProofs ShellProofs2 ShellProofs3.
Import ListNotations.

(** C110: with one path and [-o], what each document below the path becomes is in the file of the same name below the output, in whatever order the threads get to the files.
    Missing, and refuted below: several paths, outputs among the inputs, and [.] when standard input is not a terminal. *)
Theorem C110_written_partial : forall ignored denied shuffle, (forall l, Permutation (shuffle l) l) ->
  forall D parse serialise work o terminal stdin s w, leaves D parse serialise work ignored denied shuffle o terminal stdin s w -> tree s ->
  forall root out rest p rel t r, o_paths o = [root] -> (terminal = true \/ root <> []) -> o_output o = Some (out :: rest) ->
  apart ignored o s root out -> chosen ignored o s root p rel -> file_at s p = Some (Utf8 t) -> becomes D parse serialise work t r ->
  creatable denied s (out ++ rel) -> file_at (w_files w) (out ++ rel) = Some (Utf8 r).
Proof. exact commands_written. Qed.
Print Assumptions C110_written_partial.
(** C110: no other file is changed. *)
Theorem C110_untouched : forall ignored denied shuffle, (forall l, Permutation (shuffle l) l) ->
  forall D parse serialise work o terminal stdin s w, leaves D parse serialise work ignored denied shuffle o terminal stdin s w -> tree s ->
  forall root out rest q, o_paths o = [root] -> (terminal = true \/ root <> []) -> o_output o = Some (out :: rest) ->
  (forall p rel, chosen ignored o s root p rel -> q <> out ++ rel) -> file_at (w_files w) q = file_at s q.
Proof. exact commands_untouched. Qed.
Print Assumptions C110_untouched.
(** C110: for a document that cannot be handled nothing is written. *)
Theorem C110_failed : forall ignored denied shuffle, (forall l, Permutation (shuffle l) l) ->
  forall D parse serialise work o terminal stdin s w, leaves D parse serialise work ignored denied shuffle o terminal stdin s w -> tree s ->
  forall root out rest p rel t, o_paths o = [root] -> (terminal = true \/ root <> []) -> o_output o = Some (out :: rest) ->
  apart ignored o s root out -> chosen ignored o s root p rel -> file_at s p = Some (Utf8 t) -> fails D parse work t ->
  file_at (w_files w) (out ++ rel) = file_at s (out ++ rel) /\ In (Some p) (w_reports w).
Proof. exact commands_failed. Qed.
Print Assumptions C110_failed.
(** C110: without an output no file is changed, and what is printed is exactly what the documents below any of the paths become. *)
Theorem C110_printed : forall ignored denied shuffle, (forall l, Permutation (shuffle l) l) ->
  forall D parse serialise work o terminal stdin s w, leaves D parse serialise work ignored denied shuffle o terminal stdin s w -> tree s ->
  o_paths o <> [] -> (terminal = true \/ o_paths o <> [[]]) -> o_output o = None \/ o_output o = Some [] ->
  w_files w = s /\ forall r, In r (w_out w) <-> exists root p rel t, In root (o_paths o) /\ chosen ignored o s root p rel /\ file_at s p = Some (Utf8 t) /\ becomes D parse serialise work t r.
Proof. exact commands_printed. Qed.
Print Assumptions C110_printed.
(** C110: a document from standard input goes to the file that is given and nowhere else, and is printed if none is given or it is a directory. *)
Theorem C110_stdin : forall ignored denied shuffle, (forall l, Permutation (shuffle l) l) -> forall D parse serialise work o terminal stdin s w, leaves D parse serialise work ignored denied shuffle o terminal stdin s w ->
  forall t r, terminal = false -> o_paths o = [] -> stdin = Some t -> becomes D parse serialise work t r ->
  match o_output o with
  | Some (out :: _) => (is_dir s out = true -> w_files w = s /\ w_out w = [r]) /\
                       (creatable denied s out -> w_out w = [] /\ file_at (w_files w) out = Some (Utf8 r) /\ forall q, q <> out -> file_at (w_files w) q = file_at s q)
  | _ => w_files w = s /\ w_out w = [r]
  end.
Proof. intros ignored denied shuffle _. exact (commands_stdin ignored denied shuffle). Qed.
Print Assumptions C110_stdin.

(** C111: [format] succeeds exactly when no document was reported. *)
Theorem C111_format_status : forall ignored denied shuffle D parse serialise o terminal stdin s, o_paths o <> [] -> (terminal = true \/ o_paths o <> [[]]) ->
  (snd (format ignored denied shuffle D parse serialise o terminal stdin s) = true <-> w_reports (fst (format ignored denied shuffle D parse serialise o terminal stdin s)) = []).
Proof. exact format_status. Qed.
Print Assumptions C111_format_status.
(** C111: a document that cannot be parsed or handled, or not be written, or not to the end, is reported. *)
Theorem C111_reported : forall ignored denied shuffle, (forall l, Permutation (shuffle l) l) ->
  forall D parse serialise work o terminal stdin s w, leaves D parse serialise work ignored denied shuffle o terminal stdin s w -> tree s ->
  forall root out rest p rel t, o_paths o = [root] -> (terminal = true \/ root <> []) -> o_output o = Some (out :: rest) ->
  apart ignored o s root out -> chosen ignored o s root p rel -> file_at s p = Some (Utf8 t) ->
  (fails D parse work t \/ (exists r, becomes D parse serialise work t r) /\ (breaks D parse serialise work t /\ creatable denied s (out ++ rel) \/ denied (out ++ rel) = true)) ->
  In (Some p) (w_reports w).
Proof. exact commands_reported. Qed.
Print Assumptions C111_reported.
(** C111: and one that is handled and written to the end is not. *)
Theorem C111_quiet : forall ignored denied shuffle, (forall l, Permutation (shuffle l) l) ->
  forall D parse serialise work o terminal stdin s w, leaves D parse serialise work ignored denied shuffle o terminal stdin s w -> tree s ->
  forall root out rest p rel t d d', o_paths o = [root] -> (terminal = true \/ root <> []) -> o_output o = Some (out :: rest) ->
  apart ignored o s root out -> chosen ignored o s root p rel -> file_at s p = Some (Utf8 t) ->
  parse t = Some d -> work d = Some d' -> snd (serialise d') = true -> creatable denied s (out ++ rel) -> ~ In (Some p) (w_reports w).
Proof. exact commands_quiet. Qed.
Print Assumptions C111_quiet.
(** C111: [format] does to files what [optimise] does without jobs. *)
Theorem C111_same : forall ignored denied shuffle D parse serialise o terminal stdin s,
  let w := fst (format ignored denied shuffle D parse serialise o terminal stdin s) in
  let w' := fst (optimise ignored denied shuffle D parse serialise Some o terminal stdin s) in
  w_files w = w_files w' /\ w_out w = w_out w' /\ w_reports w = w_reports w'.
Proof. exact format_is_optimise. Qed.
Print Assumptions C111_same.

(** A small world: documents are texts, the empty one is not well-formed, and jobs add an exclamation mark. *)
Definition none (p : path) : bool := false.
Definition same_order (l : list path) : list path := l.
Definition p_text (t : text) : option text := match t with [] => None | _ => Some t end.
Definition s_text (t : text) : text * bool := (t, true).
Definition mark (t : text) : option text := Some (t ++ lit "!").
Definition here : fs :=
  [([lit "in"], Dir); ([lit "in"; lit "a.svg"], File (Utf8 (lit "A"))); ([lit "in"; lit "b.svg"], File (Utf8 [])); ([lit "in"; lit "c.txt"], File (Utf8 (lit "C")));
   ([lit "in"; lit "d"], Dir); ([lit "in"; lit "d"; lit "e.svg"], File (Utf8 (lit "E")))].
Definition into (paths : list path) (out : option (list path)) : options := mkOptions paths out true false false.

Example C110_sample :
  chosen none (into [[lit "in"]] (Some [[lit "out"]])) here [lit "in"] [lit "in"; lit "d"; lit "e.svg"] [lit "d"; lit "e.svg"] /\ becomes text p_text s_text mark (lit "E") (lit "E!") /\
  creatable none here [lit "out"; lit "d"; lit "e.svg"] /\ fails text p_text mark [] /\
  let w := fst (optimise none none same_order text p_text s_text mark (into [[lit "in"]] (Some [[lit "out"]])) true None here) in
  leaves text p_text s_text mark none none same_order (into [[lit "in"]] (Some [[lit "out"]])) true None here w /\
  map (file_at (w_files w)) [[lit "out"; lit "a.svg"]; [lit "out"; lit "b.svg"]; [lit "out"; lit "c.txt"]; [lit "out"; lit "d"; lit "e.svg"]; [lit "in"; lit "a.svg"]] =
    [Some (Utf8 (lit "A!")); None; None; Some (Utf8 (lit "E!")); Some (Utf8 (lit "A"))] /\ w_reports w = [Some [lit "in"; lit "b.svg"]].
Proof.
  split; [|split; [|split; [|split]]].
  - split; [reflexivity|]. split; [exists (lit "e"); split; [discriminate|reflexivity]|]. split; [discriminate|]. split; [discriminate|]. split; [|reflexivity].
    intros _ n I r ->. cbn in I. destruct I as [I|[I|[]]]; discriminate.
  - exists (lit "E"), (lit "E!"). repeat split.
  - split; [discriminate|]. split; [reflexivity|]. split; [discriminate|]. intros a b E Na Nb. right. split; [|reflexivity].
    destruct a as [|x a]; [congruence|]. injection E as <- E. destruct a as [|y a]; [reflexivity|]. injection E as <- E. destruct a as [|z a]; [reflexivity|].
    injection E as <- E. destruct a, b; try discriminate. congruence.
  - left. reflexivity.
  - cbn zeta. split; [left; reflexivity|]. split; vm_compute; reflexivity.
Qed.
(** The same directory as input and output: each file becomes its own result. *)
Example C110_sample_apart : apart none (into [[lit "in"]] (Some [[lit "in"]])) here [lit "in"] [lit "in"] /\ apart none (into [[lit "in"]] (Some [[lit "out"]])) here [lit "in"] [lit "out"] /\ tree here.
Proof.
  split; [|split].
  - intros p rel p' rel' (-> & _) _ E. now symmetry.
  - intros p rel p' rel' _ (-> & _) E. discriminate.
  - apply tree_check; [| |vm_compute; reflexivity].
    + cbn. repeat (constructor; [cbn; intuition discriminate|]). constructor.
    + cbn. intuition discriminate.
Qed.

(** C110, refuted: [-o] without a value is documented to write to the input, but writes to no file. *)
Theorem C110_in_place_refuted : exists o s p t r, o_output o = Some [] /\ tree s /\ chosen none o s p p [] /\ o_paths o = [p] /\ file_at s p = Some (Utf8 t) /\ becomes text p_text s_text mark t r /\
  let w := fst (optimise none none same_order text p_text s_text mark o true None s) in w_files w = s /\ file_at (w_files w) p <> Some (Utf8 r).
Proof.
  exists (into [[lit "in"; lit "a.svg"]] (Some [])), here, [lit "in"; lit "a.svg"], (lit "A"), (lit "A!").
  split; [reflexivity|]. split; [exact (proj2 (proj2 C110_sample_apart))|].
  split. { split; [reflexivity|]. split; [exists (lit "a"); split; [discriminate|reflexivity]|]. split; [discriminate|]. split; [discriminate|]. split; [intros _ n []|congruence]. }
  split; [reflexivity|]. split; [reflexivity|]. split; [exists (lit "A"), (lit "A!"); repeat split|]. split; [vm_compute; reflexivity|vm_compute; discriminate].
Qed.
(** C110, refuted: a file as the path and a directory as the output gives nothing. *)
Theorem C110_into_directory_refuted : exists o s p out t r, o_paths o = [p] /\ o_output o = Some [out] /\ get s out = Some Dir /\ file_at s p = Some (Utf8 t) /\ becomes text p_text s_text mark t r /\
  let w := fst (optimise none none same_order text p_text s_text mark o true None s) in w_files w = s /\ w_out w = [].
Proof.
  exists (into [[lit "in"; lit "a.svg"]] (Some [[lit "in"; lit "d"]])), here, [lit "in"; lit "a.svg"], [lit "in"; lit "d"], (lit "A"), (lit "A!").
  split; [reflexivity|]. split; [reflexivity|]. split; [reflexivity|]. split; [reflexivity|]. split; [exists (lit "A"), (lit "A!"); repeat split|]. split; vm_compute; reflexivity.
Qed.
(** C110, refuted: of several paths with one output, what one becomes is lost. *)
Theorem C110_several_refuted : exists o s p q t r, o_paths o = [p; q] /\ o_output o <> None /\ p <> q /\ file_at s p = Some (Utf8 t) /\ becomes text p_text s_text mark t r /\
  let w := fst (optimise none none same_order text p_text s_text mark o true None s) in w_reports w = [] /\ w_out w = [] /\ forall e, In e (w_files w) -> snd e <> File (Utf8 r).
Proof.
  exists (into [[lit "in"; lit "a.svg"]; [lit "in"; lit "d"; lit "e.svg"]] (Some [[lit "out.svg"]])), here, [lit "in"; lit "a.svg"], [lit "in"; lit "d"; lit "e.svg"], (lit "A"), (lit "A!").
  split; [reflexivity|]. split; [discriminate|]. split; [discriminate|]. split; [reflexivity|]. split; [exists (lit "A"), (lit "A!"); repeat split|].
  cbn zeta. split; [vm_compute; reflexivity|]. split; [vm_compute; reflexivity|].
  intros e I. vm_compute in I. repeat (destruct I as [<-|I]; [discriminate|]). destruct I.
Qed.
(** C110, refuted: with an output below the path, what is written depends on the order in which the threads get to the files. *)
Theorem C110_order_refuted : exists o s q, tree s /\ o_paths o = [[lit "in"]] /\
  file_at (w_files (fst (optimise none none same_order text p_text s_text mark o true None s))) q <> file_at (w_files (fst (optimise none none (@rev path) text p_text s_text mark o true None s))) q.
Proof.
  exists (into [[lit "in"]] (Some [[lit "in"; lit "d"]])), [([lit "in"], Dir); ([lit "in"; lit "a.svg"], File (Utf8 (lit "A"))); ([lit "in"; lit "d"], Dir); ([lit "in"; lit "d"; lit "a.svg"], File (Utf8 (lit "B")))], [lit "in"; lit "d"; lit "d"; lit "a.svg"].
  split; [|split; [reflexivity|vm_compute; discriminate]].
  apply tree_check; [| |vm_compute; reflexivity].
  + cbn. repeat (constructor; [cbn; intuition discriminate|]). constructor.
  + cbn. intuition discriminate.
Qed.
(** C110, refuted: when standard input is not a terminal, as in a script, the current directory as the path is not read. *)
Theorem C110_dot_refuted : exists o s p rel t r, o_paths o = [[]] /\ chosen none o s [] p rel /\ file_at s p = Some (Utf8 t) /\ becomes text p_text s_text mark t r /\
  w_out (fst (optimise none none same_order text p_text s_text mark o true (Some []) s)) = [r] /\
  let w := fst (optimise none none same_order text p_text s_text mark o false (Some []) s) in w_files w = s /\ w_out w = [].
Proof.
  exists (into [[]] None), [([lit "a.svg"], File (Utf8 (lit "A")))], [lit "a.svg"], [lit "a.svg"], (lit "A"), (lit "A!").
  split; [reflexivity|]. split. { split; [reflexivity|]. split; [exists (lit "a"); split; [discriminate|reflexivity]|]. split; [discriminate|]. split; [discriminate|]. split; [|reflexivity].
    intros _ n I r ->. cbn in I. destruct I as [I|[]]; discriminate. }
  split; [reflexivity|]. split; [exists (lit "A"), (lit "A!"); repeat split|]. split; [vm_compute; reflexivity|]. split; vm_compute; reflexivity.
Qed.

(** [format] fails for [here], as one document is not well-formed, and succeeds for a part of it. *)
Example C111_sample :
  format none none same_order text p_text s_text (into [[lit "in"]] None) true None here = (mkWorld here [lit "A"; lit "E"] [Some [lit "in"; lit "b.svg"]] true, false) /\
  format none none same_order text p_text s_text (into [[lit "in"; lit "d"]] None) true None here = (mkWorld here [lit "E"] [] false, true).
Proof. split; vm_compute; reflexivity. Qed.
(** C111, refuted: [optimise] and [action] succeed though documents fail. *)
Theorem C111_status_refuted : exists o s p t, chosen none o s p p [] /\ o_paths o = [p] /\ file_at s p = Some (Utf8 t) /\ fails text p_text mark t /\
  snd (optimise none none same_order text p_text s_text mark o true None s) = true /\ snd (action none none same_order text p_text s_text (Some mark) o true None s) = true /\
  w_reports (fst (action none none same_order text p_text s_text (Some mark) o true None s)) = [Some p].
Proof.
  exists (into [[lit "in"; lit "b.svg"]] None), here, [lit "in"; lit "b.svg"], [].
  split. { split; [reflexivity|]. split; [exists (lit "b"); split; [discriminate|reflexivity]|]. split; [discriminate|]. split; [discriminate|]. split; [intros _ n []|congruence]. }
  split; [reflexivity|]. split; [reflexivity|]. split; [left; reflexivity|]. split; [|split]; vm_compute; reflexivity.
Qed.
(** C111, refuted: [lint check] succeeds whatever is found and whatever level is asked for. *)
Theorem C111_lint_refuted : exists o s p, o_paths o = [p] /\ forall l, let r := check none same_order (fun _ => Problems [LError; LWarn]) l o true None s in w_reports (fst r) = [Some p] /\ snd r = true.
Proof. exists (into [[lit "in"; lit "a.svg"]] None), here, [lit "in"; lit "a.svg"]. split; [reflexivity|]. intros l. cbn zeta. split; vm_compute; reflexivity. Qed.
(** C111, refuted: a path that does not exist, and a document that is not UTF-8, are left out without a word and [format] succeeds. *)
Theorem C111_silent_refuted :
  (exists o s p, o_paths o = [p] /\ get s p = None /\ format none none same_order text p_text s_text o true None s = (start s, true)) /\
  (exists o s p, o_paths o = [p] /\ chosen none o s p p [] /\ format none none same_order text p_text s_text o true None s = (start s, true)).
Proof.
  split.
  - exists (into [[lit "im"]] None), here, [lit "im"]. split; [reflexivity|]. split; vm_compute; reflexivity.
  - exists (into [[lit "a.svg"]] None), [([lit "a.svg"], File (Raw 255))], [lit "a.svg"]. split; [reflexivity|].
    split; [|vm_compute; reflexivity]. split; [reflexivity|]. split; [exists (lit "a"); split; [discriminate|reflexivity]|]. split; [discriminate|]. split; [discriminate|]. split; [intros _ n []|congruence].
Qed.
