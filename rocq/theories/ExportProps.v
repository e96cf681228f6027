From Coq Require Import String List NArith Bool Arith.
From Verif Require Import Chars ParseModel OnsetModel ShellModel ShellSpec ExportModel ExportSpec ExportProofs ExportProofs2.
Import ListNotations.

(** C113: a component is called by the words of the name of its file, each with a capital.  Missing, and refuted below: names that begin with a digit. *)
Theorem C113_words_partial : forall ws stem, joined ws stem -> match ws with (c :: _) :: _ => ~ decimal c | _ => True end -> pascal_of ws (component_name stem).
Proof. exact component_words. Qed.
Print Assumptions C113_words_partial.
(** C113: every name is made of words. *)
Theorem C113_joined : forall stem, exists ws, joined ws stem.
Proof. exact every_joined. Qed.
Print Assumptions C113_joined.
(** C113: it is a name JSX takes as a component.  Missing, and refuted below: names that begin with a digit, and names without a letter of ASCII. *)
Theorem C113_component_partial : forall ws stem, joined ws stem -> ws <> [] -> match ws with (c :: _) :: _ => ~ decimal c | _ => True end -> component (component_name stem).
Proof. exact component_capital. Qed.
Print Assumptions C113_component_partial.
(** C113: it is never a name that JavaScript cannot read, unless it is empty. *)
Theorem C113_identifier_partial : forall stem, match component_name stem with [] => True | c :: r => (lower_case c \/ upper_case c) /\ Forall word_char r end.
Proof. exact component_identifier. Qed.
Print Assumptions C113_identifier_partial.
(** C113: a document that can be transformed gets its file and its line in the index beside it, and no other file changes. *)
Theorem C113_document : forall denied D parse transform o source d input dest out w,
  parse source = Some d -> component_file o input dest = Some out -> snd (transform d (name_for input)) = true ->
  creatable denied (w_files w) out -> denied (index_of o out) = false -> get (w_files w) (index_of o out) <> Some Dir -> (forall n, file_at (w_files w) (index_of o out) <> Some (Raw n)) ->
  let w' := visit_jsx denied D parse transform o source input dest w in
  file_at (w_files w') out = Some (Utf8 (fst (transform d (name_for input)))) /\
  file_at (w_files w') (index_of o out) = Some (Utf8 (match file_at (w_files w) (index_of o out) with Some (Utf8 t) => t | _ => [] end ++ export_line (j_named o) (name_for input) (file_stem (last out [])))) /\
  (forall q, q <> out -> q <> index_of o out -> file_at (w_files w') q = file_at (w_files w) q) /\ w_out w' = w_out w /\ w_reports w' = w_reports w.
Proof. exact document. Qed.
Print Assumptions C113_document.
(** C113: the index of a directory gets a line for each document whose component goes there, in the order of the documents. *)
Theorem C113_index : forall denied D parse transform o parent docs names, Forall2 (goes_to D parse transform denied o parent) docs names -> denied (index_of o (parent ++ [[]])) = false ->
  forall w all, (forall n, In n names -> In n all) -> ready o parent all (w_files w) ->
  let w' := visit_all denied D parse transform o docs w in
  old (w_files w') (index_of o (parent ++ [[]])) = old (w_files w) (index_of o (parent ++ [[]])) ++ concat (map (fun xn => export_line (j_named o) (name_for (snd (fst (fst xn)))) (file_stem (snd xn))) (combine docs names)) /\ w_reports w' = w_reports w.
Proof. exact index_fold. Qed.
Print Assumptions C113_index.

(** Documents are texts, the empty one cannot be transformed. *)
Definition nothing (p : path) : bool := false.
Definition as_is (l : list path) : list path := l.
Definition well_formed (t : text) : option text := Some t.
Definition to_jsx (t name : text) : text * bool := match t with [] => ([], false) | _ => (name ++ 61%N :: t, true) end.
Definition js : jsx_options := mkJsx false false false.
Definition icons : fs := [([lit "icons"], Dir); ([lit "icons"; lit "arrow-left.svg"], File (Utf8 (lit "<"))); ([lit "icons"; lit "24_hours.svg"], File (Utf8 (lit "T")))].
Definition walk_to (out : option (list path)) : options := mkOptions [[lit "icons"]] out false false false.
Example C113_sample :
  map (fun s => component_name (lit s)) ["arrow-left"; "arrowLeft_2x"; "a.b"; "24 hours"]%string = map lit ["ArrowLeft"; "ArrowLeft2x"; "AB"; "Hours"]%string /\
  joined [lit "arrow"; lit "left"] (lit "arrow-left") /\
  let r := jsx nothing text well_formed to_jsx js nothing as_is (walk_to (Some [[lit "out"]])) true None icons in
  snd r = true /\ map (file_at (w_files (fst r))) [[lit "out"; lit "arrow-left.jsx"]; [lit "out"; lit "24_hours.jsx"]; [lit "out"; lit "index.js"]] =
    [Some (Utf8 (lit "ArrowLeft=<")); Some (Utf8 (lit "Hours=T"));
     Some (Utf8 (lit "export { default as ArrowLeft } from ""./arrow-left""" ++ 10%N :: lit "export { default as Hours } from ""./24_hours""" ++ [10%N]))].
Proof.
  split; [vm_compute; reflexivity|]. split; [|split; vm_compute; reflexivity].
  assert (W : forall t, forallb alphanumeric t = true -> Forall word_char t).
  { intros t F. rewrite forallb_forall in F. apply Forall_forall. intros c I. apply alphanumeric_spec, F, I. }
  assert (N : ~ word_char 45) by (intros X; apply alphanumeric_spec in X; discriminate X).
  refine (J_word [] (lit "arrow") [lit "left"] (lit "-left") _ _ _ _ _); [constructor|discriminate|apply W; reflexivity| |exact N].
  refine (J_word [45%N] (lit "left") [] [] _ _ _ _ _); [constructor; [exact N|constructor]|discriminate|apply W; reflexivity|constructor; constructor|exact (Logic.I)].
Qed.
(** C113, refuted: a name that begins with a digit gives one without a capital, which JSX takes as an element of HTML, or a reserved word of JavaScript; and one without letters of ASCII gives none. *)
Theorem C113_name_refuted : component_name (lit "1icon") = lit "icon" /\ component_name (lit "2new") = lit "new" /\ (exists stem, stem <> [] /\ component_name stem = []) /\ exists stem, In 65%N stem /\ ~ component (component_name stem).
Proof.
  split; [vm_compute; reflexivity|]. split; [vm_compute; reflexivity|]. split; [exists [26085%N; 26412%N]; split; [discriminate|vm_compute; reflexivity]|].
  exists (lit "1xA"). split; [cbn; tauto|]. intros (c & r & E & U & _). vm_compute in E. injection E as <- _. destruct U as [_ U]. vm_compute in U. now apply U.
Qed.
(** C113, refuted: two files of a directory can get the same name, and the index exports it twice, which is an error. *)
Theorem C113_unique_refuted : exists a b, a <> b /\ component_name a = component_name b /\
  exists s, file_at (w_files (fst (jsx nothing text well_formed to_jsx js nothing as_is (walk_to (Some [[lit "out"]])) true None s))) [lit "out"; lit "index.js"] =
    Some (Utf8 (export_line false (component_name a) a ++ export_line false (component_name a) b)).
Proof.
  exists (lit "a-b"), (lit "a_b"). split; [discriminate|]. split; [vm_compute; reflexivity|].
  exists [([lit "icons"], Dir); ([lit "icons"; lit "a-b.svg"], File (Utf8 (lit "1"))); ([lit "icons"; lit "a_b.svg"], File (Utf8 (lit "2")))]. vm_compute. reflexivity.
Qed.
(** C113, refuted: running again adds the lines again. *)
Theorem C113_again_refuted : exists s, let run1 := jsx nothing text well_formed to_jsx js nothing as_is (walk_to (Some [[lit "out"]])) true None in
  let s1 := w_files (fst (run1 s)) in let s2 := w_files (fst (run1 s1)) in
  file_at s2 [lit "out"; lit "arrow-left.jsx"] = file_at s1 [lit "out"; lit "arrow-left.jsx"] /\
  exists t, file_at s1 [lit "out"; lit "index.js"] = Some (Utf8 t) /\ file_at s2 [lit "out"; lit "index.js"] = Some (Utf8 (t ++ t)).
Proof. exists icons. cbn zeta. split; [vm_compute; reflexivity|]. eexists. split; vm_compute; reflexivity. Qed.
(** C113, refuted: [--no-index] changes nothing. *)
Theorem C113_no_index_refuted : exists s, forall b, file_at (w_files (fst (jsx nothing text well_formed to_jsx (mkJsx false false b) nothing as_is (walk_to (Some [[lit "out"]])) true None s))) [lit "out"; lit "index.js"] <> None.
Proof. exists icons. intros b. vm_compute. discriminate. Qed.
(** C113, refuted: without [-o] the components are not printed, but written beside the documents. *)
Theorem C113_stdout_refuted : exists s, let r := jsx nothing text well_formed to_jsx js nothing as_is (walk_to None) true None s in w_out (fst r) = [] /\ file_at s [lit "icons"; lit "arrow-left.jsx"] = None /\ file_at (w_files (fst r)) [lit "icons"; lit "arrow-left.jsx"] <> None.
Proof. exists icons. split; [|split]; vm_compute; try reflexivity. discriminate. Qed.
(** C113, refuted: a document that cannot be transformed replaces the component that was there. *)
Theorem C113_failed_refuted : exists s, let r := jsx nothing text well_formed to_jsx js nothing as_is (walk_to None) true None s in
  w_reports (fst r) <> [] /\ file_at s [lit "icons"; lit "a.jsx"] = Some (Utf8 (lit "A=1")) /\ file_at (w_files (fst r)) [lit "icons"; lit "a.jsx"] = Some (Utf8 []).
Proof. exists [([lit "icons"], Dir); ([lit "icons"; lit "a.svg"], File (Utf8 [])); ([lit "icons"; lit "a.jsx"], File (Utf8 (lit "A=1")))]. split; [|split]; vm_compute; try reflexivity. discriminate. Qed.
(** The hypotheses of [C113_index]: a directory that is there, and a document for it. *)
Example C113_sample_index : ready js [lit "out"] [lit "a.jsx"] [([lit "out"], Dir)] /\
  goes_to text well_formed to_jsx nothing js [lit "out"] (lit "1", Some [lit "in"; lit "a.svg"], Some [lit "out"; lit "a.svg"]) (lit "a.jsx").
Proof.
  split.
  - unfold ready. repeat match goal with |- _ /\ _ => split end; try discriminate; try reflexivity.
    all: try (intros x y E N; destruct x as [|a x]; [exfalso; apply N; reflexivity|]; injection E as <- E; destruct x; [reflexivity|discriminate]).
    all: try (intros n [<-|[]]; discriminate).
  - split; [reflexivity|]. split; [reflexivity|]. exists (lit "1"). split; reflexivity.
Qed.
