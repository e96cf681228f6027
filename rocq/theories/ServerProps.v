(** The language server. *)
From Coq Require Import List NArith Bool Arith.
From Verif Require Import TextSpec ServerModel ServerSpec ServerProofs.
Import ListNotations.

(** When the text of an open document has problems, the editor shows these and no others. *)
Theorem C117_problems_partial : forall analyse l ns u t p, serve analyse l = Some ns -> current l u = Some t -> analyse u t = Problems p -> Forall2 (tells u t) p (shown ns u).
Proof. exact problems_shown. Qed.
Print Assumptions C117_problems_partial.
(** What is shown was once true. *)
Theorem C117_once_partial : forall analyse l ns u, serve analyse l = Some ns ->
  shown ns u = [] \/ exists t p, had l u t /\ analyse u t = Problems p /\ Forall2 (tells u t) p (shown ns u).
Proof. exact shown_true. Qed.
Print Assumptions C117_once_partial.
(** The server does not end when the places of problems are in the text. *)
Theorem C117_goes_on_partial : forall analyse, (forall u t p, analyse u t = Problems p -> Forall (in_text t) p) -> forall l, serve analyse l <> None.
Proof. exact serve_total. Qed.
Print Assumptions C117_goes_on_partial.
(** The line told is that of the editor; the column is when the line is ASCII up to there, and else it is too far to the right. *)
Theorem C117_places_partial : forall before after line column, paired before ->
  position (bytes_of (before ++ after)) (List.length (bytes_of before)) line column ->
  fst (place before 0 0) = line /\ snd (place before 0 0) <= column /\ (snd (place before 0 0) = column <-> Forall (fun c => (c < 128)%N) (last_line before)).
Proof. exact places. Qed.
Print Assumptions C117_places_partial.

(** A linter for the examples. *)
Definition tests_analyse (u : N) (t : list N) : outcome :=
  match t with
  | [] => Unparsed
  | _ => if existsb (N.eqb 33) t then Problems [Problem [120%N] Warn (Some (3, 4)) (Some [121%N])] else Clean
  end.
(** A text without problems, and the problems of the text before are shown. *)
Theorem C117_stale_refuted : exists analyse l ns u t, serve analyse l = Some ns /\ current l u = Some t /\ analyse u t = Clean /\ shown ns u <> [].
Proof. exists tests_analyse, [DidOpen 1 [97; 98; 99; 33]%N; DidChange 1 [[97]%N]]. eexists. exists 1%N, [97]%N. split; [vm_compute; reflexivity|]. split; [reflexivity|]. split; [reflexivity|]. vm_compute. discriminate. Qed.
Print Assumptions C117_stale_refuted.
(** Problems that are put right stay on the screen; so do those of a text that cannot be read any more, and of a document that is closed. *)
Theorem C117_stale_always_partial : forall analyse u t p, analyse u t = Problems p -> p <> [] ->
  (forall t' ns, analyse u t' = Clean -> serve analyse [DidOpen u t; DidChange u [t']; DidSave u] = Some ns -> current [DidOpen u t; DidChange u [t']; DidSave u] u = Some t' /\ shown ns u <> []) /\
  (forall t' ns, analyse u t' = Unparsed -> serve analyse [DidOpen u t; DidChange u [t']] = Some ns -> shown ns u <> []) /\
  (forall ns, serve analyse [DidOpen u t; DidClose u] = Some ns -> shown ns u <> []).
Proof.
  intros analyse u t p A N.
  assert (O : forall ns, serve analyse [DidOpen u t] = Some ns -> shown ns u <> []).
  { intros ns S E. assert (F : Forall2 (tells u t) p (shown ns u)) by (apply (problems_shown analyse [DidOpen u t] ns u t p S); [cbn [current fold_left follow]; unfold current; cbn [fold_left follow]; now rewrite N.eqb_refl|exact A]). rewrite E in F. inversion F. congruence. }
  split; [|split].
  - intros t' ns C S. split; [unfold current; cbn [fold_left follow rev app]; now rewrite N.eqb_refl|].
    destruct (shown_stays analyse [DidOpen u t; DidChange u [t']] (DidSave u) ns u S) as (x & X & ->); [discriminate|].
    destruct (shown_stays analyse [DidOpen u t] (DidChange u [t']) x u X) as (y & Y & ->); [cbn [sets last_change]; rewrite N.eqb_refl; intros z Z; injection Z as <-; left; exact C|]. exact (O y Y).
  - intros t' ns C S. destruct (shown_stays analyse [DidOpen u t] (DidChange u [t']) ns u S) as (y & Y & ->); [cbn [sets last_change]; rewrite N.eqb_refl; intros z Z; injection Z as <-; right; exact C|]. exact (O y Y).
  - intros ns S. destruct (shown_stays analyse [DidOpen u t] (DidClose u) ns u S) as (y & Y & ->); [discriminate|]. exact (O y Y).
Qed.
Print Assumptions C117_stale_always_partial.
(** A column after a letter of two bytes, and a line after a carriage return alone, are not those of the editor. *)
Theorem C117_places_refuted : (exists before line column, position (bytes_of before) (List.length (bytes_of before)) line column /\ paired before /\ snd (place before 0 0) <> column) /\
  (exists before line column, position (bytes_of before) (List.length (bytes_of before)) line column /\ fst (place before 0 0) <> line).
Proof.
  split.
  - exists [233]%N, 0, 2. split; [|split; [cbn; split; [discriminate|exact Logic.I]|vm_compute; discriminate]]. exists [], [195; 169]%N, []. repeat split; [left; reflexivity|intros [H|[H|[]]]; discriminate].
  - exists [97; 13; 98]%N, 0, 3. split; [|vm_compute; discriminate]. exists [], [97; 13; 98]%N, []. repeat split; [left; reflexivity|intros [H|[H|[H|[]]]]; discriminate].
Qed.
Print Assumptions C117_places_refuted.
(** The server tells that it answers requests that it does not answer. *)
Theorem C117_requests_refuted : exists r, advertised r = true /\ answered r = false.
Proof. exists DocumentDiagnostic. split; reflexivity. Qed.
Print Assumptions C117_requests_refuted.

(** A session with two documents. *)
Example C117_example :
  option_map (fun ns => (shown ns 1, shown ns 2)) (serve tests_analyse [DidOpen 1 [97; 10; 97; 33]%N; DidOpen 2 [97]%N; DidChange 2 [[33]; [97; 98; 99; 33]]%N; DidSave 1])
  = Some ([Diagnostic (Range (1, 1) (1, 2)) (Some WARNING) [120] (Some (1, Range (1, 1) (1, 2), [121]))],
          [Diagnostic (Range (0, 3) (0, 4)) (Some WARNING) [120] (Some (2, Range (0, 3) (0, 4), [121]))])%N
  /\ current [DidOpen 1 [97]%N; DidChange 1 []; DidChange 1 [[98]; [99]]%N] 1 = Some [99]%N.
Proof. split; vm_compute; reflexivity. Qed.
Example C117_example_places : place [97; 13; 10; 98; 128512; 99]%N 0 0 = (1, 4) /\ bytes_of [233; 8364; 128512]%N = [195; 169; 226; 130; 172; 240; 159; 152; 128]%N.
Proof. split; vm_compute; reflexivity. Qed.
