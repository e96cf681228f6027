(** C59: reading an attribute value does not panic. *)
From Coq Require Import String List NArith ZArith Bool Arith.
From Verif Require Import Chars ParseModel ParseSpec ClockModel TransformTextModel ValueProofs.
Import ListNotations.
Open Scope nat_scope.

(** ASCII text shorter than 2048 characters is read as a transform list, or rejected, without a panic, provided the
    reader of CSS transforms rejects the empty text. Missing: other text. *)
Theorem C59_transforms_partial : forall finite f32 C css s, css [] = None -> ascii s -> List.length s < 2048 ->
  parse_string (parse_transforms finite f32 C css) s <> Panic.
Proof. exact transforms_no_panic. Qed.
Print Assumptions C59_transforms_partial.

(** All ASCII text is read as a clock value, or rejected, without a panic. *)
Theorem C59_clock_partial : forall finite f32 s, ascii s -> parse_string (parse_clock finite f32) s <> Panic.
Proof. exact clock_no_panic. Qed.
Print Assumptions C59_clock_partial.

(** A single letter outside ASCII makes both panic. *)
Theorem C59_refuted : exists s, (forall finite f32, parse_string (parse_clock finite f32) s = Panic) /\
  forall finite f32 C css, parse_string (parse_transforms finite f32 C css) s = Panic.
Proof. exists [233%N]. split; intros; vm_compute; reflexivity. Qed.
Print Assumptions C59_refuted.
(** So does one behind a readable item. *)
Theorem C59_later_refuted : exists s, hd_error s = Some 114%N /\
  forall C css, parse_string (parse_transforms (fun _ => true) (fun d => d) C css) (s ++ [233%N]) = Panic.
Proof. exists (lit "rotate(5)"). split; [reflexivity|]. intros. vm_compute. reflexivity. Qed.
Print Assumptions C59_later_refuted.

Example C59_example : ascii (lit "rotate(4,") /\
  exists q, parse_string (parse_transforms (fun _ => true) (fun d => d) unit (fun _ => None)) (lit "rotate(4,") = Fail ExpectedDone q.
Proof. split; [unfold ascii; repeat (apply Forall_cons; [reflexivity|]); apply Forall_nil|]. eexists. vm_compute. reflexivity. Qed.
