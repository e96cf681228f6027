(** C31: transforms print and parse back. *)
From Coq Require Import String List NArith ZArith QArith Bool Arith.
From Verif Require Import Chars ParseModel ParseSpec PathModel ClockModel TransformTextModel TransformTextSpec TransformTextProofs.
Import ListNotations.
Open Scope nat_scope.

(** For every printer of numbers and reader of CSS transforms that does not accept the empty text: a list of fewer than
    2048 SVG transforms whose numbers read back by themselves is read back, item by item with equal numbers. Missing: longer
    lists and CSS transforms (see the refutations). *)
Theorem C31_round_trip_partial : forall finite f32 print C css print_css (l : list (tf C)),
  Forall (plain finite f32 print) l -> css [] = None -> List.length l < 2048 ->
  exists l' q, parse_string (parse_transforms finite f32 C css) (print_transforms print C print_css l) = Ok l' q /\ Forall2 equal l l'.
Proof. exact transforms_round_trip. Qed.
Print Assumptions C31_round_trip_partial.

(** Every longer list panics when it is read. *)
Theorem C31_long_panics : forall finite f32 print C css print_css (l : list (tf C)),
  Forall (plain finite f32 print) l -> 2048 <= List.length l ->
  parse_string (parse_transforms finite f32 C css) (print_transforms print C print_css l) = Panic.
Proof. exact transforms_panic. Qed.
Print Assumptions C31_long_panics.
Theorem C31_long_refuted : exists l : list (tf unit),
  Forall (plain (fun _ => true) (fun d => d) (fun d => short_number (ryu d))) l /\
  forall css print_css,
  parse_string (parse_transforms (fun _ => true) (fun d => d) unit css) (print_transforms (fun d => short_number (ryu d)) unit print_css l) = Panic.
Proof.
  exists (repeat (TSkewX (Dec false [5%N] 0)) 2048).
  assert (F : Forall (plain (fun _ => true) (fun d => d) (fun d => short_number (ryu d))) (repeat (@TSkewX unit (Dec false [5%N] 0)) 2048)).
  { apply Forall_forall. intros t I. apply repeat_spec in I. subst t. exists (Dec false [5%N] 0). split; [vm_compute; reflexivity|split; reflexivity]. }
  split; [exact F|]. intros css print_css. apply transforms_panic; [exact F|]. rewrite repeat_length. apply le_n.
Qed.
Print Assumptions C31_long_refuted.

(** A CSS transform is read only at the end of the list: with a reader of CSS transforms that accepts [rotate(5deg)] alone,
    the list of that and a rotation is printed as a text that is not read. *)
Theorem C31_css_refuted : exists css print_css (l : list (tf text)) e q l' q',
  (forall t c, css t = Some c -> print_css c = t) /\
  parse_string (parse_transforms (fun _ => true) (fun d => d) text css) (print_transforms (fun d => short_number (ryu d)) text print_css l) = Fail e q /\
  parse_string (parse_transforms (fun _ => true) (fun d => d) text css) (print_transforms (fun d => short_number (ryu d)) text print_css (rev l)) = Ok l' q' /\
  l' = rev l.
Proof.
  exists (fun t => if text_eqb t (lit "rotate(5deg)") then Some t else None), (fun t => t),
    [TCss (lit "rotate(5deg)"); TRotate (Dec false [5%N] 0) zero zero].
  exists ExpectedDone. eexists. exists [TRotate (Dec false [5%N] 0) zero zero; TCss (lit "rotate(5deg)")]. eexists.
  split; [intros t c E; destruct (text_eqb _ _); congruence|]. split; [vm_compute; reflexivity|]. split; [vm_compute; reflexivity|reflexivity].
Qed.
Print Assumptions C31_css_refuted.

Example C31_example :
  let print := fun d => short_number (ryu d) in
  let l : list (tf unit) := [TTranslate (Dec true [1; 5]%N (-1)) (Dec true [] 0); TRotate (Dec false [3]%N 1) zero (Dec false [2]%N 0);
    TScale (Dec false [2]%N 0) (Dec false [2]%N 0); TMatrix zero (Dec false [1]%N 0) (Dec true [1]%N (-3)) zero zero zero] in
  Forall (plain (fun _ => true) (fun d => d) print) l /\
  print_transforms print unit (fun _ => []) l = lit "translate(-1.5)rotate(30 0 2)scale(2)matrix(0 1 -.001 0 0 0)".
Proof.
  cbv zeta. split; [|vm_compute; reflexivity].
  assert (R : forall d, (exists d', rust_f64 (short_number (ryu d)) = Some d' /\ (value d' == value d)%Q) ->
    reads_back (fun _ => true) (fun d => d) (fun d => short_number (ryu d)) d).
  { intros d (d' & E & V). exists d'. split; [exact E|split; [reflexivity|exact V]]. }
  repeat (apply Forall_cons || apply Forall_nil); cbn [plain];
    repeat match goal with |- _ /\ _ => split end; apply R; eexists; (split; [vm_compute; reflexivity|vm_compute; reflexivity]).
Qed.
