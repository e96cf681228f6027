(** C44: clock values print and parse back. *)
From Coq Require Import String List NArith ZArith Bool Arith.
From Verif Require Import Chars ParseModel ParseSpec PathModel ClockModel ClockSpec ClockProofs.
Import ListNotations.

(** For every printer, rounding and finiteness test: a clock value none of whose colon-separated parts is negative, whose
    numbers print and read back by themselves, is read back. Missing: negative parts (see the refutations). *)
Theorem C44_round_trip_partial : forall finite f32 print c, clock_ok finite f32 print c ->
  exists q, parse_string (parse_clock finite f32) (print_clock print c) = Ok c q.
Proof. exact clock_round_trip. Qed.
Print Assumptions C44_round_trip_partial.

(** Negative minutes, as read from [-5:30], are printed as [0-5:30], which is not a clock value. *)
Theorem C44_negative_refuted : exists c q e q', let finite := (fun _ => true) in let f32 := (fun d => d) in
  parse_string (parse_clock finite f32) (lit "-5:30") = Ok c q /\
  print_clock (fun d => short_number (ryu d)) c = lit "0-5:30" /\
  parse_string (parse_clock finite f32) (print_clock (fun d => short_number (ryu d)) c) = Fail e q'.
Proof.
  exists (PartialClockValue (-5) (Dec false [3%N] 1)), (P (lit "-5:30") 5), ExpectedDone, (P (lit "0-5:30") 1).
  split; [vm_compute; reflexivity|]. split; vm_compute; reflexivity.
Qed.
Print Assumptions C44_negative_refuted.

(** Negative seconds likewise. *)
Theorem C44_negative_seconds_refuted : exists c q e q', let finite := (fun _ => true) in let f32 := (fun d => d) in
  parse_string (parse_clock finite f32) (lit "1:-3") = Ok c q /\
  print_clock (fun d => short_number (ryu d)) c = lit "01:0-3" /\
  parse_string (parse_clock finite f32) (print_clock (fun d => short_number (ryu d)) c) = Fail e q'.
Proof.
  exists (PartialClockValue 1 (Dec true [3%N] 0)), (P (lit "1:-3") 4), ExpectedDone, (P (lit "01:0-3") 4).
  split; [vm_compute; reflexivity|]. split; vm_compute; reflexivity.
Qed.
Print Assumptions C44_negative_seconds_refuted.

(** The sign of a clock of less than a minute is lost: minus thirty seconds is read as thirty seconds. *)
Theorem C44_sign_lost_refuted : exists c q q', let finite := (fun _ => true) in let f32 := (fun d => d) in
  parse_string (parse_clock finite f32) (lit "-0:30") = Ok c q /\
  parse_string (parse_clock finite f32) (lit "0:30") = Ok c q'.
Proof.
  exists (PartialClockValue 0 (Dec false [3%N] 1)), (P (lit "-0:30") 5), (P (lit "0:30") 4).
  split; vm_compute; reflexivity.
Qed.
Print Assumptions C44_sign_lost_refuted.

(** Reading panics on some text. *)
Theorem C44_panic_refuted : exists t, parse_string (parse_clock (fun _ => true) (fun d => d)) t = Panic.
Proof. exists [233%N]. vm_compute. reflexivity. Qed.
Print Assumptions C44_panic_refuted.

Example C44_example :
  let print := fun d => short_number (ryu d) in let finite := fun _ => true in let f32 := fun d => d in
  let c := FullClockValue 50 0 (Dec false [1; 0; 2; 5]%N (-2)) in
  let d := TimecountValue (Dec true [3; 2]%N (-1)) Hour in
  clock_ok finite f32 print c /\ print_clock print c = lit "50:00:10.25" /\
  clock_ok finite f32 print d /\ print_clock print d = lit "-3.2h".
Proof.
  assert (X : forall z, (0 <= z <= 2147483647)%Z -> exact_int (fun _ => true) (fun d => d) z) by (intros z Z0; split; [exact Z0|auto]).
  assert (D : forall t, ~ ends_in 46%N (t ++ [53%N]) /\ ~ ends_in 46%N (t ++ [50%N])).
  { intros t. split; intros (u & E); apply app_inj_tail in E; destruct E; discriminate. }
  split; [|split; [vm_compute; reflexivity|split; [|vm_compute; reflexivity]]].
  - split; [apply X; split; discriminate|]. split; [apply X; split; discriminate|]. split; [|reflexivity].
    split; [reflexivity|]. split; [reflexivity|]. exists (lit "10.25"). split; [|vm_compute; reflexivity].
    split; [left; split; discriminate|]. split; [apply (D (lit "10.2"))|vm_compute; reflexivity].
  - split; [reflexivity|]. split; [reflexivity|]. exists (lit "3.2"). split; [|vm_compute; reflexivity].
    split; [left; split; discriminate|]. split; [apply (D (lit "3."))|vm_compute; reflexivity].
Qed.
