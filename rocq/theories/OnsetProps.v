(** C108: when an animation begins and ends is read as written, and printed so that it reads back. *)
From Coq Require Import String List NArith ZArith Bool Arith.
From Verif Require Import Chars ParseModel ParseSpec PathModel ClockModel ClockSpec OnsetModel OnsetSpec OnsetProofs OnsetProofs2.
Import ListNotations.

(** For every printer, rounding and finiteness test: every text of a begin or end value (white space around the sign of the
    offset, any spelling of the count) is read as that value. Missing: identifiers and events with a hyphen, negative offsets
    with a second minus sign, names that begin outside ASCII, counts beyond 32 bits (see the refutations). *)
Theorem C108_read_partial : forall finite f32 print b t, begin_ok finite f32 print b -> begin_text print b t ->
  exists q, parse_string (parse_begin finite f32) t = Ok b q.
Proof. exact read_begin. Qed.
Print Assumptions C108_read_partial.

(** What is printed is a text of the value. *)
Theorem C108_print_partial : forall finite f32 print b, begin_ok finite f32 print b -> begin_text print b (print_begin print b).
Proof. exact print_begin_text. Qed.
Print Assumptions C108_print_partial.

(** So a value survives being written and read again. *)
Theorem C108_round_trip_partial : forall finite f32 print b, begin_ok finite f32 print b ->
  exists q, parse_string (parse_begin finite f32) (print_begin print b) = Ok b q.
Proof. exact begin_round_trip. Qed.
Print Assumptions C108_round_trip_partial.

(** Durations, and their minima and maxima, likewise. *)
Theorem C108_dur_partial : forall finite f32 print d, match d with DurClock c => clock_ok finite f32 print c | _ => True end ->
  exists q, parse_string (parse_dur finite f32) (print_dur print d) = Ok d q.
Proof. exact dur_round_trip. Qed.
Print Assumptions C108_dur_partial.
Theorem C108_min_max_partial : forall finite f32 print d,
  match d with DurClock c => clock_ok finite f32 print c | Media => True | DurIndefinite => False end ->
  exists q, parse_string (parse_min_max finite f32) (print_dur print d) = Ok d q.
Proof. exact min_max_round_trip. Qed.
Print Assumptions C108_min_max_partial.

(** A reference in a value is seen, wherever it stands. *)
Theorem C108_reference_partial : forall finite f32 print b id t, begin_ok finite f32 print b -> begin_text print b t ->
  (exists first offset, b = SyncbaseValue id first offset) \/ (exists event offset, b = EventValue (Some id) event offset) \/ (exists count offset, b = RepeatValue (Some id) count offset) ->
  exists b' q, parse_string (parse_begin finite f32) t = Ok b' q /\ onset_reference b' = Some id.
Proof. exact reference_seen. Qed.
Print Assumptions C108_reference_partial.

(** An identifier with a hyphen is not seen: [my-id.begin] is not read at all, so the reference is neither kept by the clean-up
    of identifiers nor renamed, although [my-id.begin-5s] is read, as a reference to [my-id]. *)
Theorem C108_hyphen_refuted : exists e q b q', let parse := parse_string (parse_begin (fun _ => true) (fun d => d)) in
  parse (lit "my-id.begin") = Fail e q /\ parse (lit "my-id.begin-5s") = Ok b q' /\ onset_reference b = Some (lit "my-id").
Proof.
  exists ExpectedDone, (P (lit "my-id.begin") 2), (SyncbaseValue (lit "my-id") true (Some (TimecountValue (Dec true [5%N] 0) Second))), (P (lit "my-id.begin-5s") 14).
  split; [vm_compute; reflexivity|]. split; vm_compute; reflexivity.
Qed.
Print Assumptions C108_hyphen_refuted.

(** Five seconds before becomes five seconds after: [a.begin-0:05] is printed as [a.begin+00:05]. *)
Theorem C108_sign_refuted : exists b q, let parse := parse_string (parse_begin (fun _ => true) (fun d => d)) in
  parse (lit "a.begin-0:05") = Ok b q /\ print_begin (fun d => short_number (ryu d)) b = lit "a.begin+00:05".
Proof.
  exists (SyncbaseValue (lit "a") true (Some (PartialClockValue 0 (Dec false [5%N] 0)))), (P (lit "a.begin-0:05") 12).
  split; vm_compute; reflexivity.
Qed.
Print Assumptions C108_sign_refuted.

(** A count beyond 32 bits wraps around. *)
Theorem C108_wrap_refuted : exists q, let parse := parse_string (parse_begin (fun _ => true) (fun d => d)) in
  parse (lit "repeat(3000000000)") = Ok (RepeatValue None (-1294967296) None) q.
Proof. exists (P (lit "repeat(3000000000)") 18). vm_compute. reflexivity. Qed.
Print Assumptions C108_wrap_refuted.

(** A sign with nothing after it is accepted and dropped after a repeat, and refused after an event. *)
Theorem C108_dangling_refuted : exists q e q', let parse := parse_string (parse_begin (fun _ => true) (fun d => d)) in
  parse (lit "repeat(1)-") = Ok (RepeatValue None 1 None) q /\ parse (lit "click-") = Fail e q'.
Proof. exists (P (lit "repeat(1)-") 10), ExpectedDone, (P (lit "click-") 5). split; vm_compute; reflexivity. Qed.
Print Assumptions C108_dangling_refuted.

(** A name that begins outside ASCII ends the program. *)
Theorem C108_panic_refuted : exists t, parse_string (parse_begin (fun _ => true) (fun d => d)) (t ++ lit ".begin") = Panic.
Proof. exists [233%N]. vm_compute. reflexivity. Qed.
Print Assumptions C108_panic_refuted.

Example C108_example :
  let print := fun d => short_number (ryu d) in let finite := fun _ => true in let f32 := fun d => d in
  let b := SyncbaseValue (lit "id.a") true (Some (TimecountValue (Dec true [3; 2]%N (-1)) Hour)) in
  let e := EventValue None (lit "click") None in
  let r := RepeatValue (Some (lit "id")) (-3) None in
  begin_ok finite f32 print b /\ begin_text print b (lit "id.a.begin - 3.2h") /\ print_begin print b = lit "id.a.begin-3.2h" /\
  begin_ok finite f32 print e /\ begin_text print e (lit "click") /\
  begin_ok finite f32 print r /\ begin_text print r (lit "id.repeat( -03)").
Proof.
  assert (NM : forall t, forallb (fun c => is_name_char c && negb (N.eqb c 45)) t = true -> Forall plain_char t) by exact plain_list.
  cbv zeta. split; [|split; [|split; [vm_compute; reflexivity|split; [|split; [|split]]]]].
  - split; [split; [apply NM; reflexivity|exists 105%N, (lit "d.a"); split; [reflexivity|right; left; split; discriminate]]|]. split.
    + split; [reflexivity|]. split; [reflexivity|]. exists (lit "3.2"). split; [|vm_compute; reflexivity].
      split; [left; split; discriminate|]. split; [|vm_compute; reflexivity].
      intros (u & E). change (lit "3.2") with (lit "3." ++ [50%N]) in E. apply app_inj_tail in E. destruct E; discriminate.
    + intros _. apply not_in_kw. vm_compute. reflexivity.
  - exists (lit " - 3.2h"). split; [|reflexivity]. exists [32%N], (lit "- 3.2h"). split; [repeat constructor|]. split; [|reflexivity].
    exists [32%N]. split; [repeat constructor|]. vm_compute. reflexivity.
  - split; [split; [apply NM; reflexivity|exists 99%N, (lit "lick"); split; [reflexivity|right; left; split; discriminate]]|].
    split; [split; [apply NM; reflexivity|split; [apply not_in_kw; reflexivity|discriminate]]|]. repeat split; discriminate.
  - exists []. split; reflexivity.
  - split; [split; [apply NM; reflexivity|exists 105%N, (lit "d"); split; [reflexivity|right; left; split; discriminate]]|]. split; [split; discriminate|exact I].
  - exists [32%N], (lit "-03"), []. split; [repeat constructor|]. split; [|split; reflexivity].
    exists [45%N], true, (lit "03"). split; [reflexivity|]. split; [right; right; auto|]. split; [repeat constructor; discriminate|]. split; [discriminate|reflexivity].
Qed.
