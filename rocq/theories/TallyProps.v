(** C133: frequencies, numbers of repetitions and adjustments of sizes. *)
From Coq Require Import String List NArith ZArith Bool Arith Lia.
From Verif Require Import Chars ParseModel ParseSpec ParseProofs KeywordSpec KeywordProofs KeywordProofs3 KeywordProps TallyModel TallySpec TallyProofs.
Import ListNotations.

(** Kilohertz are not read as the language writes them, *)
Theorem C133_kilohertz_refuted : exists x t e q, frequency_text all_finite same x t /\ parse_string (parse_frequency all_finite same) t = Fail e q.
Proof.
  exists (KHz (int 1)), (lit "1kHz"). eexists. eexists. split; [|vm_compute; reflexivity]. exists [49%N]. split; [apply (one_digit 49); lia|reflexivity].
Qed.
Print Assumptions C133_kilohertz_refuted.
(** nor written so. *)
Theorem C133_written_refuted : exists x, forall finite f32 print y, ~ frequency_text finite f32 y (print_frequency print x).
Proof.
  exists (KHz (int 1)). intros finite f32 print y. cbn [print_frequency].
  change (lit "KHz") with ([75%N] ++ [72; 122]%N). rewrite app_assoc.
  assert (C : forall n, is_number n -> ~ ends_in 75%N n /\ ~ ends_in 107%N n) by (intros n N; split; apply (number_not_ends _ n N); unfold num_char, digit; lia).
  assert (T : forall (a b : text) z, a ++ [72; 122]%N = b ++ z ++ [72; 122]%N -> a = b ++ z) by (intros a b z E; rewrite app_assoc in E; apply app_inv_tail in E; exact E).
  destruct y as [d|d]; intros (n & N & E).
  - apply (T _ n []) in E. rewrite app_nil_r in E. apply (proj1 (C n (proj1 N))). exists (print (int 1)). symmetry. exact E.
  - apply (T _ n [107%N]) in E. apply app_inj_tail in E. destruct E as [_ E]. discriminate.
Qed.
Print Assumptions C133_written_refuted.
(** Hertz are read, and frequencies are read as they are written. *)
Theorem C133_hertz_partial : forall finite f32 d s t, frequency_text finite f32 (Hz d) s -> padded s t -> exists q, parse_string (parse_frequency finite f32) t = Ok (Hz d) q.
Proof. exact read_hertz. Qed.
Print Assumptions C133_hertz_partial.
Theorem C133_frequency_back : forall finite f32 print x, prints finite f32 print (amount x) -> exists q, parse_string (parse_frequency finite f32) (print_frequency print x) = Ok x q.
Proof. exact frequency_back. Qed.
Print Assumptions C133_frequency_back.
(** Numbers of repetitions are read, and what is read is more than zero. *)
Theorem C133_count : forall finite f32 x s t, count_text finite f32 x s -> padded s t -> exists q, parse_string (parse_count finite f32) t = Ok x q.
Proof. exact read_count. Qed.
Print Assumptions C133_count.
Theorem C133_count_positive : forall finite f32 t d q, parse_string (parse_count finite f32) t = Ok (Times d) q -> positive d.
Proof. exact count_positive. Qed.
Print Assumptions C133_count_positive.
Theorem C133_count_back : forall finite f32 print x, (forall d, x = Times d -> prints finite f32 print d /\ positive d) ->
  count_text finite f32 x (print_count print x) /\ exists q, parse_string (parse_count finite f32) (print_count print x) = Ok x q.
Proof. exact count_back. Qed.
Print Assumptions C133_count_back.
(** And so are adjustments of sizes. *)
Theorem C133_adjust : forall finite f32 x s t, adjust_text finite f32 x s -> padded s t -> exists q, parse_string (parse_adjust finite f32) t = Ok x q.
Proof. exact read_adjust. Qed.
Print Assumptions C133_adjust.
Theorem C133_adjust_back : forall finite f32 print x, (forall d, x = Aspect d -> prints finite f32 print d) ->
  adjust_text finite f32 x (print_adjust print x) /\ exists q, parse_string (parse_adjust finite f32) (print_adjust print x) = Ok x q.
Proof. exact adjust_back. Qed.
Print Assumptions C133_adjust_back.

Example C133_example : frequency_text all_finite same (Hz (int 7)) (lit "7Hz") /\ (exists q, parse_string (parse_frequency all_finite same) (lit " 7Hz ") = Ok (Hz (int 7)) q) /\
  count_text all_finite same (Times (int 3)) (lit "3") /\ (exists q, parse_string (parse_count all_finite same) (lit "3") = Ok (Times (int 3)) q) /\
  match parse_string (parse_count all_finite same) (lit "-3") with Fail _ _ => True | _ => False end /\
  match parse_string (parse_count all_finite same) (lit "0") with Fail _ _ => True | _ => False end /\
  adjust_text all_finite same (Aspect (int 5)) (lit "5") /\ (exists q, parse_string (parse_adjust all_finite same) (lit "none") = Ok NoAdjust q).
Proof.
  split; [exists [55%N]; split; [apply (one_digit 55); lia|reflexivity]|]. split; [eexists; vm_compute; reflexivity|].
  split; [split; [apply (one_digit 51); lia|split; [reflexivity|exists 3%N; split; [left; reflexivity|discriminate]]]|]. split; [eexists; vm_compute; reflexivity|].
  split; [vm_compute; exact I|]. split; [vm_compute; exact I|]. split; [apply (one_digit 53); lia|eexists; vm_compute; reflexivity].
Qed.
(** A printer that meets the hypotheses on printing. *)
Example C133_back_example : prints all_finite same (fun _ => lit "7") (amount (KHz (int 7))) /\ print_frequency (fun _ => lit "7") (KHz (int 7)) = lit "7KHz" /\ positive (int 7).
Proof. split; [apply (one_digit 55); lia|]. split; [reflexivity|]. split; [reflexivity|]. exists 7%N. split; [left; reflexivity|discriminate]. Qed.
