(** C131: the clip of the paint area. *)
From Coq Require Import String List NArith ZArith Bool Arith Lia.
From Verif Require Import Chars ParseModel ParseSpec ClockModel OnsetModel OnsetSpec KeywordModel KeywordSpec KeywordProps ClipModel ClipSpec ClipProofs.
Import ListNotations.

(** A rectangle whose sides are lengths with units is not read, *)
Theorem C131_units_refuted : exists t e q, language_clip t /\ parse_string (parse_clip all_finite same) t = Fail e q.
Proof.
  exists (lit "rect(1px,2px,3px,4px)"). eexists. eexists. split; [|vm_compute; reflexivity].
  - right. exists (lit "1px"), (lit "2px"), (lit "3px"), (lit "4px"), [44%N], [44%N], [44%N], [], [].
    assert (D : forall c, (49 <= c <= 57)%N -> side_text (c :: lit "px")).
    { intros c C. right. exists [c]. destruct (one_digit c C) as (N & E & _). split; [exact N|]. split; [exact E|]. right. exists "px"%string. split; [cbn; tauto|reflexivity]. }
    split; [apply (D 49%N); lia|]. split; [apply (D 50%N); lia|]. split; [apply (D 51%N); lia|]. split; [apply (D 52%N); lia|].
    split; [apply wsp_comma|]. split; [apply wsp_comma|]. split; [apply wsp_comma|]. split; [constructor|]. split; [constructor|]. reflexivity.
Qed.
Print Assumptions C131_units_refuted.
(** and neither is one with a side that is [auto]. *)
Theorem C131_auto_refuted : exists t, language_clip t /\ forall finite f32, exists e q, parse_string (parse_clip finite f32) t = Fail e q.
Proof.
  exists (lit "rect(auto,auto,auto,auto)"). split.
  - right. exists (lit "auto"), (lit "auto"), (lit "auto"), (lit "auto"), [44%N], [44%N], [44%N], [], [].
    split; [left; reflexivity|]. split; [left; reflexivity|]. split; [left; reflexivity|]. split; [left; reflexivity|].
    split; [apply wsp_comma|]. split; [apply wsp_comma|]. split; [apply wsp_comma|]. split; [constructor|]. split; [constructor|]. reflexivity.
  - intros finite f32. eexists. eexists. vm_compute. reflexivity.
Qed.
Print Assumptions C131_auto_refuted.
(** When the sides are plain numbers, the clip is read as it is meant, with white space around it. *)
Theorem C131_read_partial : forall finite f32 x s t, clip_text finite f32 x s -> padded s t -> exists q, parse_string (parse_clip finite f32) t = Ok x q.
Proof. exact read_clip. Qed.
Print Assumptions C131_read_partial.
(** What is written means the clip it was written from, *)
Theorem C131_written : forall finite f32 print x, sides_print finite f32 print x -> clip_text finite f32 x (print_clip print x).
Proof. exact print_clip_text. Qed.
Print Assumptions C131_written.
(** and is read as that clip. *)
Theorem C131_back : forall finite f32 print x, sides_print finite f32 print x -> exists q, parse_string (parse_clip finite f32) (print_clip print x) = Ok x q.
Proof. exact clip_back. Qed.
Print Assumptions C131_back.

Example C131_example : clip_text all_finite same (Shape (int 1) (int 2) (int 3) (int 4)) (lit "rect( 1 2,3 , 4)") /\
  exists q, parse_string (parse_clip all_finite same) (lit "  rect( 1 2,3 , 4) ") = Ok (Shape (int 1) (int 2) (int 3) (int 4)) q.
Proof.
  split; [|eexists; vm_compute; reflexivity]. exists [49%N], [50%N], [51%N], [52%N], [32%N], [44%N], [32; 44; 32]%N, [32%N], [].
  split; [apply (one_digit 49); lia|]. split; [apply (one_digit 50); lia|]. split; [apply (one_digit 51); lia|]. split; [apply (one_digit 52); lia|].
  split; [exists [32%N], []; split; [repeat constructor|split; [constructor|left; split; [reflexivity|discriminate]]]|].
  split; [exists [], []; split; [constructor|split; [constructor|right; reflexivity]]|].
  split; [exists [32%N], [32%N]; split; [repeat constructor|split; [repeat constructor|right; reflexivity]]|]. split; [repeat constructor|]. split; [constructor|]. reflexivity.
Qed.
(** A printer of single digits meets the hypothesis on printing. *)
Definition print_digit (d : dec) : text := match d with Dec _ [c] _ => [(c + 48)%N] | _ => [] end.
Example C131_written_example : sides_print all_finite same print_digit (Shape (int 1) (int 2) (int 3) (int 4)) /\
  print_clip print_digit (Shape (int 1) (int 2) (int 3) (int 4)) = lit "rect(1,2,3,4)".
Proof.
  split; [|reflexivity]. split; [apply (one_digit 49); lia|]. split; [apply (one_digit 50); lia|]. split; [apply (one_digit 51); lia|]. apply (one_digit 52); lia.
Qed.
