(** C132: the order of painting. *)
From Coq Require Import String List NArith ZArith Bool Arith Permutation.
From Verif Require Import Chars ParseModel OnsetSpec KeywordSpec OrderModel OrderSpec OrderProofs.
Import ListNotations.

(** A text of the language is read as the order it means, with white space around it, *)
Theorem C132_read : forall s v t, means xml_space s v -> padded s t -> exists q, parse_string parse_order t = Ok v q.
Proof. exact read_order. Qed.
Print Assumptions C132_read.
(** and nothing else is read, but for further white space. *)
Theorem C132_only : forall t v q, parse_string parse_order t = Ok v q -> exists s, means white s v /\ padded_any s t.
Proof. exact only_order. Qed.
Print Assumptions C132_only.
(** What is read has each step once, so that the writer does not panic, *)
Theorem C132_whole : forall t v q, parse_string parse_order t = Ok v q -> Permutation v (map fst steps) /\ exists u, print_order v = Some u.
Proof. exact order_whole. Qed.
Print Assumptions C132_whole.
(** and what is written for an order means it and is read as it. *)
Theorem C132_back : forall v, Permutation v (map fst steps) ->
  exists t, print_order v = Some t /\ means xml_space t v /\ exists q, parse_string parse_order t = Ok v q.
Proof. exact order_back. Qed.
Print Assumptions C132_back.

Example C132_example : means xml_space (lit "markers  stroke") ["Markers"; "Stroke"; "Fill"]%string /\
  (exists q, parse_string parse_order (lit " markers  stroke ") = Ok ["Markers"; "Stroke"; "Fill"]%string q) /\
  print_order ["Markers"; "Stroke"; "Fill"]%string = Some (lit "markers stroke fill") /\
  print_order ["Fill"; "Stroke"; "Markers"]%string = Some (lit "normal") /\
  match parse_string parse_order (lit "stroke stroke markers") with Fail _ _ => True | _ => False end.
Proof.
  split; [|split; [eexists; vm_compute; reflexivity|split; [reflexivity|split; [reflexivity|vm_compute; exact I]]]].
  right. exists ["Markers"; "Stroke"]%string. split; [discriminate|]. split; [apply nodup_b_ok; reflexivity|]. split; [|reflexivity].
  exists "markers"%string. split; [cbn; tauto|]. exists [32; 32]%N, (lit "stroke"). split; [repeat constructor|]. split; [discriminate|]. split; [|reflexivity].
  exists "stroke"%string. split; [cbn; tauto|reflexivity].
Qed.
