From Coq Require Import String List NArith Bool Permutation.
From Verif Require Import Chars ParseModel FeatureModel FeatureSpec FeatureProofs FeatureProofs2 FeatureProofs3 FeatureProofs4.
Import ListNotations.
Open Scope list_scope.

(** ** C129 *)
(** What is read is written back with the same words, each as often as it was there, and what is written is read as the same value. *)
Theorem C129_written : forall t v, reads t v -> same_words t (write_variant v) /\ reads (write_variant v) v.
Proof. exact written_again. Qed.
Print Assumptions C129_written.

(** Words out of order, with a tabulator and a line break between them. *)
Definition example_text : text := lit "  slashed-zero small-caps" ++ [9%N] ++ lit "jis04 " ++ [10%N] ++ lit "emoji super ".
Example C129_example :
  exists v, reads example_text v /\ write_variant v = lit "small-caps slashed-zero jis04 super emoji" /\
    words example_text = [lit "slashed-zero"; lit "small-caps"; lit "jis04"; lit "emoji"; lit "super"].
Proof. eexists. split; [eexists; vm_compute; reflexivity|]. split; vm_compute; reflexivity. Qed.
Example C129_nothing : forall v, ~ reads (lit "small-caps, ordinal") v.
Proof. intros v (q & E). vm_compute in E. discriminate. Qed.

(** ** C130 *)
(** Two words of one family, which the language allows, are not read: the readers of the families do not skip the white space between words. *)
Theorem C130_family_refuted : exists t, ascii t /\ allowed (words t) /\ (forall v, ~ reads t v) /\
  Forall (fun w => exists f, In f [0; 1; 2; 3] /\ choice f w) (words t).
Proof.
  exists (lit "common-ligatures discretionary-ligatures").
  assert (W : words (lit "common-ligatures discretionary-ligatures") = [lit "common-ligatures"; lit "discretionary-ligatures"]) by (vm_compute; reflexivity). rewrite W.
  assert (C0 : choice 0 (lit "common-ligatures")) by (eexists; split; [reflexivity|left; reflexivity]).
  assert (C1 : choice 1 (lit "discretionary-ligatures")) by (eexists; split; [reflexivity|left; reflexivity]).
  split; [|split; [|split]].
  - apply Forall_forall. intros c H. apply (proj1 (N.ltb_lt _ _)). revert c H. apply forallb_forall. vm_compute. reflexivity.
  - split; [discriminate|]. exists [0; 1]. split; [|constructor; [exact C0|constructor; [exact C1|constructor]]].
    constructor; [intros [H|[]]; discriminate|]. constructor; [intros []|constructor].
  - intros v (q & E). vm_compute in E. discriminate.
  - constructor; [exists 0; split; [left; reflexivity|exact C0]|]. constructor; [exists 1; split; [right; left; reflexivity|exact C1]|constructor].
Qed.
Print Assumptions C130_family_refuted.

(** The order matters, though it has no meaning: the family of ligatures is done with when the first word is not one of its words. *)
Theorem C130_order_refuted : exists t u, ascii t /\ allowed (words t) /\ same_words t u /\ (forall v, ~ reads t v) /\ exists v, reads u v.
Proof.
  exists (lit "small-caps common-ligatures"), (lit "common-ligatures small-caps").
  assert (W : words (lit "small-caps common-ligatures") = [lit "small-caps"; lit "common-ligatures"]) by (vm_compute; reflexivity).
  assert (U : words (lit "common-ligatures small-caps") = [lit "common-ligatures"; lit "small-caps"]) by (vm_compute; reflexivity).
  assert (C0 : choice 0 (lit "common-ligatures")) by (eexists; split; [reflexivity|left; reflexivity]).
  assert (C4 : choice 4 (lit "small-caps")) by (eexists; split; [reflexivity|left; reflexivity]).
  unfold same_words. rewrite W, U. split; [|split; [|split; [|split]]].
  - apply Forall_forall. intros c H. apply (proj1 (N.ltb_lt _ _)). revert c H. apply forallb_forall. vm_compute. reflexivity.
  - split; [discriminate|]. exists [4; 0]. split; [|constructor; [exact C4|constructor; [exact C0|constructor]]].
    constructor; [intros [H|[]]; discriminate|]. constructor; [intros []|constructor].
  - apply perm_swap.
  - intros v (q & E). vm_compute in E. discriminate.
  - eexists. eexists. vm_compute. reflexivity.
Qed.
Print Assumptions C130_order_refuted.

(** At most one word of each family, in the order of the families: that is read, whatever white space is around the words. *)
Theorem C130_turn_partial : forall t, ascii t -> in_turn families (words t) -> exists v, reads t v /\ same_words t (write_variant v).
Proof. exact (fun t A T => match turn_read t A T with ex_intro _ v R => ex_intro _ v (conj R (proj1 (written_again t v R))) end). Qed.
Print Assumptions C130_turn_partial.

Example C130_example :
  ascii (lit "no-contextual unicase tabular-nums ruby sub text") /\ in_turn families (words (lit "no-contextual unicase tabular-nums ruby sub text")).
Proof.
  split.
  - apply Forall_forall. intros c H. apply (proj1 (N.ltb_lt _ _)). revert c H. apply forallb_forall. vm_compute. reflexivity.
  - assert (W : words (lit "no-contextual unicase tabular-nums ruby sub text") = [lit "no-contextual"; lit "unicase"; lit "tabular-nums"; lit "ruby"; lit "sub"; lit "text"]) by (vm_compute; reflexivity).
    rewrite W. unfold families. cbn [in_turn].
    right. eexists; eexists. split; [reflexivity|]. split; [exists 3; split; [right; right; right; left; reflexivity|eexists; split; [reflexivity|right; left; reflexivity]]|].
    right. eexists; eexists. split; [reflexivity|]. split; [exists 4; split; [left; reflexivity|eexists; split; [reflexivity|right; right; right; right; left; reflexivity]]|].
    right. eexists; eexists. split; [reflexivity|]. split; [exists 6; split; [right; left; reflexivity|eexists; split; [reflexivity|right; left; reflexivity]]|].
    right. eexists; eexists. split; [reflexivity|]. split; [exists 12; split; [right; right; left; reflexivity|eexists; split; [reflexivity|left; reflexivity]]|].
    right. eexists; eexists. split; [reflexivity|]. split; [exists 13; split; [left; reflexivity|eexists; split; [reflexivity|left; reflexivity]]|].
    right. eexists; eexists. split; [reflexivity|]. split; [exists 14; split; [left; reflexivity|eexists; split; [reflexivity|left; reflexivity]]|]. reflexivity.
Qed.
