From Coq Require Import String List NArith Bool Lia.
From Verif Require Import Chars NameModel AttrTable ElemModel ElemSpec ScriptModel ScriptSpec ScriptProofs ScriptProofs2 ScriptProofs3 PruneModel PruneSpec.
Import ListNotations.

(** One element with one attribute. *)
Lemma fine_one n a : bound (fst a) -> fine (svg_el n [a]).
Proof.
  intros B. split; [|split]; intros m df b W; inversion W; subst; try contradiction.
  - split; [intros _; apply svg_space_nil|apply bound_one, B].
  - right. reflexivity.
  - unfold unique. cbn. constructor; [intros []|constructor].
Qed.
Lemma tidy_id n : tidy (svg_el n [plain_attr "id" "r"]).
Proof.
  intros m df b x v W Hin. inversion W; subst; [|contradiction]. destruct Hin as [E|[]]. injection E as <- <-. cbn [s_local s_uri s_prefix].
  split; [intros _; split; [discriminate|repeat constructor]|]. split; [vm_compute; discriminate|]. auto.
Qed.
