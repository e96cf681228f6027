(** C92: cleaning the white space of attributes. *)
From Coq Require Import String List NArith Bool.
From Verif Require Import Chars NameModel AttrTable ElemModel TextModel TextSpec TextProofs CleanModel CleanSpec CleanProofs.
Import ListNotations.

(** Elements, names, the order of attributes, and values of types other than text stay; the words of texts stay. *)
Theorem C92_words : forall o n, agree (fun v w => forall ws, words_of v ws <-> words_of w ws) n (clean o n).
Proof. exact clean_agrees_words. Qed.
Print Assumptions C92_words.
(** The tokens of a value, as separated by the white space of XML, stay if the value has no other white space. *)
Theorem C92_tokens_partial : forall o n, agree same_tokens n (clean o n).
Proof. exact clean_agrees_tokens. Qed.
Print Assumptions C92_tokens_partial.
(** A second run changes nothing. *)
Theorem C92_twice : forall o n, clean o (clean o n) = clean o n.
Proof. exact clean_twice. Qed.
Print Assumptions C92_twice.

Definition example_attr (id v : string) (l : list cattr) : list cattr :=
  match kind_of (lit id) with Some k => mkC (ABase (BKnown k)) (textual (ABase (BKnown k))) (lit v) :: l | None => l end.
Example C92_example : forall e,
  clean clean_default (CEl e (example_attr "RequiredExtensions" " a  b " (example_attr "D" " M 0  0" [])) [CLeaf (lit " x  y")]) =
  CEl e (example_attr "RequiredExtensions" "a b" (example_attr "D" " M 0  0" [])) [CLeaf (lit " x  y")] /\
  List.length (example_attr "RequiredExtensions" " a  b " (example_attr "D" " M 0  0" [])) = 2 /\
  plain_white (lit " a  b ") /\ tokens (lit " a  b ") [lit "a"; lit "b"].
Proof.
  intros e. split; [vm_compute; reflexivity|]. split; [vm_compute; reflexivity|].
  assert (P : plain_white (lit " a  b ")). { repeat (constructor; [vm_compute; intros H; first [discriminate|left; reflexivity]|]). constructor. }
  split; [exact P|]. apply (tokens_words _ _ P). exact (words_of_lit " a  b ").
Qed.

(** The text that a glyph is for is lost if it is a space. *)
Theorem C92_glyph_refuted : exists a, id_local (c_name a) = lit "unicode" /\ c_text a = textual (c_name a) /\
  c_value a = lit " " /\ c_value (clean_attr clean_default a) = [].
Proof.
  destruct (kind_of (lit "Unicode")) as [k|] eqn:E; [|vm_compute in E; discriminate].
  exists (mkC (ABase (BKnown k)) true (lit " ")). vm_compute in E. injection E as <-. vm_compute. repeat split.
Qed.
Print Assumptions C92_glyph_refuted.
(** The code of an event after a comment is lost. *)
Theorem C92_code_refuted : exists a, id_local (c_name a) = lit "onclick" /\ c_text a = textual (c_name a) /\
  occurs (lit "b()") (code false (c_value a)) /\ ~ occurs (lit "b()") (code false (c_value (clean_attr clean_default a))).
Proof.
  destruct (kind_of (lit "OnClick")) as [k|] eqn:E; [|vm_compute in E; discriminate].
  exists (mkC (ABase (BKnown k)) true (lit "a() //" ++ [10%N] ++ lit "b()")). vm_compute in E. injection E as <-.
  split; [vm_compute; reflexivity|]. split; [vm_compute; reflexivity|]. split.
  - exists (lit "a() " ++ [10%N]), []. vm_compute. reflexivity.
  - intros (x & y & H). change (code false _) with (lit "a() ") in H.
    assert (X : In 98%N (lit "a() ")). { rewrite H. apply in_or_app. right. left. reflexivity. }
    vm_compute in X. repeat (destruct X as [X|X]; [discriminate|]). exact X.
Qed.
Print Assumptions C92_code_refuted.
(** A space that does not break becomes one that does. *)
Theorem C92_nbsp_refuted : exists a, id_local (c_name a) = lit "aria-label" /\ c_text a = textual (c_name a) /\
  tokens (c_value a) [c_value a] /\ tokens (c_value (clean_attr clean_default a)) [lit "a"; lit "b"].
Proof.
  destruct (kind_of (lit "AriaLabel")) as [k|] eqn:E; [|vm_compute in E; discriminate].
  exists (mkC (ABase (BKnown k)) true [97; 160; 98]%N). vm_compute in E. injection E as <-.
  split; [vm_compute; reflexivity|]. split; [vm_compute; reflexivity|]. split.
  - apply (tokens_last [] [97; 160; 98]%N); [constructor|]. split; [discriminate|].
    repeat (constructor; [intros [H|[H|[H|H]]]; discriminate|]). constructor.
  - change (c_value _) with (lit "a b"). apply (tokens_cons [] (lit "a") 32%N (lit "b")); [constructor| |left; reflexivity|].
    + split; [discriminate|]. repeat (constructor; [intros [H|[H|[H|H]]]; discriminate|]). constructor.
    + apply (tokens_last [32%N] (lit "b")); [constructor; [left; reflexivity|constructor]|]. split; [discriminate|].
      repeat (constructor; [intros [H|[H|[H|H]]]; discriminate|]). constructor.
Qed.
Print Assumptions C92_nbsp_refuted.
(** The name of a namespace changes. *)
Theorem C92_namespace_refuted : exists a, id_local (c_name a) = lit "xmlns" /\ c_text a = textual (c_name a) /\
  c_value (clean_attr clean_default a) <> c_value a.
Proof.
  destruct (kind_of (lit "XMLNS")) as [k|] eqn:E; [|vm_compute in E; discriminate].
  exists (mkC (ABase (BKnown k)) true (lit "u ")). vm_compute in E. injection E as <-. vm_compute. repeat split. discriminate.
Qed.
Print Assumptions C92_namespace_refuted.
