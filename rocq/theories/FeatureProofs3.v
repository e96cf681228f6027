From Coq Require Import String List NArith Bool Arith Lia Permutation.
From Verif Require Import Chars ParseModel ParseSpec ParseProofs ParseProofs2 ParseProofs3 ClockProofs KeywordProofs FeatureModel FeatureSpec FeatureProofs FeatureProofs2.
Import ListNotations.
Open Scope list_scope.

(** ** Families of words apart *)
Definition apart : bool :=
  forallb (fun w => none (place ligature_words w)) (caps_words ++ concat numeric_words ++ concat east_asian_words ++ position_words ++ emoji_words) &&
  forallb (fun w => negb (memb w caps_words)) (concat numeric_words ++ concat east_asian_words ++ position_words ++ emoji_words) &&
  forallb (fun w => none (place numeric_words w)) (concat east_asian_words ++ position_words ++ emoji_words) &&
  forallb (fun w => none (place east_asian_words w)) (position_words ++ emoji_words) &&
  forallb (fun w => negb (memb w position_words)) emoji_words.
Lemma apart_ok : apart = true.
Proof. vm_compute. reflexivity. Qed.
Lemma none_eq {A} (o : option A) : none o = true -> o = None.
Proof. destruct o; [discriminate|reflexivity]. Qed.
Lemma not_ligature w : In w (caps_words ++ concat numeric_words ++ concat east_asian_words ++ position_words ++ emoji_words) -> place ligature_words w = None.
Proof.
  pose proof apart_ok as H. unfold apart in H. do 4 (apply andb_prop in H; destruct H as [H _]). intros J. apply none_eq. exact (proj1 (forallb_forall _ _) H w J).
Qed.
Lemma not_caps w : In w (concat numeric_words ++ concat east_asian_words ++ position_words ++ emoji_words) -> memb w caps_words = false.
Proof.
  pose proof apart_ok as H. unfold apart in H. do 3 (apply andb_prop in H; destruct H as [H _]). apply andb_prop in H. destruct H as [_ H].
  intros J. apply negb_true_iff. exact (proj1 (forallb_forall _ _) H w J).
Qed.
Lemma not_numeric w : In w (concat east_asian_words ++ position_words ++ emoji_words) -> place numeric_words w = None.
Proof.
  pose proof apart_ok as H. unfold apart in H. do 2 (apply andb_prop in H; destruct H as [H _]). apply andb_prop in H. destruct H as [_ H].
  intros J. apply none_eq. exact (proj1 (forallb_forall _ _) H w J).
Qed.
Lemma not_east w : In w (position_words ++ emoji_words) -> place east_asian_words w = None.
Proof.
  pose proof apart_ok as H. unfold apart in H. apply andb_prop in H. destruct H as [H _]. apply andb_prop in H. destruct H as [_ H].
  intros J. apply none_eq. exact (proj1 (forallb_forall _ _) H w J).
Qed.
Lemma not_position w : In w emoji_words -> memb w position_words = false.
Proof.
  pose proof apart_ok as H. unfold apart in H. apply andb_prop in H. destruct H as [_ H]. intros J. apply negb_true_iff. exact (proj1 (forallb_forall _ _) H w J).
Qed.

(** ** In the order of the families *)
Definition start : parts := Parts None None None None None None.
Definition placed (ks : list (list text)) (o : option text) (vs : list (option text)) : Prop :=
  match o with None => vs = nothing ks | Some w => place ks w = Some vs end.
Definition in_line (l c n e p m : option text) : list text := oword l ++ oword c ++ oword n ++ oword e ++ oword p ++ oword m.
Lemma in_line_read l c n e p m vl vn ve : placed ligature_words l vl -> ovalid caps_words c -> placed numeric_words n vn -> placed east_asian_words e ve ->
  ovalid position_words p -> ovalid emoji_words m ->
  exists s, wrounds 7 start (in_line l c n e p m) = Some s /\ build s = Variants vl c vn ve p m.
Proof.
  intros L C NU E P M.
  assert (FC : match c with None => True | Some w => place ligature_words w = None end).
  { destruct c as [w|]; [|exact I]. apply not_ligature, in_or_app. left. apply memb_in, C. }
  assert (FN : match n with None => True | Some w => place ligature_words w = None /\ memb w caps_words = false end).
  { destruct n as [w|]; [|exact I]. destruct (place_flat _ _ _ NU) as [_ J]. split; [apply not_ligature; apply in_or_app; right; apply in_or_app; left; exact J|apply not_caps, in_or_app; left; exact J]. }
  assert (FE : match e with None => True | Some w => place ligature_words w = None /\ memb w caps_words = false /\ place numeric_words w = None end).
  { destruct e as [w|]; [|exact I]. destruct (place_flat _ _ _ E) as [_ J]. split; [|split].
    - apply not_ligature. do 2 (apply in_or_app; right). apply in_or_app; left; exact J.
    - apply not_caps. apply in_or_app; right. apply in_or_app; left; exact J.
    - apply not_numeric. apply in_or_app; left; exact J. }
  assert (FP : match p with None => True | Some w => place ligature_words w = None /\ memb w caps_words = false /\ place numeric_words w = None /\ place east_asian_words w = None end).
  { destruct p as [w|]; [|exact I]. pose proof (memb_in _ _ P) as J. split; [|split; [|split]].
    - apply not_ligature. do 3 (apply in_or_app; right). apply in_or_app; left; exact J.
    - apply not_caps. do 2 (apply in_or_app; right). apply in_or_app; left; exact J.
    - apply not_numeric. apply in_or_app; right. apply in_or_app; left; exact J.
    - apply not_east. apply in_or_app; left; exact J. }
  assert (FM : match m with None => True | Some w => place ligature_words w = None /\ memb w caps_words = false /\ place numeric_words w = None /\ place east_asian_words w = None /\ memb w position_words = false end).
  { destruct m as [w|]; [|exact I]. pose proof (memb_in _ _ M) as J. split; [|split; [|split; [|split]]].
    - apply not_ligature. do 4 (apply in_or_app; right). exact J.
    - apply not_caps. do 3 (apply in_or_app; right). exact J.
    - apply not_numeric. do 2 (apply in_or_app; right). exact J.
    - apply not_east. apply in_or_app; right. exact J.
    - apply not_position. exact J. }
  unfold in_line, placed, ovalid in *. unfold build.
  destruct l as [wl|], c as [wc|], n as [wn|], e as [we|], p as [wp|], m as [wm|];
    repeat match goal with H : _ /\ _ |- _ => destruct H end; subst;
    cbn [oword app wrounds];
    repeat (unfold wround, sround, gstep, start, set_ligatures, set_caps, set_numeric, set_east_asian, set_position, set_emoji;
      cbn [none ligatures caps numeric east_asian position emoji andb oword app wrounds];
      repeat match goal with
        | H : place _ _ = _ |- _ => rewrite H
        | H : memb _ _ = _ |- _ => rewrite H
      end);
    cbn [none ligatures caps numeric east_asian position emoji andb unwrap wrounds sround];
    eexists; (split; [reflexivity|reflexivity]).
Qed.
