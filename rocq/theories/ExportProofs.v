From Coq Require Import String List NArith Bool Arith Lia.
From Verif Require Import Chars ParseModel OnsetModel ShellModel ShellSpec ShellProofs ExportModel ExportSpec.
Import ListNotations.

Lemma alphanumeric_spec c : alphanumeric c = true <-> word_char c.
Proof. unfold alphanumeric, is_ascii_digit, word_char, lower_case, upper_case, decimal. rewrite !orb_true_iff, !andb_true_iff, !N.leb_le. lia. Qed.
Lemma alphanumeric_not c : ~ word_char c -> alphanumeric c = false.
Proof. intros N. destruct (alphanumeric c) eqn:A; [|reflexivity]. apply alphanumeric_spec in A. contradiction. Qed.
Lemma pascal_sep b sep t : Forall (fun c => ~ word_char c) sep -> sep <> [] -> pascal b (sep ++ t) = pascal true t.
Proof.
  intros F. revert b. induction F as [|c sep N F IH]; intros b Ne; [congruence|]. cbn. rewrite (alphanumeric_not c N). destruct sep as [|x sep]; [reflexivity|].
  apply IH. discriminate.
Qed.
Lemma pascal_sep0 sep t : Forall (fun c => ~ word_char c) sep -> pascal true (sep ++ t) = pascal true t.
Proof. intros F. destruct sep as [|c sep]; [reflexivity|]. apply pascal_sep; [exact F|discriminate]. Qed.
Lemma pascal_run w t : Forall word_char w -> pascal false (w ++ t) = w ++ pascal false t.
Proof. induction 1 as [|c w C F IH]; [reflexivity|]. cbn. rewrite (proj2 (alphanumeric_spec c) C), IH. reflexivity. Qed.
Lemma pascal_after ws t : joined ws t -> match t with c :: _ => ~ word_char c | [] => True end -> pascal false t = pascal true t.
Proof. intros _. destruct t as [|c t]; [reflexivity|]. intros N. cbn. rewrite (alphanumeric_not c N). reflexivity. Qed.
Lemma upper_capital c w : capital (c :: w) (upper c :: w).
Proof.
  unfold upper. destruct ((97 <=? c) && (c <=? 122))%N eqn:E.
  - apply andb_true_iff in E. rewrite !N.leb_le in E. constructor. unfold lower_case. lia.
  - apply C_other. unfold lower_case. intros H. apply andb_false_iff in E. rewrite !N.leb_gt in E. lia.
Qed.
Lemma pascal_joined ws t : joined ws t -> pascal_of ws (pascal true t).
Proof.
  induction 1 as [sep F|sep w ws rest F Ne W J (cs & C & E) H].
  - exists []. split; [constructor|]. rewrite <- (app_nil_r sep), pascal_sep0 by exact F. reflexivity.
  - rewrite pascal_sep0 by exact F. destruct w as [|c w]; [congruence|]. inversion W; subst. cbn [app pascal].
    rewrite (proj2 (alphanumeric_spec c)) by assumption. rewrite pascal_run by assumption. rewrite (pascal_after ws rest J H), E.
    exists ((upper c :: w) :: cs). split; [|reflexivity]. constructor; [apply upper_capital|exact C].
Qed.
Lemma every_joined t : exists ws, joined ws t.
Proof.
  assert (G : forall t, (exists ws, joined ws t) /\ forall w, w <> [] -> Forall word_char w -> exists ws, joined ws (w ++ t)).
  { clear. induction t as [|c t [(ws & J) IH]].
    - split; [exists []; constructor; constructor|]. intros w Ne W. exists [w]. apply (J_word [] w [] []); auto; constructor. constructor.
    - destruct (alphanumeric c) eqn:A.
      + apply alphanumeric_spec in A. split.
        * apply (IH [c]); [discriminate|constructor; auto].
        * intros w Ne W. change (c :: t) with ([c] ++ t). rewrite app_assoc. apply IH; [destruct w; discriminate|]. apply Forall_app. split; [exact W|constructor; auto].
      + assert (N : ~ word_char c) by (intros X; apply alphanumeric_spec in X; congruence).
        assert (J' : joined ws (c :: t)).
        { inversion J as [sep F E1 E2|sep w ws' rest F Ne W J1 H E1 E2]; subst.
          - constructor. constructor; auto.
          - apply (J_word (c :: sep) w ws' rest); auto. }
        split; [exists ws; exact J'|]. intros w Ne W. exists (w :: ws). apply (J_word [] w ws (c :: t)); auto. }
  apply G.
Qed.
Lemma drop_digits_id t : (match t with c :: _ => ~ decimal c | [] => True end) -> drop_while is_ascii_digit t = t.
Proof.
  destruct t as [|c t]; [reflexivity|]. intros N. cbn. unfold is_ascii_digit. destruct ((48 <=? c) && (c <=? 57))%N eqn:E; [|reflexivity].
  apply andb_true_iff in E. rewrite !N.leb_le in E. exfalso. apply N. exact E.
Qed.
Lemma capital_head w c : capital w c -> exists x y r, w = x :: r /\ c = y :: r /\ (decimal x -> y = x) /\ (~ decimal x -> word_char x -> upper_case y) /\ (word_char x -> word_char y).
Proof.
  intros H. destruct H as [x r L|x r L].
  - exists x, (x - 32)%N, r. unfold lower_case, upper_case, decimal, word_char in *. repeat split; auto; try lia. unfold lower_case, upper_case, decimal in *. lia.
  - exists x, x, r. unfold lower_case, upper_case, decimal, word_char in *. repeat split; auto; unfold lower_case, upper_case, decimal in *; lia.
Qed.
(** A name made of words that begins with a letter. *)
Lemma component_words ws stem : joined ws stem -> match ws with (c :: _) :: _ => ~ decimal c | _ => True end -> pascal_of ws (component_name stem).
Proof.
  intros J H. pose proof (pascal_joined ws stem J) as (cs & C & E). unfold component_name. rewrite E. rewrite drop_digits_id; [exists cs; auto|].
  destruct C as [|w c ws cs Hc C]; [exact I|]. destruct (capital_head w c Hc) as (x & y & r & -> & -> & _ & U & _). cbn.
  inversion J; subst. match goal with X : Forall word_char (x :: r) |- _ => inversion X; subst end. assert (Uy : upper_case y) by auto. unfold upper_case, decimal in *. lia.
Qed.
Lemma concat_words ws cs : Forall2 capital ws cs -> Forall (Forall word_char) ws -> Forall word_char (concat cs).
Proof.
  induction 1 as [|w c ws cs Hc C IH]; intros F; [constructor|]. inversion F as [|? ? W F']; subst. cbn. apply Forall_app. split; [|auto].
  destruct (capital_head w c Hc) as (x & y & r & -> & -> & _ & _ & P). inversion W; subst. constructor; auto.
Qed.
Lemma joined_words ws t : joined ws t -> Forall (Forall word_char) ws.
Proof. induction 1; constructor; auto. Qed.
Lemma component_capital ws stem : joined ws stem -> ws <> [] -> match ws with (c :: _) :: _ => ~ decimal c | _ => True end -> component (component_name stem).
Proof.
  intros J Ne H. destruct (component_words ws stem J H) as (cs & C & ->). pose proof (concat_words ws cs C (joined_words ws stem J)) as F.
  destruct C as [|w c ws cs Hc C]; [congruence|]. destruct (capital_head w c Hc) as (x & y & r & -> & -> & _ & U & _).
  inversion J; subst. match goal with X : Forall word_char (x :: r) |- _ => inversion X; subst end.
  exists y, (r ++ concat cs). split; [reflexivity|]. split; [auto|]. cbn in F. inversion F; subst. assumption.
Qed.
Lemma drop_while_suffix (f : N -> bool) (P : N -> Prop) t : Forall P t -> Forall P (drop_while f t).
Proof. induction 1 as [|c t C F IH]; cbn; [constructor|]. destruct (f c); auto. Qed.
Lemma component_identifier stem : match component_name stem with [] => True | c :: r => (lower_case c \/ upper_case c) /\ Forall word_char r end.
Proof.
  destruct (every_joined stem) as (ws & J). destruct (pascal_joined ws stem J) as (cs & C & E). pose proof (concat_words ws cs C (joined_words ws stem J)) as F.
  unfold component_name. rewrite E. pose proof (drop_while_suffix is_ascii_digit _ _ F) as F'.
  assert (H : match drop_while is_ascii_digit (concat cs) with c :: _ => is_ascii_digit c = false | [] => True end).
  { generalize (concat cs). clear. induction l as [|c l IH]; cbn; [exact I|]. destruct (is_ascii_digit c) eqn:D; auto. }
  destruct (drop_while is_ascii_digit (concat cs)) as [|c r]; [exact I|]. inversion F' as [|? ? W R]; subst. split; [|exact R].
  destruct W as [W|[W|W]]; auto. exfalso. unfold is_ascii_digit, decimal in *. apply andb_false_iff in H. rewrite !N.leb_gt in H. lia.
Qed.

(** Files. *)
Lemma index_line_spec o name stem : index_line o name stem = export_line (j_named o) name stem.
Proof. unfold index_line, export_line. destruct (j_named o); reflexivity. Qed.
