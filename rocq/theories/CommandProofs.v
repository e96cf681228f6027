From Coq Require Import String List NArith ZArith Bool Arith Lia.
From Verif Require Import Chars ParseModel ParseSpec ParseProofs ParseProofs2 ParseProofs3 ParseProofs4 ListProofs ClockModel ClockSpec ClockProofs OnsetModel OnsetSpec OnsetProofs OnsetProofs2
  KeywordTable KeywordModel KeywordSpec KeywordProofs KeywordProofs2 KeywordProofs3 CommandModel CommandSpec.
Import ListNotations.

Section Numbers.
  Variable finite : dec -> bool.
  Variable f32 : dec -> dec.
  Definition reads (t : text) (d : dec) : Prop := exists q, number finite f32 t = Ok d q.
  Notation part := (get_part_f32 finite f32).
  Notation peek := (get_part_f32_peek finite f32).

  Lemma part_reads t d l : reads t d -> part (t :: l) = Done (d, l).
  Proof. intros (q & E). unfold get_part_f32. cbn [get_part and_then fst snd]. rewrite E. reflexivity. Qed.
  Lemma part_inv l d r : part l = Done (d, r) -> exists t, l = t :: r /\ reads t d.
  Proof.
    destruct l as [|t l]; [discriminate|]. unfold get_part_f32. cbn [get_part and_then fst snd]. destruct (number finite f32 t) as [v q| | |] eqn:E; try discriminate.
    intros [= <- <-]. exists t. split; [reflexivity|]. exists q. exact E.
  Qed.
  Lemma peek_reads t d l : reads t d -> peek (t :: l) = Done (Some d, l).
  Proof. intros (q & E). unfold get_part_f32_peek. rewrite E. reflexivity. Qed.
  Lemma peek_inv l v r : peek l = Done (v, r) -> match v with Some d => exists t, l = t :: r /\ reads t d | None => l = r end.
  Proof.
    destruct l as [|t l]; [intros [= <- <-]; reflexivity|]. unfold get_part_f32_peek. destruct (number finite f32 t) as [d q| | |] eqn:E; try discriminate; intros [= <- <-].
    - exists t. split; [reflexivity|]. exists q. exact E.
    - reflexivity.
  Qed.
  Definition names : list string :=
    ["-attr"; "-class"; "-path-intersect"; "-path-union"; "-path-subtract"; "-path-xor"; "-style"; "-matrix"; "-translate"; "-scale"; "-rotate"; "-skewX"; "-skewY"; "-insert"; "-create-element";
     "-forget"; "-select"; "-select-more"; "-deselect"]%string.
  Lemma name_not_number n : In n names -> exists e q, number finite f32 (lit n) = Fail e q.
  Proof. intros I. cbn in I. repeat (destruct I as [<-|I]; [eexists; eexists; vm_compute; reflexivity|]). destruct I. Qed.
  Lemma spelt_head a ws : spelt reads a ws -> exists n r, ws = lit n :: r /\ In n names.
  Proof. intros S. inversion S; subst; eexists; eexists; (split; [reflexivity|]); unfold names; cbn; tauto. Qed.
  Definition follows (l : list text) : Prop := l = [] \/ exists n r, l = lit n :: r /\ In n names.
  Lemma all_follows acts ls : Forall2 (spelt reads) acts ls -> follows (concat ls).
  Proof.
    intros F. destruct F as [|a l acts ls S F]; [now left|]. right. destruct (spelt_head a l S) as (n & r & -> & I). exists n, (r ++ concat ls). auto.
  Qed.
  Lemma peek_follows l : follows l -> peek l = Done (None, l).
  Proof. intros [-> |(n & r & -> & I)]; [reflexivity|]. unfold get_part_f32_peek. destruct (name_not_number n I) as (e & q & ->). reflexivity. Qed.

  Lemma action_complete a ws rest : spelt reads a ws -> follows rest -> exists n ws', ws = n :: ws' /\ starts_with [45%N] n = true /\ parse_action finite f32 n (ws' ++ rest) = Done (a, rest).
  Proof.
    intros S F. pose proof (peek_follows rest F) as P.
    destruct S; eexists; eexists; (split; [reflexivity|]); (split; [reflexivity|]); unfold parse_action;
      repeat match goal with |- context [text_eqb (lit ?x) (lit ?y)] => let b := eval vm_compute in (text_eqb (lit x) (lit y)) in change (text_eqb (lit x) (lit y)) with b end;
      cbn [app orb]; cbn [and_then get_part fst snd]; repeat (first [erewrite part_reads by eassumption | erewrite peek_reads by eassumption | rewrite P]; cbn [and_then fst snd]); reflexivity.
  Qed.
  Ltac un H := match type of H with
    | and_then ?r ?f = Done _ => destruct r as [[? ?]| |] eqn:?; cbn [and_then fst snd] in H; [|discriminate H|discriminate H]
    end.
  Lemma get_part_inv l t r : get_part l = Done (t, r) -> l = t :: r.
  Proof. destruct l; cbn; congruence. Qed.
  Lemma action_sound n parts a rest : parse_action finite f32 n parts = Done (a, rest) -> exists ws, spelt reads a (n :: ws) /\ parts = ws ++ rest.
  Proof.
    unfold parse_action.
    repeat match goal with |- context [text_eqb n (lit ?s)] => destruct (text_eqb n (lit s)) eqn:?; [match goal with E : text_eqb n (lit s) = true |- _ => apply text_eqb_spec in E; subst n end|] end; cbn [orb];
      intros H; try discriminate H;
      repeat un H;
      repeat match goal with
      | X : get_part _ = Done _ |- _ => apply get_part_inv in X
      | X : get_part_f32 _ _ _ = Done _ |- _ => apply part_inv in X; destruct X as (? & X & ?)
      | X : get_part_f32_peek _ _ _ = Done _ |- _ => apply peek_inv in X
      end.
    all: repeat match goal with
      | o : option dec |- _ => destruct o
      | X : exists t, _ = _ :: _ /\ reads t _ |- _ => destruct X as (? & X & ?)
      end.
    all: repeat un H; repeat match goal with X : get_part_f32 _ _ _ = Done _ |- _ => apply part_inv in X; destruct X as (? & X & ?) end.
    all: injection H as <- <-; subst.
    all: first [ eexists []; split; [econstructor; eassumption|reflexivity] | eexists [_]; split; [econstructor; eassumption|reflexivity]
      | eexists [_; _]; split; [econstructor; eassumption|reflexivity] | eexists [_; _; _]; split; [econstructor; eassumption|reflexivity] | eexists [_; _; _; _; _; _]; split; [econstructor; eassumption|reflexivity] ].
  Qed.
  Lemma actions_sound fuel : forall ws l, parse_actions finite f32 fuel ws = Done l -> spelt_all reads l ws.
  Proof.
    induction fuel as [|fuel IH]; intros ws l; destruct ws as [|n ws]; cbn [parse_actions]; intros H; try discriminate.
    - injection H as <-. exists []. split; [reflexivity|constructor].
    - injection H as <-. exists []. split; [reflexivity|constructor].
    - destruct (starts_with [45%N] n); [|discriminate]. cbn [negb] in H. destruct (parse_action finite f32 n ws) as [[a rest]| |] eqn:A; cbn [and_then fst snd] in H; try discriminate.
      destruct (parse_actions finite f32 fuel rest) as [l'| |] eqn:E; cbn [and_then] in H; try discriminate. injection H as <-.
      destruct (action_sound n ws a rest A) as (w & S & ->). destruct (IH rest l' E) as (ls & -> & F). exists ((n :: w) :: ls). split; [reflexivity|]. constructor; auto.
  Qed.
  Lemma actions_complete l : forall ls, Forall2 (spelt reads) l ls -> forall fuel, List.length (concat ls) <= fuel -> parse_actions finite f32 fuel (concat ls) = Done l.
  Proof.
    induction l as [|a l IH]; intros ls F fuel L; inversion F as [|? w ? ls' S F']; subst; [destruct fuel; reflexivity|].
    cbn [concat] in *. destruct (action_complete a w (concat ls') S (all_follows l ls' F')) as (n & w' & -> & D & A).
    cbn [app List.length] in L. destruct fuel as [|fuel]; [lia|]. cbn [app parse_actions]. rewrite D. cbn [negb]. rewrite A. cbn [and_then fst snd].
    rewrite app_length in L. rewrite (IH ls' F' fuel) by lia. reflexivity.
  Qed.
  Theorem commands_iff ws l : parse_commands finite f32 ws = Done l <-> spelt_all reads l ws.
  Proof.
    split; [apply actions_sound|]. intros (ls & -> & F). apply actions_complete; auto.
  Qed.
  (** Every way of writing a number, with white space around it. *)
  Lemma number_text v t w d : spaces v -> spaces w -> num_text finite f32 d t -> reads (v ++ t ++ w) d.
  Proof.
    intros V W N. unfold reads, number, parse_string, bind. change (new (v ++ t ++ w)) with (at_ [] (v ++ t ++ w)).
    pose proof (number_ws t w (proj1 N)) as H. rewrite skip_spaces by assumption. cbn [app].
    assert (A : after_number w) by (destruct w as [|c w]; [exact I|]; left; now inversion W).
    assert (ED : ~ ends_in 46%N w) by (apply spaces_not_ends; [exact W|unfold xml_space; lia]).
    pose proof (num_at finite f32 v [] t w d (Forall_nil _) N A ED) as E. cbn [app] in E. rewrite E.
    assert (S : skip_whitespace (at_ (v ++ t) (w ++ [])) = Ok tt (at_ ((v ++ t) ++ w) [])) by (apply skip_spaces; [exact W|exact I]).
    rewrite app_nil_r in S. rewrite S. unfold expect_done, ret. cbn [p_cursor p_input at_]. rewrite app_nil_r, Nat.ltb_irrefl. eexists. reflexivity.
  Qed.
End Numbers.

Lemma spelt_mono (p q : text -> dec -> Prop) a ws : (forall t d, p t d -> q t d) -> spelt p a ws -> spelt q a ws.
Proof. intros H S. destruct S; constructor; auto. Qed.
Theorem commands_text finite f32 l ws : spelt_all (fun t d => exists v u w, spaces v /\ spaces w /\ num_text finite f32 d u /\ t = v ++ u ++ w) l ws -> parse_commands finite f32 ws = Done l.
Proof.
  intros (ls & -> & F). apply commands_iff. exists ls. split; [reflexivity|]. induction F as [|a w l ls S F IH]; constructor; auto. revert S. apply spelt_mono.
  intros t d (v & u & x & V & X & N & ->). now apply number_text.
Qed.
(** What is described. *)
Lemma describe_in ws t : In t (describe ws) <-> exists ns, In (t, ns) sections /\ (ws = [] \/ exists n, In n ns /\ In (lit n) ws).
Proof.
  unfold describe. rewrite in_map_iff. split.
  - intros ([t' ns] & <- & I). apply filter_In in I. destruct I as [I H]. exists ns. split; [exact I|]. destruct ws as [|w ws]; [now left|]. right.
    apply existsb_exists in H. destruct H as (n & In1 & H). apply existsb_exists in H. destruct H as (x & In2 & H). apply text_eqb_spec in H. subst x. exists n. auto.
  - intros (ns & I & H). exists (t, ns). split; [reflexivity|]. apply filter_In. split; [exact I|]. destruct ws as [|w ws]; [reflexivity|]. destruct H as [H|(n & In1 & In2)]; [discriminate|].
    apply existsb_exists. exists n. split; [exact In1|]. apply existsb_exists. exists (lit n). split; [exact In2|]. apply text_eqb_spec. reflexivity.
Qed.
