From Coq Require Import List Bool Arith Lia.
From Verif Require Import CascadeModel CascadeSpec InlineModel InlineSpec.
Import ListNotations.

(** ** Lists *)
Inductive interleave {A} : list A -> list A -> list A -> Prop :=
| inter_nil : interleave [] [] []
| inter_left : forall x a b c, interleave a b c -> interleave (x ++ a) b (x ++ c)
| inter_right : forall x a b c, interleave a b c -> interleave a (x ++ b) (x ++ c).
Lemma interleave_length : forall A (a b c : list A), interleave a b c -> length c = length a + length b.
Proof. intros A a b c I. induction I; rewrite ?app_length in *; cbn; lia. Qed.
Lemma interleave_kept : forall A (b c : list A), interleave c b c -> b = [].
Proof. intros A b c I. apply interleave_length in I. destruct b; [reflexivity|]. cbn in I. lia. Qed.
Lemma interleave_moved_gen : forall A (a b c : list A), interleave a b c -> a = [] -> b = c.
Proof.
  intros A a b c I. induction I as [|x a b c I IH|x a b c I IH]; intros E; [reflexivity| |f_equal; exact (IH E)].
  apply app_eq_nil in E. destruct E as (-> & E). exact (IH E).
Qed.
Lemma interleave_app : forall A (a b c a' b' c' : list A), interleave a b c -> interleave a' b' c' -> interleave (a ++ a') (b ++ b') (c ++ c').
Proof.
  intros A a b c a' b' c' I I'. induction I as [|x a b c I IH|x a b c I IH]; [exact I'| |]; rewrite <- !app_assoc; constructor; exact IH.
Qed.
Lemma interleave_all : forall A (a : list A), interleave a [] a.
Proof. intros A a. rewrite <- (app_nil_r a). exact (inter_left a [] [] [] inter_nil). Qed.
Lemma token_eqb_refl : forall t, token_eqb t t = true.
Proof.
  assert (L : forall l, list_eqb l l = true) by (intros l; induction l as [|x l IH]; cbn; rewrite ?Nat.eqb_refl; auto).
  intros [c|c|p [v|]|n|c|n|l]; cbn; rewrite ?Nat.eqb_refl, ?L; reflexivity.
Qed.
Lemma list_eqb_eq : forall a b, list_eqb a b = true <-> a = b.
Proof.
  intros a. induction a as [|x a IH]; intros [|y b]; cbn; try (split; congruence). rewrite andb_true_iff, Nat.eqb_eq, IH. split; [intros (-> & ->); reflexivity|intros E; injection E as -> ->; split; reflexivity].
Qed.
Lemma token_eqb_eq : forall a b, token_eqb a b = true -> a = b.
Proof.
  intros [c|c|p v|n|c|n|l] [c'|c'|p' v'|n'|c'|n'|l']; cbn; intros E; try discriminate; try (apply Nat.eqb_eq in E; congruence).
  - apply andb_prop in E. destruct E as (E1 & E2). apply Nat.eqb_eq in E1. destruct v, v'; try discriminate; [apply Nat.eqb_eq in E2|]; congruence.
  - apply list_eqb_eq in E. congruence.
Qed.
Lemma has_in : forall l t, has l t = true <-> In t l.
Proof.
  intros l t. unfold has. rewrite existsb_exists. split.
  - intros (x & J & E). apply token_eqb_eq in E. congruence.
  - intros J. exists t. split; [exact J|apply token_eqb_refl].
Qed.
Lemma existsb_nat : forall c l, existsb (Nat.eqb c) l = true <-> In c l.
Proof.
  intros c l. rewrite existsb_exists. split; [intros (x & J & E); apply Nat.eqb_eq in E; congruence|]. intros J. exists c. split; [exact J|apply Nat.eqb_refl].
Qed.

(** ** Which values win *)
Definition best2 (b x : option (nat * value)) : option (nat * value) :=
  match b, x with Some y, Some z => if fst z <? fst y then b else x | None, _ => x | Some _, None => b end.
Lemma best_from_split : forall l b, best_from b l = best2 b (best_from None l).
Proof.
  induction l as [|x l IH]; intros b; [destruct b; reflexivity|]. cbn [best_from]. rewrite (IH (Some x)), IH.
  destruct b as [y|]; [|reflexivity]. destruct (best_from None l) as [z|]; cbn [best2].
  - destruct (Nat.ltb_spec (fst x) (fst y)); destruct (Nat.ltb_spec (fst z) (fst x)); cbn [best2];
    repeat match goal with |- context [fst ?u <? fst ?v] => destruct (Nat.ltb_spec (fst u) (fst v)); cbn [best2] end; try reflexivity; lia.
  - destruct (fst x <? fst y) eqn:A; cbn [best2]; rewrite ?A; reflexivity.
Qed.
Lemma last_of_app : forall A (a b : list A), last_of (a ++ b) = match last_of b with Some x => Some x | None => last_of a end.
Proof. intros A a b. unfold last_of. rewrite rev_app_distr. destruct (rev b); reflexivity. Qed.
Section Winner.
  Variable f : block -> list (prop * value).
  Variable p : prop.
  Definition vals (x : inlined) : list value := values p (f (i_block x)).
  Definition pairs (x : inlined) : list (nat * value) := map (fun v => (i_spec x, v)) (vals x).
  Lemma best_const : forall k l, best_from None (map (fun v : value => (k, v)) l) = option_map (fun v => (k, v)) (last_of l).
  Proof.
    intros k l. induction l as [|x l IH]; [reflexivity|]. cbn [map best_from]. rewrite best_from_split, IH. change (x :: l) with ([x] ++ l). rewrite last_of_app.
    destruct (last_of l) as [v|]; cbn [option_map best2 fst]; [rewrite Nat.ltb_irrefl; reflexivity|reflexivity].
  Qed.
  Lemma best_app : forall a b, best_from None (a ++ b) = best2 (best_from None a) (best_from None b).
  Proof. intros a. induction a as [|x a IH]; intros b; [cbn [app]; cbn [best_from]; destruct (best_from None b); reflexivity|]. cbn [app best_from].
    rewrite (best_from_split (a ++ b)), IH, (best_from_split a (Some x)). generalize (best_from None a) (best_from None b). intros u v. destruct x as [k x], u as [[m y]|], v as [[n z]|]; cbn [best2 fst]; try reflexivity.
    all: repeat match goal with |- context [?u <? ?v] => destruct (Nat.ltb_spec u v); cbn [best2 fst] end; try reflexivity; lia.
  Qed.
  Lemma best_pairs : forall x, best_from None (pairs x) = option_map (fun v => (i_spec x, v)) (last_of (vals x)).
  Proof. intros x. unfold pairs. apply best_const. Qed.
  (** In a list that is sorted the last wins, and it has the highest specificity. *)
  Inductive sorted : list inlined -> Prop :=
  | sorted_nil : sorted []
  | sorted_cons : forall x l, (forall y, In y l -> i_spec x <= i_spec y) -> sorted l -> sorted (x :: l).
  Lemma insert_in : forall x l y, In y (insert_by x l) <-> y = x \/ In y l.
  Proof.
    intros x l y. induction l as [|z l IH]; cbn [insert_by]; [cbn; intuition|]. destruct (i_spec z <? i_spec x); cbn [In]; rewrite ?IH; intuition.
  Qed.
  Lemma insert_sorted : forall x l, sorted l -> sorted (insert_by x l).
  Proof.
    intros x l S. induction S as [|z l B S IH]; cbn [insert_by]; [constructor; [intros y []|constructor]|]. destruct (i_spec z <? i_spec x) eqn:E.
    - apply Nat.ltb_lt in E. constructor; [|exact IH]. intros y J. apply insert_in in J. destruct J as [->|J]; [lia|exact (B y J)].
    - apply Nat.ltb_ge in E. constructor; [|constructor; assumption]. intros y [<-|J]; [exact E|]. specialize (B y J). lia.
  Qed.
  Lemma sort_sorted : forall l, sorted (sort l).
  Proof. induction l as [|x l IH]; [constructor|]. apply insert_sorted. exact IH. Qed.
  Lemma sort_in : forall l y, In y (sort l) <-> In y l.
  Proof. induction l as [|x l IH]; intros y; [reflexivity|]. cbn [sort In]. rewrite insert_in, IH. intuition. Qed.
  Lemma pairs_spec : forall l b, best_from None (flat_map pairs l) = Some b -> exists x, In x l /\ fst b = i_spec x.
  Proof.
    induction l as [|x l IH]; intros b E; [discriminate|]. cbn [flat_map] in E. rewrite best_app in E. rewrite best_pairs in E.
    destruct (last_of (vals x)) as [v|]; cbn [option_map best2] in E.
    - destruct (best_from None (flat_map pairs l)) as [z|] eqn:Z.
      + cbn [fst] in E. destruct (fst z <? i_spec x); injection E as <-; [exists x; split; [left; reflexivity|reflexivity]|]. destruct (IH z eq_refl) as (y & J & K). exists y. split; [right; exact J|exact K].
      + injection E as <-. exists x. split; [left; reflexivity|reflexivity].
    - destruct (IH b E) as (y & J & K). exists y. split; [right; exact J|exact K].
  Qed.
  (** Putting an entry in its place does not change which wins. *)
  Lemma best_insert : forall x l, sorted l -> best_from None (flat_map pairs (insert_by x l)) = best2 (best_from None (pairs x)) (best_from None (flat_map pairs l)).
  Proof.
    intros x l S. induction S as [|z l B S IH]; cbn [insert_by]; [cbn [flat_map]; rewrite app_nil_r; cbn [best_from]; destruct (best_from None (pairs x)); reflexivity|].
    destruct (i_spec z <? i_spec x) eqn:E; cbn [flat_map]; rewrite ?best_app; [|reflexivity]. rewrite IH. apply Nat.ltb_lt in E.
    rewrite !best_pairs. generalize (pairs_spec l). intros PS. destruct (last_of (vals z)) as [v|], (last_of (vals x)) as [w|], (best_from None (flat_map pairs l)) as [b|]; cbn [option_map best2 fst]; try reflexivity.
    - destruct (PS b eq_refl) as (y & J & K). specialize (B y J).
      repeat match goal with |- context [?u <? ?v] => destruct (Nat.ltb_spec u v); cbn [best2 fst] end; try reflexivity; lia.
    - repeat match goal with |- context [?u <? ?v] => destruct (Nat.ltb_spec u v); cbn [best2 fst] end; try reflexivity; lia.
  Qed.
  Lemma best_sort : forall l, best_from None (flat_map pairs (sort l)) = best_from None (flat_map pairs l).
  Proof. induction l as [|x l IH]; [reflexivity|]. cbn [sort]. rewrite best_insert by apply sort_sorted. cbn [flat_map]. rewrite best_app, IH. reflexivity. Qed.
  Lemma sorted_last : forall l, sorted l -> best_from None (flat_map pairs l) = None /\ last_of (flat_map vals l) = None \/
    exists k v, best_from None (flat_map pairs l) = Some (k, v) /\ last_of (flat_map vals l) = Some v.
  Proof.
    intros l S. induction S as [|x l B S IH]; [left; split; reflexivity|]. cbn [flat_map]. rewrite best_app, last_of_app. rewrite best_pairs. generalize (pairs_spec l). intros PS.
    destruct IH as [(E1 & E2)|(k & v & E1 & E2)]; rewrite E1, E2.
    - destruct (last_of (vals x)) as [v|]; [right; exists (i_spec x), v; split; reflexivity|left; split; reflexivity].
    - right. exists k, v. split; [|reflexivity]. destruct (last_of (vals x)) as [w|]; cbn [option_map best2 fst]; [|reflexivity].
      destruct (PS _ E1) as (y & J & K). specialize (B y J). cbn [fst] in K. assert (Z : k <? i_spec x = false) by (apply Nat.ltb_ge; lia). rewrite Z. reflexivity.
  Qed.
  Lemma sort_best : forall l, last_of (flat_map vals (sort l)) = best (flat_map pairs l).
  Proof.
    intros l. unfold best. rewrite <- best_sort. destruct (sorted_last (sort l) (sort_sorted l)) as [(E1 & E2)|(k & v & E1 & E2)]; rewrite E1, E2; reflexivity.
  Qed.
End Winner.
Lemma values_app : forall p a b, values p (a ++ b) = values p a ++ values p b.
Proof. intros p a b. unfold values. rewrite filter_app, map_app. reflexivity. Qed.
Lemma values_flat_map : forall A p (g : A -> list (prop * value)) l, values p (flat_map g l) = flat_map (fun x => values p (g x)) l.
Proof. intros A p g l. induction l as [|x l IH]; [reflexivity|]. cbn [flat_map]. rewrite values_app, IH. reflexivity. Qed.

(** ** What is taken out and what is left *)
Section Take.
  Variable context : list (list token) -> nat -> (nat -> token -> bool) -> nat -> bool.
  Variable pseudo : nat -> nat -> bool.
  Variable o : options.
  Variable d : list element.
  Let selects := selects context pseudo.
  Lemma holds_true : forall i t, is_pseudo t = false -> token_holds d i t = true_of pseudo d i t.
  Proof.
    intros i t P. unfold token_holds, true_of. destruct (nth_error d i) as [e|]; [|reflexivity]. destruct t as [c|c|p v|n|c|n|l]; try discriminate; cbn [holds]; try reflexivity.
    - destruct (in_dec Nat.eq_dec c (classes e)) as [J|J]; [apply existsb_nat; exact J|]. destruct (existsb (Nat.eqb c) (classes e)) eqn:E; [|reflexivity]. apply existsb_nat in E. contradiction.
    - destruct (in_dec Nat.eq_dec c (classes e)) as [J|J]; [apply existsb_nat in J; rewrite J; reflexivity|]. destruct (existsb (Nat.eqb c) (classes e)) eqn:E; [|reflexivity]. apply existsb_nat in E. contradiction.
    - destruct (list_eq_dec Nat.eq_dec (classes e) l) as [J|J]; [apply list_eqb_eq; exact J|]. destruct (list_eqb (classes e) l) eqn:E; [|reflexivity]. apply list_eqb_eq in E. contradiction.
  Qed.
  Lemma forallb_ext_in : forall A (f g : A -> bool) l, (forall x, In x l -> f x = g x) -> forallb f l = forallb g l.
  Proof. intros A f g l. induction l as [|x l IH]; intros E; [reflexivity|]. cbn [forallb]. rewrite (E x (or_introl eq_refl)), IH; [reflexivity|]. intros y J. apply E. right. exact J. Qed.
  Lemma removable_matches : forall s found i, removable o d s found = true -> before s = [] /\ matches context d s i = selects d s i.
  Proof.
    intros s found i R. unfold removable in R. destruct (before s) eqn:B; [|discriminate]. destruct (existsb is_pseudo (tail s)) eqn:P; [discriminate|]. split; [reflexivity|].
    unfold matches, selects, InlineSpec.selects. rewrite B, !andb_true_r. apply forallb_ext_in. intros t J. apply holds_true. destruct (is_pseudo t) eqn:Q; [|reflexivity].
    assert (X : existsb is_pseudo (tail s) = true) by (apply existsb_exists; exists t; split; assumption). congruence.
  Qed.
  Variable on : nat -> bool.
  Variable f : block -> list (prop * value).
  Variable p : prop.
  Variable i : nat.
  Hypothesis present : i < length d.
  Definition mine (l : list inlined) : list inlined := filter (fun x => Nat.eqb (i_element x) i) l.
  Lemma mine_app : forall a b, mine (a ++ b) = mine a ++ mine b.
  Proof. intros. apply filter_app. Qed.
  Lemma mine_found : forall s b, mine (map (fun j => mkInlined j (tail s) (spec s) b) (select context d s)) = if matches context d s i then [mkInlined i (tail s) (spec s) b] else [].
  Proof.
    intros s b. unfold select. assert (G : forall n k, mine (map (fun j => mkInlined j (tail s) (spec s) b) (filter (matches context d s) (seq k n))) =
      if (k <=? i) && (i <? k + n) then if matches context d s i then [mkInlined i (tail s) (spec s) b] else [] else []).
    { induction n as [|n IH]; intros k; cbn [seq filter].
      - cbn [map mine filter]. destruct (k <=? i) eqn:A; [|reflexivity]. apply Nat.leb_le in A. assert (X : i <? k + 0 = false) by (apply Nat.ltb_ge; lia). rewrite X. reflexivity.
      - specialize (IH (S k)). destruct (Nat.eq_dec k i) as [->|N].
        + assert (A : (i <=? i) && (i <? i + S n) = true) by (apply andb_true_iff; split; [apply Nat.leb_le; lia|apply Nat.ltb_lt; lia]). rewrite A.
          assert (B : S i <=? i = false) by (apply Nat.leb_gt; lia). rewrite B in IH. cbn [andb] in IH. destruct (matches context d s i); [|exact IH].
          cbn [map]. unfold mine in *. cbn [filter i_element]. rewrite Nat.eqb_refl, IH. reflexivity.
        + assert (A : (k <=? i) && (i <? k + S n) = (S k <=? i) && (i <? S k + n)).
          { replace (S k + n) with (k + S n) by lia. f_equal. destruct (k <=? i) eqn:X, (S k <=? i) eqn:Y; try reflexivity; [apply Nat.leb_le in X; apply Nat.leb_gt in Y|apply Nat.leb_gt in X; apply Nat.leb_le in Y]; lia. }
          rewrite A. destruct (matches context d s k); [|exact IH]. cbn [map]. unfold mine in *. cbn [filter i_element]. destruct (Nat.eqb k i) eqn:X; [apply Nat.eqb_eq in X; contradiction|]. exact IH. }
    rewrite G. assert (A : (0 <=? i) && (i <? 0 + length d) = true) by (apply andb_true_iff; split; [apply Nat.leb_le; lia|apply Nat.ltb_lt; lia]). rewrite A. reflexivity.
  Qed.
  Let declares := declares context pseudo on f d i p.
  Lemma retain_split : forall b sels st l st', retain context o d b sels st = (l, st') ->
    exists add, snd st' = snd st ++ add /\ incl (fst st) (fst st') /\
    interleave (flat_map declares (map (fun s => mkOne s b []) l)) (flat_map (pairs f p) (mine add)) (flat_map declares (map (fun s => mkOne s b []) sels)).
  Proof.
    intros b sels. induction sels as [|s sels IH]; intros st l st' E; cbn [retain] in E.
    - injection E as <- <-. exists []. rewrite app_nil_r. split; [reflexivity|]. split; [apply incl_refl|]. constructor.
    - destruct (existsb (has (fst st)) (tail s)).
      + destruct (retain context o d b sels _) as [l2 st2] eqn:R. injection E as <- <-. destruct (IH _ _ _ R) as (add & A1 & A2 & A3). cbn [fst snd] in A1, A2.
        exists add. split; [exact A1|]. split; [intros t J; apply A2; apply in_or_app; left; exact J|]. cbn [map flat_map]. apply inter_left. exact A3.
      + destruct (removable o d s (select context d s)) eqn:RM.
        * destruct (IH _ _ _ E) as (add & A1 & A2 & A3). cbn [fst snd] in A1, A2. exists (map (fun j => mkInlined j (tail s) (spec s) b) (select context d s) ++ add).
          split; [rewrite A1, app_assoc; reflexivity|]. split; [exact A2|]. rewrite mine_app, mine_found, flat_map_app. cbn [map flat_map].
          assert (X : flat_map (pairs f p) (if matches context d s i then [mkInlined i (tail s) (spec s) b] else []) = declares (mkOne s b [])).
          { destruct (removable_matches s _ i RM) as (_ & M). unfold declares, InlineSpec.declares. cbn [o_conds o_sel o_block forallb andb]. fold selects. rewrite <- M.
            destruct (matches context d s i); [|reflexivity]. cbn [flat_map]. rewrite app_nil_r. reflexivity. }
          rewrite X. apply inter_right. exact A3.
        * destruct (retain context o d b sels st) as [l2 st2] eqn:R. injection E as <- <-. destruct (IH _ _ _ R) as (add & A1 & A2 & A3).
          exists add. split; [exact A1|]. split; [exact A2|]. cbn [map flat_map]. apply inter_left. exact A3.
  Qed.
End Take.

(** Rules in blocks with a condition: all stay. *)
Lemma srule_ind' : forall P : srule -> Prop, (forall sels b, P (SRule sels b)) -> (forall q rs, Forall P rs -> P (SMedia q rs)) -> forall r, P r.
Proof.
  intros P H1 H2. fix IH 1. intros [sels b|q rs]; [apply H1|]. apply H2. induction rs as [|r rs IHrs]; constructor; [apply IH|exact IHrs].
Qed.
Section Media.
  Variable context : list (list token) -> nat -> (nat -> token -> bool) -> nat -> bool.
  Variable o : options.
  Variable d : list element.
  Definition told (dyn : list token) (s : selector) : Prop := tail s <> [] /\ incl (tail s) dyn.
  Lemma retain_told : forall b sels st, Forall (told (fst st)) sels -> exists st', retain context o d b sels st = (sels, st') /\ snd st' = snd st /\ incl (fst st) (fst st').
  Proof.
    intros b sels. induction sels as [|s sels IH]; intros st F; [exists st; repeat split; apply incl_refl|]. inversion F as [|? ? (T1 & T2) F2]; subst. cbn [retain].
    assert (E : existsb (has (fst st)) (tail s) = true).
    { destruct (tail s) as [|t l] eqn:TS; [contradiction|]. apply existsb_exists. exists t. split; [left; reflexivity|]. apply has_in. apply T2. left. reflexivity. }
    rewrite E. destruct (IH (fst st ++ tail s ++ concat (before s), snd st)) as (st' & R & S1 & S2).
    - cbn [fst]. eapply Forall_impl; [|exact F2]. intros x (X1 & X2). split; [exact X1|]. apply incl_appl. exact X2.
    - rewrite R. exists st'. split; [reflexivity|]. split; [exact S1|]. intros t J. apply S2. cbn [fst]. apply in_or_app. left. exact J.
  Qed.
  Definition go_collect := fix go (l : list srule) (st : state) : list srule * state :=
    match l with
    | [] => ([], st)
    | r :: l => let '(r, st) := collect context o d r st in let '(l, st) := go l st in (r :: l, st)
    end.
  Lemma collect_media : forall q rs st, collect context o d (SMedia q rs) st = let '(l, st) := go_collect rs st in (SMedia q l, st).
  Proof. reflexivity. Qed.
  Definition go_ones conds := fix go (l : list srule) : list one := match l with [] => [] | r :: l => ones conds r ++ go l end.
  Lemma ones_media : forall conds q rs, ones conds (SMedia q rs) = go_ones (q :: conds) rs.
  Proof. reflexivity. Qed.
  Lemma collect_told : forall r st, (forall x, In x (ones [] r) -> told (fst st) (o_sel x)) ->
    exists r' st', collect context o d r st = (r', st') /\ (forall c, ones c r' = ones c r) /\ snd st' = snd st /\ incl (fst st) (fst st').
  Proof.
    assert (K : forall r c c' x, In x (ones c r) -> exists y, In y (ones c' r) /\ o_sel y = o_sel x /\ o_block y = o_block x).
    { intros r. induction r as [sels b|q rs IH] using srule_ind'; intros c c' x J.
      - cbn [ones] in *. apply in_map_iff in J. destruct J as (s & <- & J). exists (mkOne s b c'). split; [apply in_map_iff; exists s; split; [reflexivity|exact J]|]. split; reflexivity.
      - rewrite ones_media in *. induction IH as [|r rs H F IHr]; [destruct J|]. cbn [go_ones] in *. apply in_app_or in J. destruct J as [J|J].
        + destruct (H (q :: c) (q :: c') x J) as (y & Y & Z). exists y. split; [apply in_or_app; left; exact Y|exact Z].
        + destruct (IHr J) as (y & Y & Z). exists y. split; [apply in_or_app; right; exact Y|exact Z]. }
    intros r. induction r as [sels b|q rs IH] using srule_ind'; intros st T.
    - cbn [collect]. destruct (retain_told b sels st) as (st' & R & S1 & S2).
      + apply Forall_forall. intros s J. exact (T (mkOne s b []) (in_map (fun s => mkOne s b []) sels s J)).
      + rewrite R. eexists. exists st'. split; [reflexivity|]. split; [|split; assumption]. intros c. destruct sels; reflexivity.
    - rewrite collect_media. rewrite ones_media in T.
      assert (G : exists l st', go_collect rs st = (l, st') /\ (forall c, go_ones c l = go_ones c rs) /\ snd st' = snd st /\ incl (fst st) (fst st')).
      { revert st T. induction IH as [|r rs H F IHr]; intros st T; [exists [], st; repeat split; apply incl_refl|]. cbn [go_collect]. cbn [go_ones] in T.
        destruct (H st) as (r' & st1 & R & O1 & S1 & I1).
        { intros x J. destruct (K r [] [q] x J) as (y & Y & <- & _). apply T. apply in_or_app. left. exact Y. }
        rewrite R. destruct (IHr st1) as (l & st2 & R2 & O2 & S2 & I2).
        { intros x J. destruct (T x (in_or_app _ _ _ (or_intror J))) as (T1 & T2). split; [exact T1|]. eapply incl_tran; [exact T2|exact I1]. }
        rewrite R2. exists (r' :: l), st2. split; [reflexivity|]. split; [intros c; cbn [go_ones]; rewrite O1, O2; reflexivity|]. split; [congruence|eapply incl_tran; eassumption]. }
      destruct G as (l & st' & R & O & S & I). rewrite R. exists (SMedia q l), st'. split; [reflexivity|]. split; [intros c; rewrite !ones_media; apply O|]. split; assumption.
  Qed.
  Definition go_dynamic := fix go (l : list srule) : list token := match l with [] => [] | r :: l => dynamic_rule true r ++ go l end.
  Lemma dynamic_media : forall m q rs, dynamic_rule m (SMedia q rs) = go_dynamic rs.
  Proof. reflexivity. Qed.
  Lemma dynamic_tokens : forall r c x t, In x (ones c r) -> In t (tokens_of (o_sel x)) -> In t (dynamic_rule true r).
  Proof.
    intros r. induction r as [sels b|q rs IH] using srule_ind'; intros c x t J K.
    - cbn [ones] in J. apply in_map_iff in J. destruct J as (s & <- & J). cbn [dynamic_rule]. apply in_flat_map. exists s. split; [exact J|exact K].
    - rewrite ones_media in J. rewrite dynamic_media. induction IH as [|r rs H F IHr]; [destruct J|]. cbn [go_ones] in J. cbn [go_dynamic]. apply in_or_app. apply in_app_or in J.
      destruct J as [J|J]; [left; exact (H (q :: c) x t J K)|right; exact (IHr J)].
  Qed.
  Lemma ones_conds : forall r c x, In x (ones c r) -> incl c (o_conds x).
  Proof.
    intros r. induction r as [sels b|q rs IH] using srule_ind'; intros c x J.
    - cbn [ones] in J. apply in_map_iff in J. destruct J as (s & <- & J). apply incl_refl.
    - rewrite ones_media in J. induction IH as [|r rs H F IHr]; [destruct J|]. cbn [go_ones] in J. apply in_app_or in J.
      destruct J as [J|J]; [|exact (IHr J)]. specialize (H (q :: c) x J). intros a A. apply H. right. exact A.
  Qed.
End Media.

(** ** Sheets *)
Section Sheets.
  Variable context : list (list token) -> nat -> (nat -> token -> bool) -> nat -> bool.
  Variable pseudo : nat -> nat -> bool.
  Variable o : options.
  Variable d : list element.
  Definition media_told (dyn : list token) (r : srule) : Prop := match r with SRule _ _ => True | SMedia _ _ => forall x, In x (ones [] r) -> told dyn (o_sel x) end.
  Lemma collect_all_split : forall rs st l st', Forall (media_told (fst st)) rs -> collect_all context o d rs st = (l, st') ->
    incl (fst st) (fst st') /\ (forall r, In r rs -> match r with SMedia _ _ => forall x, In x (ones [] r) -> In x (flat_map (ones []) l) | SRule _ _ => True end) /\
    exists add, snd st' = snd st ++ add /\ forall on f p i, i < length d ->
    interleave (flat_map (declares context pseudo on f d i p) (flat_map (ones []) l)) (flat_map (pairs f p) (mine i add)) (flat_map (declares context pseudo on f d i p) (flat_map (ones []) rs)).
  Proof.
    intros rs. induction rs as [|r rs IH]; intros st l st' M E; cbn [collect_all] in E.
    - injection E as <- <-. split; [apply incl_refl|]. split; [intros r []|]. exists []. rewrite app_nil_r. split; [reflexivity|]. intros. constructor.
    - inversion M as [|? ? M1 M2]; subst. destruct (collect context o d r st) as [r' st1] eqn:R. destruct (collect_all context o d rs st1) as [l2 st2] eqn:R2. injection E as <- <-.
      assert (H : incl (fst st) (fst st1) /\ match r with SMedia _ _ => ones [] r' = ones [] r | SRule _ _ => True end /\ exists add, snd st1 = snd st ++ add /\ forall on f p i, i < length d ->
        interleave (flat_map (declares context pseudo on f d i p) (ones [] r')) (flat_map (pairs f p) (mine i add)) (flat_map (declares context pseudo on f d i p) (ones [] r))).
      { destruct r as [sels b|q q'].
        - cbn [collect] in R. destruct (retain context o d b sels st) as [l st3] eqn:RT. injection R as <- <-.
          assert (I : exists add, snd st3 = snd st ++ add /\ incl (fst st) (fst st3)).
          { clear - RT. revert st l st3 RT. induction sels as [|s sels IH]; intros st l st3 RT; cbn [retain] in RT.
            - injection RT as <- <-. exists []. rewrite app_nil_r. split; [reflexivity|apply incl_refl].
            - destruct (existsb (has (fst st)) (tail s)).
              + destruct (retain context o d b sels _) as [l2 st2] eqn:X. injection RT as <- <-. destruct (IH _ _ _ X) as (add & A & B). exists add. split; [exact A|]. intros t J. apply B. cbn [fst]. apply in_or_app. left. exact J.
              + destruct (removable o d s (select context d s)).
                * destruct (IH _ _ _ RT) as (add & A & B). cbn [snd fst] in A, B. rewrite <- app_assoc in A. eexists. split; [exact A|exact B].
                * destruct (retain context o d b sels st) as [l2 st2] eqn:X. injection RT as <- <-. exact (IH _ _ _ X). }
          destruct I as (add & A & B). split; [exact B|]. split; [exact Logic.I|]. exists add. split; [exact A|]. intros on f p i P.
          destruct (retain_split context pseudo o d on f p i P b sels st l st3 RT) as (add' & A' & _ & X). rewrite A in A'. apply app_inv_head in A'. subst add'.
          replace (ones [] (SRule l match l with [] => mkBlock [] [] | _ :: _ => b end)) with (map (fun s => mkOne s b []) l) by (destruct l; reflexivity). exact X.
        - destruct (collect_told context o d (SMedia q q') st M1) as (r2 & st3 & R3 & O & S & I). rewrite R in R3. injection R3 as <- <-. split; [exact I|]. split; [apply O|].
          exists []. rewrite app_nil_r. split; [exact S|]. intros on f p i P. rewrite O. cbn [mine filter flat_map]. apply interleave_all. }
      destruct H as (I1 & K1 & add & A1 & X1).
      destruct (IH st1 l2 st2) as (I2 & K2 & add2 & A2 & X2); [eapply Forall_impl; [|exact M2]; intros [sels b|q q'] T; [exact Logic.I|]; intros x J; destruct (T x J) as (T1 & T2); split; [exact T1|eapply incl_tran; eassumption]|exact R2|].
      split; [eapply incl_tran; eassumption|]. split.
      + intros r0 [<-|J].
        * destruct r as [sels b|q q']; [exact Logic.I|]. intros x J. cbn [flat_map]. apply in_or_app. left. rewrite K1. exact J.
        * specialize (K2 r0 J). destruct r0; [exact Logic.I|]. intros x Y. cbn [flat_map]. apply in_or_app. right. exact (K2 x Y).
      + exists (add ++ add2). split; [rewrite A2, A1, app_assoc; reflexivity|]. intros on f p i P. cbn [flat_map]. rewrite mine_app, !flat_map_app. apply interleave_app; [apply X1|apply X2]; exact P.
  Qed.
  Lemma first_pass : forall s, (forall x, In x (sheet_ones s) -> tail (o_sel x) <> []) -> media s = None -> Forall (media_told (flat_map (dynamic_rule false) (rules s))) (rules s).
  Proof.
    intros s W M. apply Forall_forall. intros r J. destruct r as [sels b|q q']; [exact Logic.I|]. intros x X. split.
    - apply W. unfold sheet_ones. rewrite M. apply in_flat_map. exists (SMedia q q'). split; assumption.
    - intros t T. apply in_flat_map. exists (SMedia q q'). split; [exact J|]. change (In t (dynamic_rule true (SMedia q q'))). eapply dynamic_tokens; [exact X|]. apply in_or_app. left. exact T.
  Qed.
  Lemma sheets_split : forall ss ss' dyn l, wellformed ss -> unconditional ss -> inline_sheets context o d ss = (ss', (dyn, l)) ->
    (forall s, In s ss -> incl (flat_map (dynamic_rule false) (rules s)) dyn) /\
    (forall s r, In s ss -> In r (rules s) -> match r with SMedia _ _ => forall x, In x (ones [] r) -> In x (all_ones ss') | SRule _ _ => True end) /\
    forall on f p i, i < length d ->
    interleave (declared context pseudo on f d ss' i p) (flat_map (pairs f p) (mine i l)) (declared context pseudo on f d ss i p).
  Proof.
    intros ss. induction ss as [|s ss IH]; intros ss' dyn l W U E; cbn [inline_sheets] in E.
    - injection E as <- <- <-. split; [intros s []|]. split; [intros s r []|]. intros. constructor.
    - destruct (inline_rules context o d s) as [s' st] eqn:R. destruct (inline_sheets context o d ss) as [ss2 [dyn2 l2]] eqn:R2. injection E as <- <- <-. cbn [fst snd].
      assert (W1 : forall x, In x (sheet_ones s) -> tail (o_sel x) <> []) by (intros x J; apply W; unfold all_ones; cbn [flat_map]; apply in_or_app; left; exact J).
      assert (W2 : wellformed ss) by (intros x J; apply W; unfold all_ones; cbn [flat_map]; apply in_or_app; right; exact J).
      assert (MN : media s = None) by (apply U; left; reflexivity). assert (U2 : unconditional ss) by (intros x J; apply U; right; exact J).
      destruct (IH _ _ _ W2 U2 eq_refl) as (D2 & K2 & X2). unfold inline_rules in R.
      destruct (collect_all context o d (rules s) (flat_map (dynamic_rule false) (rules s), [])) as [rs st2] eqn:C. injection R as <- <-.
      destruct (collect_all_split (rules s) (flat_map (dynamic_rule false) (rules s), []) rs st2 (first_pass s W1 MN) C) as (I1 & K1 & add & A1 & X1). cbn [fst snd app] in I1, A1. rewrite A1.
      split; [|split].
      + intros s0 [<-|J]; [apply incl_appl; exact I1|apply incl_appr; exact (D2 s0 J)].
      + intros s0 r [<-|J] Jr.
        * specialize (K1 r Jr). destruct r; [exact Logic.I|]. intros x Y. unfold all_ones. cbn [flat_map]. apply in_or_app. left. unfold sheet_ones. cbn [media rules]. rewrite MN. exact (K1 x Y).
        * specialize (K2 s0 r J Jr). destruct r; [exact Logic.I|]. intros x Y. unfold all_ones. cbn [flat_map]. apply in_or_app. right. exact (K2 x Y).
      + intros on f p i P. unfold declared, all_ones. cbn [flat_map]. rewrite mine_app, !flat_map_app. apply interleave_app; [|exact (X2 on f p i P)].
        unfold sheet_ones. cbn [media rules]. rewrite MN. exact (X1 on f p i P).
  Qed.
End Sheets.

(** ** Elements *)
Lemma drop_same : forall dyn ref l e, el_name (fold_left (drop_token dyn ref) l e) = el_name e /\ attrs (fold_left (drop_token dyn ref) l e) = attrs e /\
  style (fold_left (drop_token dyn ref) l e) = style e /\ (id (fold_left (drop_token dyn ref) l e) = id e \/ id (fold_left (drop_token dyn ref) l e) = None) /\
  incl (classes (fold_left (drop_token dyn ref) l e)) (classes e) /\
  (forall c, has dyn (TClass c) = true -> In c (classes e) -> In c (classes (fold_left (drop_token dyn ref) l e))) /\
  (forall i, has dyn (TId i) = true -> id e = Some i -> id (fold_left (drop_token dyn ref) l e) = Some i \/ exists j, In (TId j) l /\ has dyn (TId j) = false).
Proof.
  intros dyn ref l. induction l as [|t l IH]; intros e; cbn [fold_left]; [repeat split; auto; apply incl_refl|]. destruct (IH (drop_token dyn ref e t)) as (A & B & C & D & E & F & G).
  rewrite A, B, C. clear A B C IH. unfold drop_token in *. destruct (has dyn t) eqn:H.
  { repeat split; try assumption. intros i Hi Ei. destruct (G i Hi Ei) as [X|(j & J & K)]; [left; exact X|right; exists j; split; [right; exact J|exact K]]. }
  assert (LIFT : forall j, In (TId j) l -> In (TId j) (t :: l)) by (intros j J; right; exact J).
  destruct t as [c|n|p v|n|c|n|m]; try (repeat split; try assumption; intros i Hi Ei; destruct (G i Hi Ei) as [X|(j & J & K)]; [left; exact X|right; exists j; split; [right; exact J|exact K]]; fail).
  - cbn [el_name attrs style id classes] in *. repeat split; try assumption.
    + intros x J. apply E in J. apply filter_In in J. apply J.
    + intros x Hx J. apply F; [exact Hx|]. apply filter_In. split; [exact J|]. apply negb_true_iff. apply Nat.eqb_neq. intros ->. congruence.
    + intros i Hi Ei. destruct (G i Hi Ei) as [X|(j & J & K)]; [left; exact X|right; exists j; split; [right; exact J|exact K]].
  - destruct (existsb (Nat.eqb n) ref).
    + repeat split; try assumption. intros i Hi Ei. destruct (G i Hi Ei) as [X|(j & J & K)]; [left; exact X|right; exists j; split; [right; exact J|exact K]].
    + cbn [el_name attrs style id classes] in *. repeat split; try assumption.
      * right. destruct D as [D|D]; exact D.
      * intros i Hi Ei. right. exists n. split; [left; reflexivity|exact H].
Qed.
Lemma find_filter : forall g p (l : list (prop * value)), find_prop p (filter (fun a => g (fst a)) l) = if g p then find_prop p l else None.
Proof.
  intros g p l. induction l as [|[q v] l IH]; [destruct (g p); reflexivity|]. cbn [filter fst find_prop]. destruct (g q) eqn:G.
  - cbn [find_prop]. rewrite IH. destruct (Nat.eqb q p) eqn:E; [|reflexivity]. apply Nat.eqb_eq in E. subst q. rewrite G. reflexivity.
  - rewrite IH. destruct (Nat.eqb q p) eqn:E; [|reflexivity]. apply Nat.eqb_eq in E. subst q. rewrite G. reflexivity.
Qed.
Lemma values_mentioned : forall p (l : list (prop * value)), existsb (fun x => Nat.eqb (fst x) p) l = true -> values p l <> [].
Proof.
  intros p l. induction l as [|[q v] l IH]; [discriminate|]. cbn [existsb fst]. unfold values. cbn [filter fst]. destruct (Nat.eqb q p); [discriminate|exact IH].
Qed.
Lemma last_of_some : forall A (l : list A), l <> [] -> last_of l <> None.
Proof. intros A l N E. unfold last_of in E. destruct (rev l) eqn:R; [|discriminate]. apply N. apply (f_equal (@rev A)) in R. rewrite rev_involutive in R. exact R. Qed.
Definition kind (f : block -> list (prop * value)) : Prop := f = b_important \/ f = b_normal.
Lemma finish_spec : forall dyn ref g e, let e' := finish dyn ref g e in
  el_name e' = el_name e /\ (id e' = id e \/ id e' = None) /\ incl (classes e') (classes e) /\
  (forall f p, kind f -> of_style f e' p = match of_style f e p with Some v => Some v | None => best (flat_map (pairs f p) g) end) /\
  (forall p, find_prop p (attrs e') = find_prop p (attrs e) \/ (of_style b_important e' p <> None \/ of_style b_normal e' p <> None)) /\
  (forall c, has dyn (TClass c) = true -> In c (classes e) -> In c (classes e')) /\
  (forall p v, has dyn (TAttr p v) = true -> find_prop p (attrs e') = find_prop p (attrs e)) /\
  (forall i, has dyn (TId i) = true -> (forall x t, In x g -> In t (i_tokens x) -> holds e t = true) -> id e = Some i -> id e' = Some i).
Proof.
  intros dyn ref g e. unfold finish. destruct g as [|x g].
  { cbv zeta. split; [reflexivity|]. split; [left; reflexivity|]. split; [apply incl_refl|]. split; [intros f p _; destruct (of_style f e p); reflexivity|]. split; [left; reflexivity|]. repeat split; auto. }
  generalize (x :: g). clear x g. intros g. cbv zeta.
  set (b := merged (sort g) (style e)). match goal with |- context [fold_left _ _ ?q] => set (e1 := q) end.
  destruct (drop_same dyn ref (flat_map i_tokens (sort g)) e1) as (A & B & C & D & E & F & G). set (e2 := fold_left _ _ _) in *.
  assert (ST : forall f p, kind f -> of_style f e1 p = last_of (values p (f b))).
  { intros f p K. unfold of_style, e1. cbn [style]. destruct b as [[|a la] [|c lc]]; try reflexivity. destruct K as [-> | ->]; reflexivity. }
  assert (OS : forall f p, of_style f e2 p = of_style f e1 p) by (intros f p; unfold of_style; rewrite C; reflexivity).
  split; [exact A|]. split; [exact D|]. split; [exact E|]. split; [|split; [|split; [exact F|split]]].
  - intros f p K. rewrite OS, ST by exact K. rewrite <- sort_best. unfold vals. rewrite <- values_flat_map.
    assert (X : f b = flat_map (fun x => f (i_block x)) (sort g) ++ match style e with Some b => f b | None => [] end).
    { destruct K as [-> | ->]; unfold b, merged; cbn [b_important b_normal]; destruct (style e); reflexivity. }
    rewrite X, values_app, last_of_app. unfold of_style. destruct (style e) as [old|]; [destruct (last_of (values p (f old)))|]; reflexivity.
  - intros p. rewrite B. unfold e1, drop_attrs. cbn [attrs]. rewrite (find_filter (fun a => existsb (fun t => match t with TAttr q _ => Nat.eqb q a | _ => false end) dyn || negb (existsb (fun x => Nat.eqb (fst x) a) (b_important b ++ b_normal b)))).
    destruct (existsb (fun x => Nat.eqb (fst x) p) (b_important b ++ b_normal b)) eqn:M; [|left; rewrite orb_true_r; reflexivity]. right. rewrite !OS, !ST by (unfold kind; auto).
    rewrite existsb_app in M. apply orb_prop in M. destruct M as [M|M]; [left|right]; apply last_of_some; apply values_mentioned; exact M.
  - intros p v H. rewrite B. unfold e1, drop_attrs. cbn [attrs]. rewrite (find_filter (fun a => existsb (fun t => match t with TAttr q _ => Nat.eqb q a | _ => false end) dyn || negb (existsb (fun x => Nat.eqb (fst x) a) (b_important b ++ b_normal b)))).
    assert (X : existsb (fun t => match t with TAttr q _ => Nat.eqb q p | _ => false end) dyn = true) by (apply existsb_exists; exists (TAttr p v); split; [apply has_in; exact H|apply Nat.eqb_refl]). rewrite X. reflexivity.
  - intros i Hi HT Ei. destruct (G i Hi Ei) as [X|(j & J & K)]; [exact X|]. apply in_flat_map in J. destruct J as (x & Jx & Jt). apply (proj1 (sort_in g x)) in Jx. specialize (HT x (TId j) Jx Jt). cbn [holds] in HT. rewrite Ei in HT.
    apply Nat.eqb_eq in HT. subst j. congruence.
Qed.
Lemma finish_all_nth : forall dyn ref l d k i, nth_error (finish_all dyn ref l k d) i = option_map (finish dyn ref (mine (k + i) l)) (nth_error d i).
Proof.
  intros dyn ref l d. induction d as [|e d IH]; intros k i; [destruct i; reflexivity|]. destruct i as [|i]; cbn [finish_all nth_error option_map].
  - rewrite Nat.add_0_r. reflexivity.
  - rewrite IH. replace (S k + i) with (k + S i) by lia. reflexivity.
Qed.

(** ** The tokens of what is taken out hold for the element *)
Section Held.
  Variable context : list (list token) -> nat -> (nat -> token -> bool) -> nat -> bool.
  Variable o : options.
  Variable d : list element.
  Definition held (x : inlined) : Prop := forall t, In t (i_tokens x) -> token_holds d (i_element x) t = true.
  Lemma retain_held : forall b sels st l st', Forall held (snd st) -> retain context o d b sels st = (l, st') -> Forall held (snd st').
  Proof.
    intros b sels. induction sels as [|s sels IH]; intros st l st' F E; cbn [retain] in E; [injection E as <- <-; exact F|].
    destruct (existsb (has (fst st)) (tail s)); [|destruct (removable o d s (select context d s))].
    - destruct (retain context o d b sels _) as [l2 st2] eqn:R. injection E as <- <-. eapply IH; [|exact R]. exact F.
    - eapply IH; [|exact E]. cbn [snd]. apply Forall_app. split; [exact F|]. apply Forall_forall. intros x J. apply in_map_iff in J. destruct J as (j & <- & J). unfold select in J. apply filter_In in J. destruct J as (_ & M).
      unfold matches in M. apply andb_prop in M. destruct M as (M & _). rewrite forallb_forall in M. exact M.
    - destruct (retain context o d b sels st) as [l2 st2] eqn:R. injection E as <- <-. eapply IH; [|exact R]. exact F.
  Qed.
  Lemma collect_held : forall r st r' st', Forall held (snd st) -> collect context o d r st = (r', st') -> Forall held (snd st').
  Proof.
    intros r. induction r as [sels b|q rs IH] using srule_ind'; intros st r' st' F E.
    - cbn [collect] in E. destruct (retain context o d b sels st) as [l st1] eqn:R. injection E as <- <-. exact (retain_held b sels st l st1 F R).
    - rewrite collect_media in E. destruct (go_collect context o d rs st) as [l st1] eqn:R. injection E as <- <-. revert st l st1 F R.
      induction IH as [|r rs H _ IHr]; intros st l st1 F R; cbn [go_collect] in R; [injection R as <- <-; exact F|]. destruct (collect context o d r st) as [r2 st2] eqn:R2.
      destruct (go_collect context o d rs st2) as [l3 st3] eqn:R3. injection R as <- <-. eapply IHr; [|exact R3]. eapply H; [exact F|exact R2].
  Qed.
  Lemma collect_all_held : forall rs st l st', Forall held (snd st) -> collect_all context o d rs st = (l, st') -> Forall held (snd st').
  Proof.
    intros rs. induction rs as [|r rs IH]; intros st l st' F E; cbn [collect_all] in E; [injection E as <- <-; exact F|]. destruct (collect context o d r st) as [r2 st2] eqn:R2.
    destruct (collect_all context o d rs st2) as [l3 st3] eqn:R3. injection E as <- <-. eapply IH; [|exact R3]. eapply collect_held; [exact F|exact R2].
  Qed.
  Lemma sheets_held : forall ss ss' dyn l, inline_sheets context o d ss = (ss', (dyn, l)) -> Forall held l.
  Proof.
    intros ss. induction ss as [|s ss IH]; intros ss' dyn l E; cbn [inline_sheets] in E; [injection E as <- <- <-; constructor|].
    destruct (inline_rules context o d s) as [s' st] eqn:R. destruct (inline_sheets context o d ss) as [ss2 [dyn2 l2]] eqn:R2. injection E as <- <- <-. cbn [snd]. apply Forall_app. split; [|exact (IH _ _ _ eq_refl)].
    unfold inline_rules in R. destruct (collect_all context o d (rules s) _) as [rs st2] eqn:C. injection R as <- <-. eapply collect_all_held; [|exact C]. constructor.
  Qed.
End Held.

(** ** The theorems *)
Section Main.
  Variable context : list (list token) -> nat -> (nat -> token -> bool) -> nat -> bool.
  Hypothesis context_by_tokens : by_tokens context.
  Variable pseudo : nat -> nat -> bool.
  Variable presentation : nat -> prop -> bool.
  Lemma selects_same : forall d d' s i, (forall t j, In t (tokens_of s) -> true_of pseudo d' j t = true_of pseudo d j t) -> selects context pseudo d' s i = selects context pseudo d s i.
  Proof.
    intros d d' s i H. unfold selects. f_equal; [apply forallb_ext_in; intros t J; apply H; apply in_or_app; left; exact J|].
    destruct (before s) as [|b l] eqn:B; [reflexivity|]. apply context_by_tokens. intros t j J. apply H. apply in_or_app. right. rewrite B. exact J.
  Qed.
  Lemma value_kept : forall o ref d ss d' ss', wellformed ss -> unconditional ss -> run context o ref d ss = (d', ss') -> untold d d' ss' ->
    forall on i p, (forall f, kind f -> declared context pseudo on f d ss' i p = declared context pseudo on f d ss i p \/ declared context pseudo on f d ss' i p = []) ->
    value_of context pseudo presentation on d' ss' i p = value_of context pseudo presentation on d ss i p.
  Proof.
    intros o ref d ss d' ss' W U R T on i p KM. unfold run in R. destruct (inline_sheets context o d ss) as [ss2 [dyn l]] eqn:E. injection R as <- <-.
    destruct (sheets_split context pseudo o d ss ss2 dyn l W U E) as (_ & _ & X). set (d' := finish_all dyn ref l 0 d) in *.
    assert (NTH : forall j, nth_error d' j = option_map (finish dyn ref (mine j l)) (nth_error d j)) by (intros j; exact (finish_all_nth dyn ref l d 0 j)).
    assert (TR : forall x t j, In x (all_ones ss2) -> In t (tokens_of (o_sel x)) -> true_of pseudo d' j t = true_of pseudo d j t).
    { intros x t j J Jt. unfold true_of. specialize (T x t j). rewrite NTH in *. destruct (nth_error d j) as [e|]; [|reflexivity]. cbn [option_map] in *. set (e' := finish dyn ref (mine j l) e) in *.
      specialize (T e e' J Jt eq_refl eq_refl). destruct (finish_spec dyn ref (mine j l) e) as (N & ID & _). fold e' in N, ID. destruct t as [c|n|q v|n|c|n|m]; cbn [about] in T.
      - destruct (in_dec Nat.eq_dec c (classes e)), (in_dec Nat.eq_dec c (classes e')); try reflexivity; exfalso; tauto.
      - destruct ID as [-> | ID]; [reflexivity|]. rewrite ID. destruct (id e) as [k|] eqn:IE; [|reflexivity]. destruct (Nat.eqb n k) eqn:Q; [|reflexivity]. apply Nat.eqb_eq in Q. subst k. exfalso. apply T. split; [reflexivity|exact ID].
      - assert (Y : find_prop q (attrs e') = find_prop q (attrs e)).
        { destruct (find_prop q (attrs e)) as [a|], (find_prop q (attrs e')) as [b|]; try reflexivity; try (exfalso; apply T; discriminate). destruct (Nat.eq_dec a b) as [->|Z]; [reflexivity|]. exfalso. apply T. congruence. }
        rewrite Y. reflexivity.
      - rewrite N. reflexivity.
      - destruct (in_dec Nat.eq_dec c (classes e)), (in_dec Nat.eq_dec c (classes e')); try reflexivity; exfalso; tauto.
      - reflexivity.
      - destruct (list_eq_dec Nat.eq_dec (classes e) (classes e')) as [Q|Q]; [rewrite Q; reflexivity|]. exfalso. exact (T Q). }
    assert (DC : forall f, declared context pseudo on f d' ss2 i p = declared context pseudo on f d ss2 i p).
    { intros f. unfold declared. assert (Z : forall L, (forall x, In x L -> In x (all_ones ss2)) -> flat_map (declares context pseudo on f d' i p) L = flat_map (declares context pseudo on f d i p) L).
      { intros L. induction L as [|x L IH]; intros S; [reflexivity|]. cbn [flat_map]. rewrite IH by (intros y J; apply S; right; exact J). f_equal. unfold declares.
        rewrite (selects_same d d' (o_sel x) i); [reflexivity|]. intros t j J. exact (TR x t j (S x (or_introl eq_refl)) J). }
      apply Z. auto. }
    unfold value_of. rewrite NTH. destruct (nth_error d i) as [e|] eqn:NE; [|reflexivity]. cbn [option_map].
    assert (P : i < length d) by (apply nth_error_Some; congruence). rewrite !DC.
    destruct (finish_spec dyn ref (mine i l) e) as (N & _ & _ & S & AT & _). set (e' := finish dyn ref (mine i l) e) in *. rewrite N.
    assert (LAYER : forall f, kind f -> match of_style f e' p with Some v => Some v | None => best (declared context pseudo on f d ss2 i p) end =
                                         match of_style f e p with Some v => Some v | None => best (declared context pseudo on f d ss i p) end).
    { intros f K. rewrite (S f p K). specialize (X on f p i P). destruct (of_style f e p) as [v|]; [reflexivity|]. destruct (KM f K) as [Q|Q].
      - rewrite Q in *. apply interleave_kept in X. rewrite X. reflexivity.
      - pose proof (interleave_moved_gen _ _ _ _ X Q) as Y. rewrite Q, Y. destruct (best (declared context pseudo on f d ss i p)); reflexivity. }
    pose proof (LAYER b_important (or_introl eq_refl)) as L1. pose proof (LAYER b_normal (or_intror eq_refl)) as L2. destruct (AT p) as [AE|AE].
    - rewrite AE. cbn [first_of].
      destruct (of_style b_important e' p), (of_style b_important e p), (best (declared context pseudo on b_important d ss2 i p)), (best (declared context pseudo on b_important d ss i p)); try congruence;
      destruct (of_style b_normal e' p), (of_style b_normal e p), (best (declared context pseudo on b_normal d ss2 i p)), (best (declared context pseudo on b_normal d ss i p)); congruence.
    - cbn [first_of]. destruct (of_style b_important e' p), (of_style b_important e p), (best (declared context pseudo on b_important d ss2 i p)), (best (declared context pseudo on b_important d ss i p)); try congruence;
      destruct (of_style b_normal e' p), (of_style b_normal e p), (best (declared context pseudo on b_normal d ss2 i p)), (best (declared context pseudo on b_normal d ss i p)); try congruence;
      exfalso; destruct AE as [AE|AE]; apply AE; reflexivity.
  Qed.
  Lemma rules_kept : forall o ref d ss d' ss', wellformed ss -> unconditional ss -> run context o ref d ss = (d', ss') ->
    forall s q rs x, In s ss -> In (SMedia q rs) (rules s) -> In x (ones [] (SMedia q rs)) ->
    In x (all_ones ss') /\ ((forall t, In t (tokens_of (o_sel x)) -> ordinary t) -> forall i, selects context pseudo d' (o_sel x) i = selects context pseudo d (o_sel x) i).
  Proof.
    intros o ref d ss d' ss' W U R s q rs x Js Jr Jx. unfold run in R. destruct (inline_sheets context o d ss) as [ss2 [dyn l]] eqn:E. injection R as <- <-.
    destruct (sheets_split context pseudo o d ss ss2 dyn l W U E) as (D & K & _). split; [exact (K s (SMedia q rs) Js Jr x Jx)|]. intros O i.
    apply selects_same. intros t j Jt.
    assert (H : has dyn t = true) by (apply has_in; apply (D s Js); apply in_flat_map; exists (SMedia q rs); split; [exact Jr|]; exact (dynamic_tokens (SMedia q rs) [] x t Jx Jt)).
    unfold true_of. rewrite (finish_all_nth dyn ref l d 0 j). cbn [Nat.add]. destruct (nth_error d j) as [e|] eqn:NE; [|reflexivity]. cbn [option_map].
    destruct (finish_spec dyn ref (mine j l) e) as (N & ID & IC & _ & _ & KC & KA & KI). set (e' := finish dyn ref (mine j l) e) in *. specialize (O t Jt). destruct t as [c|n|a v|n|c|n|m]; try contradiction.
    - destruct (in_dec Nat.eq_dec c (classes e)) as [Y|Y], (in_dec Nat.eq_dec c (classes e')) as [Z|Z]; try reflexivity; exfalso; [exact (Z (KC c H Y))|exact (Y (IC c Z))].
    - destruct (id e) as [k|] eqn:IE.
      + destruct (Nat.eqb n k) eqn:Q; [|destruct ID as [ID|ID]; rewrite ID; [exact Q|reflexivity]]. apply Nat.eqb_eq in Q. subst k. rewrite (KI n H); [apply Nat.eqb_refl| |reflexivity].
        intros y t Jy Jt'. unfold mine in Jy. apply filter_In in Jy. destruct Jy as (Jy & EQ). apply Nat.eqb_eq in EQ. pose proof (sheets_held context o d ss ss2 dyn l E) as HL. rewrite Forall_forall in HL.
        specialize (HL y Jy t Jt'). rewrite EQ in HL. unfold token_holds in HL. rewrite NE in HL. exact HL.
      + destruct ID as [ID|ID]; rewrite ID; reflexivity.
    - rewrite (KA a v H). reflexivity.
    - rewrite N. reflexivity.
    - reflexivity.
  Qed.
End Main.
Lemma child_by_tokens : by_tokens child.
Proof.
  intros b k f g i E. unfold child. f_equal. assert (H : forall l, incl l (concat b) -> forallb (f 0) l = forallb (g 0) l).
  { intros l. induction l as [|t l IH]; intros S; [reflexivity|]. cbn [forallb]. rewrite (E t 0 (S t (or_introl eq_refl))), IH; [reflexivity|]. intros x J. apply S. right. exact J. }
  apply H. apply incl_refl.
Qed.
