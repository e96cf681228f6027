From Coq Require Import String List NArith Bool Arith Lia.
From Verif Require Import Chars MergeModel MergeSpec.
Import ListNotations.

Lemma unsupported_ok s : unsupported s = negb (holds_cssb s).
Proof.
  unfold unsupported, holds_cssb. destruct (st_type s) as [t|]; [|reflexivity]. destruct t as [|c t]; [reflexivity|].
  reflexivity.
Qed.
Lemma wrap_ok s : wrap (st_media s) (collect s) = under_media (IStyle s).
Proof. unfold wrap, under_media. destruct (st_media s) as [[q|n]|]; reflexivity. Qed.
Definition host (s : style) (css : list rule) : item := IStyle (mkStyle (st_type s) (st_foreign s) None (st_rest s) [CRules css]).

Lemma extend_host s css more b a : extend_at (List.length b) more (b ++ host s css :: a) = Some (b ++ host s (css ++ more) :: a).
Proof. induction b as [|x b IH]; [reflexivity|]. cbn [List.length app extend_at]. destruct x; rewrite IH; reflexivity. Qed.

(** One element. *)
Lemma step_keep st x : merged x = false -> step st x = Some (mkState (x :: seen st) (option_map S (first_style st))).
Proof.
  destruct x as [s|n]; [|reflexivity]. unfold merged. intros H. cbn [step]. rewrite unsupported_ok.
  destruct (holds_cssb s); [|reflexivity]. cbn in *. destruct (st_foreign s); [reflexivity|discriminate].
Qed.
Lemma step_empty st x : merged x = true -> with_rules x = false -> step st x = Some st.
Proof.
  destruct x as [s|n]; [|discriminate]. unfold with_rules. intros M. rewrite M. cbn [andb]. unfold merged in M.
  apply andb_prop in M. destruct M as [M1 M2]. cbn [step]. rewrite unsupported_ok, M1. cbn [negb]. apply negb_true_iff in M2. rewrite M2.
  destruct (collect s); [reflexivity|discriminate].
Qed.
Lemma with_rules_parts s : with_rules (IStyle s) = true -> holds_cssb s = true /\ st_foreign s = false /\ collect s <> [].
Proof.
  unfold with_rules, merged. intros H. apply andb_prop in H. destruct H as [H1 H2]. apply andb_prop in H1. destruct H1 as [H0 H1].
  apply negb_true_iff in H1. split; [exact H0|]. split; [exact H1|]. intros E. rewrite E in H2. discriminate.
Qed.
Lemma step_first st s : with_rules (IStyle s) = true -> first_style st = None ->
  step st (IStyle s) = Some (mkState (host s (under_media (IStyle s)) :: seen st) (Some 0)).
Proof.
  intros W F. destruct (with_rules_parts s W) as (H0 & H1 & H2). cbn [step]. rewrite unsupported_ok, H0. cbn [negb]. rewrite H1, F.
  rewrite <- wrap_ok. destruct (collect s); [contradiction|unfold host; rewrite H1; reflexivity].
Qed.
Lemma step_more st s n : with_rules (IStyle s) = true -> first_style st = Some n ->
  step st (IStyle s) = option_map (fun l => mkState l (Some n)) (extend_at n (under_media (IStyle s)) (seen st)).
Proof.
  intros W F. destruct (with_rules_parts s W) as (H0 & H1 & H2). cbn [step]. rewrite unsupported_ok, H0. cbn [negb]. rewrite H1, F.
  rewrite <- wrap_ok. destruct (collect s); [contradiction|reflexivity].
Qed.

Definition rules_of (l : list item) : list rule := flat_map under_media (filter with_rules l).
Definition unmerged (l : list item) : list item := filter (fun x => negb (merged x)) l.

Lemma with_merged x : with_rules x = true -> merged x = true.
Proof. unfold with_rules. intros H. apply andb_prop in H. apply H. Qed.

Lemma walk_before l : existsb with_rules l = false -> forall acc rest,
  walk (mkState acc None) (l ++ rest) = walk (mkState (rev (unmerged l) ++ acc) None) rest.
Proof.
  induction l as [|x l IH]; intros H acc rest; [reflexivity|].
  cbn [existsb] in H. apply orb_false_iff in H. destruct H as [H1 H2]. cbn [app walk]. unfold unmerged. cbn [filter].
  destruct (merged x) eqn:M.
  - rewrite step_empty by assumption. cbn [negb]. exact (IH H2 acc rest).
  - rewrite step_keep by assumption. cbn [negb seen first_style option_map rev]. rewrite <- app_assoc. exact (IH H2 (x :: acc) rest).
Qed.
Lemma walk_after s l : forall b css a,
  walk (mkState (b ++ host s css :: a) (Some (List.length b))) l =
  Some (mkState (rev (unmerged l) ++ b ++ host s (css ++ rules_of l) :: a) (Some (List.length (unmerged l) + List.length b))).
Proof.
  induction l as [|x l IH]; intros b css a.
  - unfold rules_of, unmerged. cbn [filter flat_map rev List.length app walk]. rewrite app_nil_r. reflexivity.
  - cbn [walk]. unfold unmerged, rules_of. cbn [filter]. destruct (merged x) eqn:M; cbn [negb].
    + destruct (with_rules x) eqn:W.
      * destruct x as [s'|n]; [|discriminate]. rewrite (step_more _ s' (List.length b) W) by reflexivity.
        cbn [seen]. rewrite extend_host. cbn [option_map]. rewrite IH. cbn [flat_map]. rewrite <- (app_assoc css). reflexivity.
      * rewrite step_empty by assumption. apply IH.
    + assert (W : with_rules x = false). { destruct (with_rules x) eqn:W; [|reflexivity]. apply with_merged in W. congruence. }
      rewrite W, step_keep by assumption. cbn [seen first_style option_map].
      change (x :: b ++ host s css :: a) with ((x :: b) ++ host s css :: a). change (S (List.length b)) with (List.length (x :: b)). rewrite IH.
      cbn [List.length rev]. rewrite <- app_assoc. cbn [app]. unfold unmerged. do 3 f_equal. lia.
Qed.

Theorem merged_none l : existsb with_rules l = false -> merge_styles true l = Some (unmerged l).
Proof.
  intros H. unfold merge_styles. rewrite <- (app_nil_r l) at 1. rewrite (walk_before l H). cbn [walk option_map seen]. rewrite app_nil_r, rev_involutive. reflexivity.
Qed.
Lemma no_rules l : existsb with_rules l = false -> filter with_rules l = [].
Proof.
  induction l as [|x l IH]; [reflexivity|]. cbn [existsb filter]. intros H. apply orb_false_iff in H. destruct H as [-> H]. exact (IH H).
Qed.
Theorem merged_some a s b : existsb with_rules a = false -> with_rules (IStyle s) = true ->
  merge_styles true (a ++ IStyle s :: b) = Some (unmerged a ++ host s (rules_of (a ++ IStyle s :: b)) :: unmerged b).
Proof.
  intros Ha W. unfold merge_styles. rewrite (walk_before a Ha). rewrite app_nil_r. cbn [walk]. rewrite step_first by (assumption || reflexivity).
  cbn [seen]. pose proof (walk_after s b [] (under_media (IStyle s)) (rev (unmerged a))) as E. cbn [List.length app] in E. rewrite E. clear E.
  cbn [option_map seen]. f_equal. rewrite rev_app_distr. cbn [rev]. rewrite !rev_involutive, <- app_assoc. cbn [app]. f_equal. f_equal.
  unfold rules_of. rewrite filter_app, (no_rules a Ha). cbn [app filter]. rewrite W. reflexivity.
Qed.
Theorem merge_disabled l : merge_styles false l = Some l.
Proof. reflexivity. Qed.

Lemma split_first l : existsb with_rules l = true -> exists a s b, l = a ++ IStyle s :: b /\ existsb with_rules a = false /\ with_rules (IStyle s) = true.
Proof.
  induction l as [|x l IH]; [discriminate|]. cbn [existsb]. destruct (with_rules x) eqn:W.
  - intros _. destruct x as [s|n]; [|discriminate]. exists [], s, l. auto.
  - cbn [orb]. intros H. destruct (IH H) as (a & s & b & -> & Ha & Hs). exists (x :: a), s, b. split; [reflexivity|]. cbn [existsb]. rewrite W. auto.
Qed.

(** ** What is in force *)
Section Env.
  Variable matches : nat -> bool.
  Notation active := (active matches). Notation sheet := (sheet matches). Notation in_force := (in_force matches). Notation style_on := (style_on matches).

  Lemma active_media q rs : active (RMedia q rs) = if matches q then flat_map active rs else [].
  Proof. cbn [MergeSpec.active]. destruct (matches q); [|reflexivity]. induction rs as [|r rs IH]; [reflexivity|]. cbn [flat_map]. rewrite <- IH. reflexivity. Qed.
  Lemma sheet_no_import l : existsb is_import l = false -> sheet l = map inr (flat_map active l).
  Proof. destruct l as [|[n|n|q rs] l]; cbn [existsb is_import orb]; intros H; try discriminate; reflexivity. Qed.
  Lemma sheet_app l m : existsb is_import m = false -> sheet (l ++ m) = sheet l ++ map inr (flat_map active m).
  Proof.
    intros H. induction l as [|[n|n|q rs] l IH]; cbn [app].
    - apply sheet_no_import. exact H.
    - cbn [MergeSpec.sheet]. rewrite IH. reflexivity.
    - cbn [MergeSpec.sheet]. rewrite app_comm_cons, flat_map_app, map_app. reflexivity.
    - cbn [MergeSpec.sheet]. rewrite app_comm_cons, flat_map_app, map_app. reflexivity.
  Qed.
  Lemma in_force_app l m : in_force (l ++ m) = in_force l ++ in_force m.
  Proof. apply flat_map_app. Qed.

  Definition ok_item (x : item) : Prop := match x with IStyle s => holds_cssb s = true -> st_foreign s = false /\ (forall n, st_media s <> Some (MText n)) | IElse _ => True end.
  Lemma unmerged_silent l : Forall ok_item l -> in_force (unmerged l) = [].
  Proof.
    induction 1 as [|x l Hx _ IH]; [reflexivity|]. unfold unmerged. cbn [filter]. destruct (merged x) eqn:M; cbn [negb]; [exact IH|].
    change (in_force ([x] ++ unmerged l) = []). rewrite in_force_app, IH, app_nil_r. destruct x as [s|n]; [|reflexivity].
    unfold MergeSpec.in_force. cbn [flat_map]. rewrite app_nil_r.
    unfold merged in M. unfold MergeSpec.style_on. destruct (holds_cssb s) eqn:H; [|reflexivity]. destruct (Hx H) as [F _]. rewrite F in M. discriminate.
  Qed.
  Lemma no_rules_silent x : with_rules x = false -> ok_item x -> in_force [x] = [].
  Proof.
    intros W O. destruct x as [s|n]; [|reflexivity]. unfold MergeSpec.in_force. cbn [flat_map]. rewrite app_nil_r. unfold MergeSpec.style_on.
    destruct (holds_cssb s) eqn:H; [|reflexivity]. destruct (O H) as [F _]. unfold with_rules, merged in W. rewrite H, F in W. cbn in W.
    destruct (media_on matches (st_media s)); [|reflexivity]. destruct (collect s); [reflexivity|discriminate].
  Qed.
  (** A style without imports. *)
  Lemma under_media_active s : ok_item (IStyle s) -> with_rules (IStyle s) = true -> existsb is_import (collect s) = false ->
    in_force [IStyle s] = map inr (flat_map active (under_media (IStyle s))) /\ existsb is_import (under_media (IStyle s)) = false.
  Proof.
    intros O W I. destruct (with_rules_parts s W) as (H0 & _ & _). destruct (O H0) as [_ M]. unfold MergeSpec.in_force. cbn [flat_map]. rewrite app_nil_r.
    unfold MergeSpec.style_on. rewrite H0. unfold media_on, under_media. destruct (st_media s) as [[q|n]|].
    - cbn [flat_map]. rewrite active_media, app_nil_r. split; [|reflexivity]. destruct (matches q); [apply sheet_no_import; exact I|reflexivity].
    - exfalso. exact (M n eq_refl).
    - split; [apply sheet_no_import; exact I|exact I].
  Qed.
  Lemma later l : Forall ok_item l -> (forall s, In (IStyle s) l -> with_rules (IStyle s) = true -> existsb is_import (collect s) = false) ->
    in_force l = map inr (flat_map active (rules_of l)) /\ existsb is_import (rules_of l) = false.
  Proof.
    induction 1 as [|x l Hx _ IH]; intros H; [split; reflexivity|].
    destruct (IH (fun s Hs => H s (or_intror Hs))) as [E1 E2].
    change (in_force (x :: l)) with (in_force ([x] ++ l)). rewrite in_force_app. unfold rules_of. cbn [filter].
    destruct (with_rules x) eqn:W.
    - destruct x as [s|n]; [|discriminate]. destruct (under_media_active s Hx W (H s (or_introl eq_refl) W)) as [F1 F2].
      cbn [flat_map]. fold (rules_of l). rewrite F1, E1, flat_map_app, map_app, existsb_app, F2, E2. split; reflexivity.
    - rewrite (no_rules_silent x W Hx). fold (rules_of l). split; assumption.
  Qed.

  Theorem merge_in_force l : plain_styles l -> exists l', merge_styles true l = Some l' /\ in_force l' = in_force l.
  Proof.
    intros [P1 P2].
    assert (O : Forall ok_item l). { apply Forall_forall. intros [s|n] Hi; [|exact I]. cbn. intros H. exact (P1 s Hi H). }
    destruct (existsb with_rules l) eqn:E.
    - destruct (split_first l E) as (a & s & b & -> & Ha & Hs). rewrite (merged_some a s b Ha Hs). eexists. split; [reflexivity|].
      apply Forall_app in O. destruct O as [Oa Ob]. inversion Ob as [|? ? Os Ob']; subst.
      assert (Hb : forall s', In (IStyle s') b -> with_rules (IStyle s') = true -> existsb is_import (collect s') = false).
      { intros s' Hi W. destruct (existsb is_import (collect s')) eqn:Im; [|reflexivity]. apply in_split in Hi. destruct Hi as (b1 & b2 & ->).
        destruct (P2 (a ++ IStyle s :: b1) s' b2) as [N _]; [rewrite <- app_assoc; reflexivity|exact W|exact Im|].
        rewrite existsb_app in N. cbn [existsb] in N. rewrite Hs in N. rewrite orb_true_r in N. discriminate. }
      destruct (later b Ob' Hb) as [L1 L2].
      assert (Sa : in_force a = []).
      { clear -Oa Ha. induction a as [|x a IH]; [reflexivity|]. cbn [existsb] in Ha. apply orb_false_iff in Ha. destruct Ha as [Hx Ha].
        inversion Oa; subst. change (x :: a) with ([x] ++ a). rewrite in_force_app, no_rules_silent by assumption. apply IH; assumption. }
      rewrite !in_force_app, (unmerged_silent a Oa). change (host s (rules_of (a ++ IStyle s :: b)) :: unmerged b) with ([host s (rules_of (a ++ IStyle s :: b))] ++ unmerged b).
      rewrite in_force_app, (unmerged_silent b Ob'), app_nil_r. rewrite Sa. change (IStyle s :: b) with ([IStyle s] ++ b) at 2. rewrite in_force_app, L1. cbn [app].
      assert (R : rules_of (a ++ IStyle s :: b) = under_media (IStyle s) ++ rules_of b).
      { unfold rules_of. rewrite filter_app, (no_rules a Ha). cbn [app filter]. rewrite Hs. reflexivity. }
      destruct (with_rules_parts s Hs) as (H0 & _ & _).
      assert (Hh : in_force [host s (rules_of (a ++ IStyle s :: b))] = sheet (rules_of (a ++ IStyle s :: b))).
      { unfold MergeSpec.in_force. cbn [flat_map host]. rewrite app_nil_r. unfold MergeSpec.style_on, holds_cssb. cbn [st_type]. fold (holds_cssb s). rewrite H0.
        cbn [st_media media_on]. unfold collect. cbn [st_kids flat_map child_rules]. rewrite app_nil_r. reflexivity. }
      rewrite Hh, R, sheet_app by exact L2. f_equal.
      destruct (existsb is_import (collect s)) eqn:Im.
      + destruct (P2 a s b eq_refl Hs Im) as [_ M]. unfold under_media. rewrite M. unfold MergeSpec.in_force. cbn [flat_map]. rewrite app_nil_r.
        unfold MergeSpec.style_on. rewrite H0, M. reflexivity.
      + destruct (under_media_active s Os Hs Im) as [F1 F2]. rewrite F1. apply sheet_no_import. exact F2.
    - rewrite (merged_none l E). eexists. split; [reflexivity|]. rewrite (unmerged_silent l O). symmetry.
      clear -O E. induction l as [|x l IH]; [reflexivity|]. cbn [existsb] in E. apply orb_false_iff in E. destruct E as [Hx E].
      inversion O; subst. change (x :: l) with ([x] ++ l). rewrite in_force_app, no_rules_silent by assumption. apply IH; assumption.
  Qed.
End Env.
