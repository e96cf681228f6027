(** Proofs about reusePaths. *)
From Coq Require Import String List NArith Bool Arith Lia.
From Verif Require Import Chars ClockModel ClockProofs ReuseModel ReuseSpec.
Import ListNotations.

Section TreeInd.
  Variable P : tree -> Prop.
  Hypothesis H : forall k l, Forall P l -> P (Node k l).
  Fixpoint tree_ind' (t : tree) : P t :=
    match t with Node k l => H k l ((fix go (l : list tree) : Forall P l := match l with [] => Forall_nil P | t :: l => Forall_cons t (tree_ind' t) (go l) end) l) end.
End TreeInd.

Scheme draws_mut := Induction for draws Sort Prop with draws_all_mut := Induction for draws_all Sort Prop.
Combined Scheme draws_both from draws_mut, draws_all_mut.

(** An evaluation of the picture. *)
Fixpoint draw (n : nat) (d : doc) (e : env) (t : tree) : option (list drawn) :=
  match n with
  | O => None
  | S n =>
    let all := fix all (e : env) (l : list tree) : option (list drawn) :=
      match l with
      | [] => Some []
      | t :: l => match draw n d e t, all e l with Some o, Some o' => Some (o ++ o') | _, _ => None end
      end in
    match t with Node k l =>
      let a := snd (cells d k) in
      match fst (cells d k) with
      | Path => Some (match a_d a with Some s => [mkDrawn s (within e a)] | None => [] end)
      | Group | Svg => all (within e a) l
      | Defs | Other => Some []
      | Use =>
          match a_href a with
          | Some (c :: i) => if N.eqb c 35 then match lookup d i (shape d) with Some t => draw n d (shifted (within e a) a) t | None => Some [] end else Some []
          | _ => Some []
          end
      end
    end
  end.
Lemma draw_sound : forall n d e t o, draw n d e t = Some o -> draws d e t o.
Proof.
  induction n as [|n IH]; intros d e [k l] o E; [discriminate|]. cbn [draw] in E. destruct (cells d k) as [g a] eqn:C. cbn [fst snd] in E.
  assert (A : forall e l o, (fix all (e : env) (l : list tree) : option (list drawn) :=
      match l with
      | [] => Some []
      | t :: l => match draw n d e t, all e l with Some o, Some o' => Some (o ++ o') | _, _ => None end
      end) e l = Some o -> draws_all d e l o).
  { clear E C o l e. intros e l. induction l as [|t l IHl]; intros o E; [injection E as <-; constructor|].
    destruct (draw n d e t) as [o1|] eqn:D; [|discriminate]. 
    destruct ((fix all (e : env) (l : list tree) : option (list drawn) :=
      match l with
      | [] => Some []
      | t :: l => match draw n d e t, all e l with Some o, Some o' => Some (o ++ o') | _, _ => None end
      end) e l) as [o2|] eqn:D2; [|discriminate]. injection E as <-. constructor; [apply IH; exact D|apply IHl; reflexivity]. }
  destruct g.
  - destruct (a_d a) as [s|] eqn:D; injection E as <-; [eapply draws_path; eassumption|eapply draws_nopath; eassumption].
  - destruct (a_href a) as [[|c i]|] eqn:Hh.
    + injection E as <-. eapply draws_unused; [exact C|]. intros j J. unfold url in J. congruence.
    + destruct (N.eqb_spec c 35) as [->|Nc].
      * destruct (lookup d i (shape d)) as [t|] eqn:L.
        -- eapply draws_use; [exact C|exact Hh|exact L|apply IH; exact E].
        -- injection E as <-. eapply draws_unused; [exact C|]. intros j J. unfold url in J. assert (j = i) by congruence. subst. exact L.
      * injection E as <-. eapply draws_unused; [exact C|]. intros j J. unfold url in J. congruence.
    + injection E as <-. eapply draws_unused; [exact C|]. intros j J. congruence.
  - injection E as <-. eapply draws_hidden. left. exact C.
  - eapply draws_group; [right; exact C|apply A; exact E].
  - eapply draws_group; [left; exact C|apply A; exact E].
  - injection E as <-. eapply draws_hidden. right. exact C.
Qed.

Ltac alts := repeat match goal with H : _ \/ _ |- _ => destruct H end.
Lemma draws_det : forall d,
  (forall e t o, draws d e t o -> forall o', draws d e t o' -> o = o') /\ (forall e l o, draws_all d e l o -> forall o', draws_all d e l o' -> o = o').
Proof.
  intros d. apply (draws_both d (fun e t o _ => forall o', draws d e t o' -> o = o') (fun e l o _ => forall o', draws_all d e l o' -> o = o')).
  - intros e k l a s C D o' W. inversion W; subst; alts; congruence.
  - intros e k l a C D o' W. inversion W; subst; alts; congruence.
  - intros e k l a o C W IH o' W'. inversion W'; subst; alts; try congruence; apply IH; match goal with H : draws_all _ (within _ ?b) _ _ |- _ => assert (b = a) by congruence end; subst; assumption.
  - intros e k l a C o' W. inversion W; subst; alts; congruence.
  - intros e k l a i t o C Hh L W IH o' W'. inversion W'; subst; alts; try congruence; assert (a0 = a) by congruence; subst a0.
    + assert (i0 = i) by (unfold url in *; congruence). subst. assert (t0 = t) by congruence. subst. apply IH. assumption.
    + match goal with H : forall i, _ -> lookup _ _ _ = None |- _ => rewrite (H i Hh) in L end. discriminate.
  - intros e k l a C N0 o' W. inversion W; subst; alts; try congruence.
    assert (a0 = a) by congruence. subst. match goal with H : a_href a = Some (url ?i), L : lookup _ _ _ = Some _ |- _ => rewrite (N0 i H) in L end. discriminate.
  - intros e o' W. inversion W. reflexivity.
  - intros e t l o o' W IH W' IH' o'' W''. inversion W''; subst. f_equal; [apply IH|apply IH']; assumption.
Qed.

(** Trees. *)
Lemma subs_self : forall t, In t (subs t).
Proof. intros [k l]. left. reflexivity. Qed.
Lemma subs_kid : forall t k l s, In (Node k l) (subs t) -> In s l -> In s (subs t).
Proof.
  intros t. induction t as [j m IH] using tree_ind'. intros k l s I0 I1. destruct I0 as [E|I0].
  - injection E as -> ->. right. apply in_flat_map. exists s. split; [exact I1|apply subs_self].
  - right. apply in_flat_map in I0. destruct I0 as (u & U1 & U2). apply in_flat_map. exists u. split; [exact U1|].
    rewrite Forall_forall in IH. exact (IH u U1 k l s U2 I1).
Qed.
Lemma mem_In : forall k l, mem k l = true <-> In k l.
Proof.
  intros k l. unfold mem. rewrite existsb_exists. split.
  - intros (x & I0 & E). apply Nat.eqb_eq in E. subst. exact I0.
  - intros I0. exists k. split; [exact I0|apply Nat.eqb_refl].
Qed.
Lemma keys_In : forall t k, In k (keys t) <-> exists l, In (Node k l) (subs t).
Proof.
  intros t k. unfold keys. rewrite in_map_iff. split.
  - intros ([j l] & E & I0). cbn in E. subst. exists l. exact I0.
  - intros (l & I0). exists (Node k l). split; [reflexivity|exact I0].
Qed.
Lemma keys_node : forall k l, keys (Node k l) = k :: flat_map keys l.
Proof. intros k l. unfold keys. cbn [subs map root]. f_equal. rewrite flat_map_concat_map, concat_map, map_map, <- flat_map_concat_map. reflexivity. Qed.
Lemma graft_root : forall k f b t, root (graft k f b t) = root t.
Proof. intros k f b [j l]. reflexivity. Qed.
Lemma graft_keys : forall k f b t x, In x (keys (graft k f b t)) <-> In x (keys t) \/ (In k (keys t) /\ In x (flat_map keys (f ++ b))).
Proof.
  intros k f b t. induction t as [j l IH] using tree_ind'. intros x. cbn [graft]. rewrite !keys_node. rewrite Forall_forall in IH.
  cbn [In]. rewrite !flat_map_app, !in_app_iff.
  assert (M : In x (flat_map keys (map (graft k f b) l)) <-> In x (flat_map keys l) \/ (In k (flat_map keys l) /\ (In x (flat_map keys f) \/ In x (flat_map keys b)))).
  { rewrite !in_flat_map. split.
    - intros (u & U1 & U2). apply in_map_iff in U1. destruct U1 as (s & <- & S1). apply (IH s S1) in U2. rewrite flat_map_app, in_app_iff in U2.
      destruct U2 as [U2|(U2 & U3)]; [left; exists s; split; assumption|right]. split; [exists s; split; assumption|]. rewrite !in_flat_map in U3. exact U3.
    - intros [(s & S1 & S2)|((s & S1 & S2) & U3)].
      + exists (graft k f b s). split; [apply in_map; exact S1|]. apply (IH s S1). left. exact S2.
      + exists (graft k f b s). split; [apply in_map; exact S1|]. apply (IH s S1). right. split; [exact S2|]. rewrite flat_map_app, in_app_iff, !in_flat_map. exact U3. }
  rewrite M. destruct (Nat.eqb_spec j k) as [->|Nk]; [tauto|]. cbn [flat_map In]. tauto.
Qed.
