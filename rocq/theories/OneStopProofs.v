(** Proofs about the conversion of gradients with one stop. *)
From Coq Require Import List Bool Arith Lia.
From Verif Require Import OneStopModel OneStopSpec.
Import ListNotations.

(** Functions that leave all but paints and declarations. *)
Definition harmless (f : element -> element) : Prop := forall e,
  uid (f e) = uid e /\ id (f e) = id e /\ gradient (f e) = gradient e /\ geometry (f e) = geometry e /\ xlink (f e) = xlink e /\ href (f e) = href e.
Definition apply_all (l : list (nat * color)) (e : element) : element := fold_left (fun e p => update (fst p) (snd p) e) l e.
Definition substitute_all (l : list (nat * color)) (p : paint) : paint := fold_left (fun x p => substitute (fst p) (snd p) x) l p.
Lemma apply_all_spec : forall l e,
  apply_all l e = mkElement (uid e) (id e) (gradient e) (geometry e) (xlink e) (href e) (map (substitute_all l) (attrs e)) (map (substitute_all l) (styles e)) (css e) (color_of e) (titled e) (declares e).
Proof.
  induction l as [|p l IH]; intros e.
  - destruct e; cbn. unfold substitute_all. cbn [fold_left]. rewrite !map_id. reflexivity.
  - unfold apply_all in *. cbn [fold_left]. rewrite IH. unfold update. cbn. rewrite !map_map. reflexivity.
Qed.
Lemma apply_all_harmless : forall l, harmless (apply_all l).
Proof. intros l e. rewrite apply_all_spec. cbn. repeat split. Qed.
Lemma apply_all_app : forall a i c l, map (update i c) (map (apply_all a) l) = map (apply_all (a ++ [(i, c)])) l.
Proof. intros a i c l. rewrite map_map. apply map_ext. intros e. unfold apply_all. rewrite fold_left_app. reflexivity. Qed.

Lemma lookup_map : forall f i d, harmless f -> lookup i (map f d) = option_map f (lookup i d).
Proof.
  intros f i d H. unfold lookup. induction d as [|e d IH]; [reflexivity|]. cbn [map find]. destruct (H e) as [_ [-> _]].
  destruct (id e) as [j|]; [destruct (Nat.eqb i j); [reflexivity|]|]; exact IH.
Qed.
Lemma stops_harmless : forall f e, harmless f -> stops (f e) = stops e.
Proof. intros f e H. unfold stops. destruct (H e) as [_ [_ [-> _]]]. reflexivity. Qed.
Definition effective_stops (d : list element) (e : element) : option (list stop) := option_map stops (effective d e).
Lemma effective_map : forall f d e, harmless f -> effective_stops (map f d) e = effective_stops d e.
Proof.
  intros f d e H. unfold effective_stops, effective. destruct (stops e); [|reflexivity].
  destruct (match xlink e with Some r => Some r | None => href e end) as [[i|]|]; try reflexivity. rewrite lookup_map by exact H.
  destruct (lookup i d) as [x|]; [|reflexivity]. cbn. f_equal. apply stops_harmless, H.
Qed.

(** Which gradients are removed, and what is replaced. *)
Definition removed (d : list element) (e : element) : bool :=
  match gradient e with
  | None => false
  | Some _ => match effective_stops d e with None => true | Some [_] => true | Some _ => false end
  end.
Definition replaced (d : list element) (e : element) : list (nat * color) :=
  match gradient e with
  | None => []
  | Some _ => match effective_stops d e with
              | Some [x] => match id e, get_color x with Some i, Some c => [(i, c)] | _, _ => [] end
              | _ => []
              end
  end.
Definition linked (e : element) : bool := match xlink e with Some _ => true | None => false end.
Lemma visit_spec : forall s e d a, doc s = map (apply_all a) d ->
  visit s e = mkState (map (apply_all (a ++ replaced d e)) d) (detach s ++ (if removed d e then [e] else [])) (count s + (if linked e then 1 else 0)).
Proof.
  intros s e d a E. unfold visit, removed, replaced, linked.
  assert (N : match xlink e with Some _ => S (count s) | None => count s end = count s + (if match xlink e with Some _ => true | None => false end then 1 else 0)) by (destruct (xlink e); lia).
  rewrite N. clear N. destruct (gradient e); [|rewrite !app_nil_r, E; reflexivity].
  pose proof (effective_map (apply_all a) d e (apply_all_harmless a)) as X. rewrite <- E in X. unfold effective_stops in X at 1.
  destruct (effective (doc s) e) as [n|]; cbn [option_map] in X; rewrite <- X; [|rewrite app_nil_r, E; reflexivity].
  destruct (stops n) as [|x [|y r]]; try (rewrite !app_nil_r, E; reflexivity).
  destruct (id e) as [i|]; [destruct (get_color x) as [c|]|]; try (rewrite app_nil_r, E; reflexivity). rewrite E, apply_all_app. reflexivity.
Qed.
Lemma visits_app : forall a b s, visits (a ++ b) s = match visits a s with Some s => visits b s | None => None end.
Proof. induction a as [|[e|n] a IH]; intros b s; cbn [app visits]; [reflexivity|apply IH|]. destruct (leave s n); [apply IH|reflexivity]. Qed.
Lemma visits_spec : forall d l s a, doc s = map (apply_all a) d ->
  visits (map Elem l) s = Some (mkState (map (apply_all (a ++ flat_map (replaced d) l)) d) (detach s ++ filter (removed d) l) (count s + length (filter linked l))).
Proof.
  intros d. induction l as [|e l IH]; intros s a E; cbn [map visits flat_map filter].
  - rewrite !app_nil_r, Nat.add_0_r, <- E. destruct s; reflexivity.
  - rewrite (IH _ (a ++ replaced d e)) by (rewrite (visit_spec s e d a E); reflexivity). rewrite (visit_spec s e d a E). cbn [doc detach count]. f_equal. f_equal.
    + rewrite <- app_assoc. reflexivity.
    + rewrite <- app_assoc. destruct (removed d e); reflexivity.
    + destruct (linked e); cbn [length]; lia.
Qed.
Lemma decrement_spec : forall l n, length (filter linked l) <= n -> decrement l n = Some (n - length (filter linked l)).
Proof.
  induction l as [|e l IH]; intros n H; cbn [decrement filter] in *; [f_equal; cbn; lia|]. unfold linked in *. destruct (xlink e); cbn [length] in *.
  - destruct n as [|n]; [lia|]. rewrite IH by lia. f_equal.
  - apply IH, H.
Qed.
Lemma filter_filter_le : forall (p q : element -> bool) l, length (filter p (filter q l)) <= length (filter p l).
Proof. intros p q. induction l as [|e l IH]; cbn [filter]; [lia|]. destruct (q e); cbn [filter]; destruct (p e); cbn [length]; lia. Qed.
Lemma filter_of_map : forall (f : element -> element) p l, filter p (map f l) = map f (filter (fun e => p (f e)) l).
Proof. intros f p. induction l as [|e l IH]; cbn [map filter]; [reflexivity|]. destruct (p (f e)); cbn [map]; rewrite IH; reflexivity. Qed.

Lemma elements_map : forall l r, elements (map Elem l ++ [End r]) = l.
Proof. intros l r. unfold elements. induction l as [|e l IH]; cbn [map app flat_map]; [reflexivity|]. f_equal. exact IH. Qed.
Lemma uid_inj : forall d e f, NoDup (map uid d) -> In e d -> In f d -> uid e = uid f -> e = f.
Proof.
  induction d as [|x d IH]; intros e f N He Hf E; [destruct He|]. cbn [map] in N. inversion N as [|? ? N1 N2]. subst.
  destruct He as [->|He], Hf as [->|Hf]; [reflexivity| | |apply IH; assumption].
  - destruct N1. rewrite E. apply in_map, Hf.
  - destruct N1. rewrite <- E. apply in_map, He.
Qed.
Lemma detached_spec : forall d q e, NoDup (map uid d) -> In e d -> detached (filter q d) e = q e.
Proof.
  intros d q e N H. apply eq_true_iff_eq. unfold detached. rewrite existsb_exists. split.
  - intros [g [Hg E]]. apply filter_In in Hg. destruct Hg as [Hg Q]. apply Nat.eqb_eq in E. rewrite (uid_inj d e g N H Hg (eq_sym E)). exact Q.
  - intros Q. exists e. split; [apply filter_In; split; assumption|apply Nat.eqb_refl].
Qed.
Definition left_over (d : list element) : nat := length (filter linked d) - length (filter linked (filter (removed d) d)).
Definition final (d : list element) (r : nat) (e : element) : element :=
  let x := apply_all (flat_map (replaced d) d) e in if Nat.eqb (left_over d) 0 then undeclare r x else x.
Lemma final_harmless : forall d r, harmless (final d r).
Proof.
  intros d r e. unfold final. pose proof (apply_all_harmless (flat_map (replaced d) d) e) as H. destruct (Nat.eqb (left_over d) 0); [|exact H].
  unfold undeclare. destruct (Nat.eqb r _); [|exact H]. cbn. exact H.
Qed.
Theorem run_spec : forall d r, NoDup (map uid d) -> run (map Elem d ++ [End r]) = Some (map (final d r) (filter (fun e => negb (removed d e)) d)).
Proof.
  intros d r N. unfold run. rewrite elements_map, visits_app.
  rewrite (visits_spec d d _ []) by (cbn [doc]; symmetry; unfold apply_all; cbn; apply map_id). cbn [app detach count Nat.add visits]. unfold leave. cbn [detach count doc].
  rewrite decrement_spec by apply filter_filter_le. cbn [option_map doc]. f_equal. rewrite filter_of_map.
  assert (F : forall l, incl l d -> filter (fun e => negb (detached (filter (removed d) d) (apply_all (flat_map (replaced d) d) e))) l = filter (fun e => negb (removed d e)) l).
  { intros l. induction l as [|e l IH]; intros I; [reflexivity|]. cbn [filter].
    assert (X : detached (filter (removed d) d) (apply_all (flat_map (replaced d) d) e) = removed d e).
    { rewrite <- (detached_spec d (removed d) e N) by (apply I; left; reflexivity). unfold detached. destruct (apply_all_harmless (flat_map (replaced d) d) e) as [-> _]. reflexivity. }
    rewrite X. rewrite IH by (intros y Hy; apply I; right; exact Hy). reflexivity. }
  rewrite F by apply incl_refl. unfold final, left_over. destruct (Nat.eqb _ 0); [rewrite map_map|]; reflexivity.
Qed.

(** * What is removed *)
Lemma lookup_in : forall i d e, lookup i d = Some e -> In e d /\ id e = Some i.
Proof.
  intros i d e H. apply find_some in H. destruct H as [H1 H2]. split; [exact H1|]. destruct (id e) as [j|]; [|discriminate]. apply Nat.eqb_eq in H2. subst. reflexivity.
Qed.
Lemma lookup_ids : forall i d e, (forall e f i, In e d -> In f d -> id e = Some i -> id f = Some i -> e = f) -> In e d -> id e = Some i -> lookup i d = Some e.
Proof.
  intros i d e U H E. destruct (lookup i d) as [x|] eqn:L.
  - destruct (lookup_in _ _ _ L) as [Hx Ex]. f_equal. apply (U x e i); assumption.
  - pose proof (find_none _ _ L e H) as X. cbn beta in X. rewrite E, Nat.eqb_refl in X. discriminate.
Qed.
Lemma one_level : forall d t, all_stops 1 d t = stops t.
Proof. intros d t. cbn [all_stops]. unfold stops. destruct (gradient t) as [[|x r]|]; [|reflexivity|reflexivity]. destruct (template d t); reflexivity. Qed.
Lemma effective_all : forall d e l, sound d -> In e d -> gradient e = Some l -> effective_stops d e = Some (all_stops 2 d e).
Proof.
  intros d e l S H G. unfold effective_stops, effective. change (all_stops 2 d e) with
    (match gradient e with None => [] | Some [] => match template d e with Some t => all_stops 1 d t | None => [] end | Some l => l end).
  unfold stops at 2. rewrite G. destruct l as [|x r]; [|cbn [option_map]; unfold stops; rewrite G; reflexivity].
  unfold template. pose proof (hrefs d S e) as Hh. pose proof (present d S e) as Hp.
  assert (SE : stops e = []) by (unfold stops; rewrite G; reflexivity).
  destruct (xlink e) as [b|] eqn:X.
  - assert (T : match href e with Some r => Some r | None => Some b end = Some b) by (destruct (href e) as [a|]; [rewrite (Hh a b H eq_refl eq_refl)|]; reflexivity).
    rewrite T. destruct b as [i|]; [|cbn; rewrite SE; reflexivity].
    destruct (lookup i d) as [t|] eqn:L; [cbn [option_map]; rewrite one_level; reflexivity|]. destruct (Hp (Local i) i H G (or_intror eq_refl) eq_refl L).
  - destruct (href e) as [[i|]|] eqn:Y; try (cbn; rewrite SE; reflexivity).
    destruct (lookup i d) as [t|] eqn:L; [cbn [option_map]; rewrite one_level; reflexivity|]. destruct (Hp (Local i) i H G (or_introl eq_refl) eq_refl L).
Qed.
Lemma removed_spec : forall d e, sound d -> In e d -> (removed d e = true <-> one_stop d e).
Proof.
  intros d e S H. unfold removed, one_stop. destruct (gradient e) as [l|] eqn:G.
  - rewrite (effective_all d e l S H G). destruct (all_stops 2 d e) as [|x [|y r]]; split; try discriminate; try (intros [s X]; discriminate); [intros _; exists x|]; reflexivity.
  - split; [discriminate|]. intros [s X]. cbn [all_stops] in X. rewrite G in X. discriminate.
Qed.
Lemma more_levels : forall d e x r n, 2 <= n -> all_stops 2 d e = x :: r -> all_stops n d e = x :: r.
Proof.
  intros d e x r n Hn H. destruct n as [|[|n]]; try lia.
  change (all_stops 2 d e) with (match gradient e with None => [] | Some [] => match template d e with Some t => all_stops 1 d t | None => [] end | Some l => l end) in H.
  change (all_stops (S (S n)) d e) with (match gradient e with None => [] | Some [] => match template d e with Some t => all_stops (S n) d t | None => [] end | Some l => l end).
  destruct (gradient e) as [[|y l]|]; [|exact H|exact H]. destruct (template d e) as [t|]; [|exact H]. cbn [all_stops] in *.
  destruct (gradient t) as [[|z l]|]; [|exact H|exact H]. destruct (template d t); discriminate.
Qed.

(** * The look *)
Section Look.
  Variables (d : list element) (r : nat).
  Hypothesis S : sound d.
  Notation h := (final d r).
  Notation kept := (filter (fun e => negb (removed d e)) d).
  Notation d' := (map h kept).
  Lemma lookup_kept : forall i e, lookup i d = Some e -> removed d e = false -> lookup i d' = Some (h e).
  Proof.
    intros i e L R. rewrite lookup_map by apply final_harmless. destruct (lookup_in _ _ _ L) as [H E].
    rewrite (lookup_ids i kept e); [reflexivity| | |exact E].
    - intros x y j Hx Hy. apply filter_In in Hx, Hy. apply (ids d S); [apply Hx|apply Hy].
    - apply filter_In. split; [exact H|]. rewrite R. reflexivity.
  Qed.
  Lemma lookup_none : forall i, lookup i d = None -> lookup i d' = None.
  Proof.
    intros i L. rewrite lookup_map by apply final_harmless. destruct (lookup i kept) as [e|] eqn:E; [|reflexivity].
    destruct (lookup_in _ _ _ E) as [H I]. apply filter_In in H. rewrite (lookup_ids i d e (ids d S) (proj1 H) I) in L. discriminate.
  Qed.
  Lemma template_kept : forall e, In e d -> gradient e <> None -> removed d e = false ->
    (template d e = None /\ template d' (h e) = None) \/ exists t, In t d /\ removed d t = false /\ template d e = Some t /\ template d' (h e) = Some (h t).
  Proof.
    intros e H G R. unfold template at 2 4. destruct (final_harmless d r e) as [_ [_ [_ [_ [-> ->]]]]].
    destruct (template d e) as [t|] eqn:T.
    - right. exists t. pose proof T as T'. unfold template in T'. destruct (match href e with Some r => Some r | None => xlink e end) as [[i|]|]; try discriminate.
      destruct (lookup_in _ _ _ T') as [Ht _]. split; [exact Ht|].
      assert (Rt : removed d t = false).
      { destruct (removed d t) eqn:Rt; [|reflexivity]. apply (removed_spec d t S Ht) in Rt. pose proof (templates d S e t H G T Rt) as X. apply (removed_spec d e S H) in X. congruence. }
      split; [exact Rt|]. split; [reflexivity|]. apply lookup_kept; assumption.
    - left. split; [reflexivity|]. unfold template in T. destruct (match href e with Some r => Some r | None => xlink e end) as [[i|]|]; try reflexivity. apply lookup_none, T.
  Qed.
  Lemma stops_kept : forall n e, In e d -> removed d e = false -> all_stops n d' (h e) = all_stops n d e.
  Proof.
    induction n as [|n IH]; intros e H R; [reflexivity|]. cbn [all_stops]. destruct (final_harmless d r e) as [_ [_ [-> _]]].
    destruct (gradient e) as [[|x l]|] eqn:G; try reflexivity.
    destruct (template_kept e H) as [[-> ->]|[t [Ht [Rt [-> ->]]]]]; [congruence|exact R|reflexivity|]. apply IH; assumption.
  Qed.
  Lemma geometry_kept : forall n e, In e d -> removed d e = false -> all_geometry n d' (h e) = all_geometry n d e.
  Proof.
    induction n as [|n IH]; intros e H R; [reflexivity|]. cbn [all_geometry]. destruct (final_harmless d r e) as [_ [_ [-> [-> _]]]].
    destruct (gradient e) as [l|] eqn:G; try reflexivity. destruct (geometry e); [reflexivity|].
    destruct (template_kept e H) as [[-> ->]|[t [Ht [Rt [-> ->]]]]]; [congruence|exact R|reflexivity|]. apply IH; assumption.
  Qed.
  Notation sigma := (flat_map (replaced d) d).
  Lemma sigma_in : forall i c, In (i, c) sigma <-> exists e s, In e d /\ id e = Some i /\ all_stops 2 d e = [s] /\ decl s = Fixed c.
  Proof.
    intros i c. rewrite in_flat_map. split.
    - intros [e [H X]]. unfold replaced in X. destruct (gradient e) as [l|] eqn:G; [|destruct X]. rewrite (effective_all d e l S H G) in X.
      destruct (all_stops 2 d e) as [|x [|y q]] eqn:A; try destruct X. destruct (id e) as [j|] eqn:I; [|destruct X]. unfold get_color in X. destruct (decl x) as [| |c'|] eqn:D; try contradiction. destruct X as [X|[]]. injection X as -> ->.
      exists e, x. repeat split; assumption.
    - intros [e [s [H [I [A D]]]]]. exists e. split; [exact H|]. unfold replaced. destruct (gradient e) as [l|] eqn:G.
      + rewrite (effective_all d e l S H G), A, I. unfold get_color. rewrite D. left. reflexivity.
      + cbn [all_stops] in A. rewrite G in A. discriminate.
  Qed.
  Lemma sub_miss : forall s i f, (forall c, ~ In (i, c) s) -> substitute_all s (Url i f) = Url i f.
  Proof.
    unfold substitute_all. induction s as [|[j c] s IH]; intros i f H; [reflexivity|]. cbn [fold_left fst snd]. unfold substitute at 2.
    destruct (Nat.eqb_spec j i) as [->|N]; [destruct (H c); left; reflexivity|]. apply IH. intros c' X. apply (H c'). right. exact X.
  Qed.
  Lemma sub_color : forall s c, substitute_all s (Color c) = Color c.
  Proof. unfold substitute_all. induction s as [|[j x] s IH]; intros c; [reflexivity|]. cbn [fold_left]. apply IH. Qed.
  Lemma sub_none : forall s, substitute_all s NoPaint = NoPaint.
  Proof. unfold substitute_all. induction s as [|[j x] s IH]; [reflexivity|]. cbn [fold_left]. apply IH. Qed.
  Lemma sub_hit : forall s i f c, In (i, c) s -> (forall c', In (i, c') s -> c' = c) -> substitute_all s (Url i f) = Color c.
  Proof.
    unfold substitute_all. induction s as [|[j x] s IH]; intros i f c H U; [destruct H|]. cbn [fold_left fst snd]. unfold substitute at 2.
    destruct (Nat.eqb_spec j i) as [->|N].
    - rewrite (U x) by (left; reflexivity). exact (sub_color s c).
    - apply IH; [destruct H as [[= E _]|H]; [congruence|exact H]|]. intros c' X. apply U. right. exact X.
  Qed.
  (** References to what stays. *)
  Lemma look_stays : forall n cur i f, (forall g, lookup i d = Some g -> removed d g = false) -> look n d' cur (Url i f) = look n d cur (Url i f).
  Proof.
    intros n cur i f R. cbn [look]. destruct (lookup i d) as [g|] eqn:L.
    - pose proof (R g eq_refl) as Rg. rewrite (lookup_kept i g L Rg). destruct (lookup_in _ _ _ L) as [H _]. destruct (final_harmless d r g) as [_ [_ [-> _]]].
      destruct (gradient g); [|reflexivity]. rewrite stops_kept, geometry_kept by assumption. reflexivity.
    - rewrite (lookup_none i L). reflexivity.
  Qed.
  Lemma look_updated : forall n cur p, 2 <= n -> look n d' cur (substitute_all sigma p) = look n d cur p.
  Proof.
    intros n cur p Hn. destruct p as [|c|i f]; [rewrite sub_none; reflexivity|rewrite sub_color; reflexivity|].
    destruct (lookup i d) as [g|] eqn:L.
    - destruct (lookup_in _ _ _ L) as [H I]. destruct (removed d g) eqn:R.
      + apply (removed_spec d g S H) in R. destruct R as [s A]. destruct (plain d S g s H A) as [O [m D]].
        assert (U : forall c', In (i, c') sigma -> c' = Rgb m).
        { intros c' X. apply sigma_in in X. destruct X as [e [s' [He [Ie [Ae De]]]]]. assert (e = g) by (apply (ids d S e g i); assumption). subst e. rewrite A in Ae. injection Ae as <-. congruence. }
        rewrite (sub_hit sigma i f (Rgb m)); [|apply sigma_in; exists g, s; repeat split; assumption|exact U].
        cbn [look]. rewrite L. destruct (gradient g) as [l|] eqn:G; [|cbn [all_stops] in A; rewrite G in A; discriminate].
        rewrite (more_levels d g s [] n Hn A). cbn [ramp resolve]. unfold used_color. rewrite D, O. reflexivity.
      + rewrite sub_miss.
        * apply look_stays. intros g' L'. rewrite L in L'. injection L' as <-. exact R.
        * intros c X. apply sigma_in in X. destruct X as [e [s [He [Ie [Ae _]]]]]. assert (e = g) by (apply (ids d S e g i); assumption). subst e.
          assert (removed d g = true) by (apply (removed_spec d g S H); exists s; exact Ae). congruence.
    - rewrite sub_miss.
      + apply look_stays. intros g L'. rewrite L in L'. discriminate.
      + intros c X. apply sigma_in in X. destruct X as [e [s [He [Ie _]]]]. rewrite (lookup_ids i d e (ids d S) He Ie) in L. discriminate.
  Qed.
  Lemma final_paints : forall e, attrs (h e) = map (substitute_all sigma) (attrs e) /\ styles (h e) = map (substitute_all sigma) (styles e) /\ css (h e) = css e /\ color_of (h e) = color_of e.
  Proof. intros e. unfold final. destruct (Nat.eqb (left_over d) 0); unfold undeclare; [destruct (Nat.eqb r _)|]; rewrite apply_all_spec; cbn; repeat split. Qed.
  Lemma looks_kept : forall n e, 2 <= n -> In e d -> looks n d' (h e) = looks n d e.
  Proof.
    intros n e Hn H. unfold looks, paints. destruct (final_paints e) as [-> [-> [-> ->]]]. rewrite !map_app, !map_map. f_equal; [|f_equal].
    - apply map_ext. intros p. apply look_updated, Hn.
    - apply map_ext. intros p. apply look_updated, Hn.
    - apply map_ext_in. intros p Hp. destruct p as [|c|i f]; try reflexivity. apply look_stays. intros g L. destruct (removed d g) eqn:R; [|reflexivity].
      destruct (lookup_in _ _ _ L) as [Hg _]. apply (removed_spec d g S Hg) in R. destruct (sheets d S e i f g H Hp L R).
  Qed.
End Look.

(** Every element that is not a gradient with one stop stays and looks the same. *)
Theorem look_kept : forall d r n, sound d -> 2 <= n -> exists d', run (map Elem d ++ [End r]) = Some d' /\
  (forall e, In e d -> ~ one_stop d e -> exists e', In e' d' /\ uid e' = uid e /\ looks n d' e' = looks n d e) /\
  (forall e', In e' d' -> exists e, In e d /\ ~ one_stop d e /\ uid e' = uid e).
Proof.
  intros d r n S Hn. exists (map (final d r) (filter (fun e => negb (removed d e)) d)). split; [apply run_spec, (uids d S)|]. split.
  - intros e H N. exists (final d r e). split; [|split; [apply final_harmless|apply looks_kept; assumption]].
    apply in_map. apply filter_In. split; [exact H|]. destruct (removed d e) eqn:R; [|reflexivity]. destruct N. apply (removed_spec d e S H), R.
  - intros e' H. apply in_map_iff in H. destruct H as [e [<- H]]. apply filter_In in H. destruct H as [H R]. exists e. split; [exact H|]. split; [|apply final_harmless].
    intros X. apply (removed_spec d e S H) in X. rewrite X in R. discriminate.
Qed.

(** The prefix [xlink] stays declared where an [xlink:href] is left. *)
Theorem declared : forall d r d' e x, NoDup (map uid d) -> run (map Elem d ++ [End r]) = Some d' -> In e d' -> xlink e <> None ->
  In x d' -> exists y, In y d /\ uid y = uid x /\ declares y = declares x.
Proof.
  intros d r d' e x N E He Hx H. rewrite (run_spec d r N) in E. injection E as <-. apply in_map_iff in H. destruct H as [y [<- Hy]]. apply in_map_iff in He. destruct He as [z [<- Hz]].
  exists y. apply filter_In in Hy. split; [apply Hy|]. destruct (final_harmless d r y) as [-> _]. split; [reflexivity|].
  unfold final. assert (L : left_over d <> 0).
  { unfold left_over. assert (length (filter linked (filter (removed d) d)) < length (filter linked d)); [|lia].
    destruct (final_harmless d r z) as [_ [_ [_ [_ [X _]]]]]. rewrite X in Hx. clear - Hx Hz. apply filter_In in Hz. destruct Hz as [Hz R]. apply negb_true_iff in R.
    revert Hz R. generalize (removed d). intros q. induction d as [|a l IH]; intros Hz R; [destruct Hz|]. cbn [filter]. destruct Hz as [->|Hz].
    - rewrite R. unfold linked at 2. destruct (xlink z); [|congruence]. cbn [length]. pose proof (filter_filter_le linked q l). lia.
    - specialize (IH Hz R). destruct (q a); cbn [filter]; destruct (linked a); cbn [length]; lia. }
  apply Nat.eqb_neq in L. rewrite L. rewrite apply_all_spec. reflexivity.
Qed.
