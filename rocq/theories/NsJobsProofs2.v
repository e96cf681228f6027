From Coq Require Import String List NArith Bool Arith Lia.
From Verif Require Import Chars NameModel NsModel NsSpec NsJobsModel NsJobsSpec.
Import ListNotations.

Lemma xname_eqb_iff a b : xname_eqb a b = true <-> a = b.
Proof.
  destruct a, b; cbn [xname_eqb]; try (split; [discriminate|intros E; discriminate E]); try (split; reflexivity).
  rewrite Nat.eqb_eq. split; [intros ->; reflexivity|intros E; injection E; auto].
Qed.
Lemma named_iff n a : named n a = true <-> exists v, a = XKnown n v.
Proof.
  destruct a as [l u|q v|m v]; cbn [named].
  - split; [discriminate|]. intros (w & E). discriminate E.
  - split; [discriminate|]. intros (w & E). discriminate E.
  - rewrite xname_eqb_iff. split; [intros ->; eauto|]. intros (w & E). injection E as -> _. reflexivity.
Qed.
Lemma values_cons n a l : values n (a :: l) = match a with XKnown m v => if xname_eqb n m then v :: values n l else values n l | _ => values n l end.
Proof. unfold values. cbn [flat_map]. destruct a as [x u|q v|m v]; try reflexivity. destruct (xname_eqb n m); reflexivity. Qed.
Lemma values_app n a b : values n (a ++ b) = values n a ++ values n b.
Proof. apply flat_map_app. Qed.
Lemma has_values n l : has n l = match values n l with [] => false | _ => true end.
Proof.
  induction l as [|a l IH]; [reflexivity|]. rewrite values_cons. unfold has in *. cbn [existsb]. rewrite IH.
  destruct a as [x u|q v|m v]; cbn [named orb]; try reflexivity. destruct (xname_eqb n m); reflexivity.
Qed.
Lemma get_values n l : get n l = match values n l with [] => None | v :: _ => Some v end.
Proof.
  induction l as [|a l IH]; [reflexivity|]. rewrite values_cons. unfold get in *. cbn [find].
  destruct a as [x u|q v|m v]; cbn [named]; try exact IH. destruct (xname_eqb n m); [reflexivity|exact IH].
Qed.
Lemma values_remove n m l : values n (remove_first m l) = if xname_eqb n m then tl (values n l) else values n l.
Proof.
  induction l as [|a l IH]; [destruct (xname_eqb n m); reflexivity|]. cbn [remove_first]. destruct (named m a) eqn:E.
  - apply named_iff in E. destruct E as (v & ->). rewrite values_cons. destruct (xname_eqb n m); reflexivity.
  - rewrite !values_cons, IH. destruct a as [x u|q v|k v]; try reflexivity. cbn [named] in E.
    destruct (xname_eqb n k) eqn:F; [|reflexivity]. destruct (xname_eqb n m) eqn:G; [|reflexivity]. apply xname_eqb_iff in F, G. subst n m.
    rewrite (proj2 (xname_eqb_iff k k) eq_refl) in E. discriminate E.
Qed.
Lemma filter_remove (keep : xattr -> bool) n l : (forall v, keep (XKnown n v) = false) -> filter keep (remove_first n l) = filter keep l.
Proof.
  intros H. induction l as [|a l IH]; [reflexivity|]. cbn [remove_first filter]. destruct (named n a) eqn:E.
  - apply named_iff in E. destruct E as (v & ->). rewrite H. reflexivity.
  - cbn [filter]. rewrite IH. reflexivity.
Qed.

(** ** The changes of one element *)
Definition keeps (keep : xattr -> bool) : Prop :=
  (forall n v, keep (XKnown n v) = negb (xlink_name n)) /\ (forall n, keep (XDecl n xlink_uri) = false).
Lemma values_drop n l : n <> XActuate -> n <> XArcrole -> n <> XRole -> n <> XType ->
  values n (filter (fun a => negb (dropped a)) l) = values n l.
Proof.
  intros N1 N2 N3 N4. induction l as [|a l IH]; [reflexivity|]. cbn [filter]. rewrite values_cons.
  assert (E : forall m, xname_eqb n m = true -> dropped (XKnown m []) = false).
  { intros m E. apply xname_eqb_iff in E. subst m. destruct n; cbn; congruence. }
  destruct a as [x u|q v|m v].
  - cbn [dropped negb]. rewrite values_cons. exact IH.
  - cbn [dropped negb]. rewrite values_cons. exact IH.
  - destruct (xname_eqb n m) eqn:F.
    + specialize (E m F). change (dropped (XKnown m v)) with (dropped (XKnown m [])). rewrite E. cbn [negb]. rewrite values_cons, F, IH. reflexivity.
    + destruct (dropped (XKnown m v)); cbn [negb]; [exact IH|]. rewrite values_cons, F. exact IH.
Qed.
Lemma filter_drop keep l : keeps keep -> filter keep (filter (fun a => negb (dropped a)) l) = filter keep l.
Proof.
  intros [K _]. induction l as [|a l IH]; [reflexivity|]. cbn [filter]. destruct (dropped a) eqn:E; cbn [negb filter]; rewrite IH; [|reflexivity].
  destruct a as [x u|q v|m v]; try discriminate E. rewrite K. destruct m; try discriminate E; reflexivity.
Qed.
Lemma show_spec keep l : keeps keep -> filter keep (handle_show l) = filter keep l ++ new_target l.
Proof.
  intros [K _]. unfold handle_show, new_target. rewrite has_values, get_values. destruct (values Target l) as [|t ts].
  - destruct (values XShow l) as [|v vs]; [rewrite app_nil_r; reflexivity|]. destruct (text_eqb v (lit "new")).
    + rewrite filter_remove; [|intros w; rewrite K; reflexivity]. unfold push. rewrite filter_app. cbn [filter]. rewrite K. reflexivity.
    + rewrite app_nil_r. reflexivity.
  - rewrite app_nil_r. apply filter_remove. intros w. rewrite K. reflexivity.
Qed.
Lemma show_values n l : n <> Target -> n <> XShow -> values n (handle_show l) = values n l.
Proof.
  intros N1 N2. assert (E1 : xname_eqb n XShow = false) by (destruct (xname_eqb n XShow) eqn:E; [apply xname_eqb_iff in E; congruence|reflexivity]).
  assert (E2 : xname_eqb n Target = false) by (destruct (xname_eqb n Target) eqn:E; [apply xname_eqb_iff in E; congruence|reflexivity]).
  unfold handle_show. rewrite has_values, get_values. destruct (values Target l).
  - destruct (values XShow l) as [|v vs]; [reflexivity|]. destruct (text_eqb v (lit "new")); [|reflexivity].
    rewrite values_remove, E1. unfold push. rewrite values_app. rewrite values_cons, E2. apply app_nil_r.
  - rewrite values_remove, E1. reflexivity.
Qed.
Lemma titles_same kids : existsb is_title kids = existsb titled kids.
Proof. reflexivity. Qed.
Lemma title_spec keep l kids : keeps keep -> filter keep (fst (handle_title l kids)) = filter keep l /\ snd (handle_title l kids) = new_title l kids.
Proof.
  intros [K _]. unfold handle_title, new_title. rewrite titles_same, get_values. destruct (existsb titled kids); [split; reflexivity|].
  destruct (values XTitle l) as [|v vs]; [split; reflexivity|]. cbn [fst snd]. split; [|reflexivity]. apply filter_remove. intros w. rewrite K. reflexivity.
Qed.
Lemma title_values n l kids : n <> XTitle -> values n (fst (handle_title l kids)) = values n l.
Proof.
  intros N. unfold handle_title. destruct (existsb is_title kids); [reflexivity|]. destruct (get XTitle l); [|reflexivity]. cbn [fst].
  rewrite values_remove. destruct (xname_eqb n XTitle) eqn:E; [apply xname_eqb_iff in E; congruence|reflexivity].
Qed.
Lemma href_spec keep il legacy l us : keeps keep ->
  filter keep (fst (handle_href il legacy l us)) = filter keep l ++ new_href il legacy l.
Proof.
  intros [K _]. unfold handle_href, new_href. rewrite has_values, get_values. destruct (values Href l) as [|h hs]; [|cbn [fst]; rewrite app_nil_r; reflexivity].
  rewrite (andb_comm (negb il)). destruct (legacy && negb il).
  - cbn [fst]. destruct (values XHref l); rewrite app_nil_r; reflexivity.
  - destruct (values XHref l) as [|v vs]; cbn [fst]; [rewrite app_nil_r; reflexivity|]. unfold push. rewrite filter_app, filter_remove; [|intros w; rewrite K; reflexivity].
    cbn [filter]. rewrite K. reflexivity.
Qed.

(** All the changes before the children. *)
Definition enter (il legacy : bool) (attrs : list xattr) (kids : list xtree) (us : list bool) : list xattr * list xtree * list bool :=
  let attrs := handle_show (filter (fun a => negb (dropped a)) attrs) in
  let '(attrs, title) := handle_title attrs kids in
  let '(attrs, us) := handle_href il legacy attrs us in (attrs, title, us).
Lemma enter_spec keep il legacy attrs kids us : keeps keep ->
  filter keep (fst (fst (enter il legacy attrs kids us))) = filter keep attrs ++ new_target attrs ++ new_href il legacy attrs /\
  snd (fst (enter il legacy attrs kids us)) = new_title attrs kids.
Proof.
  intros K. unfold enter. set (l0 := filter (fun a => negb (dropped a)) attrs). set (l1 := handle_show l0).
  destruct (title_spec keep l1 kids K) as [T1 T2]. pose proof (fun n H => title_values n l1 kids H) as T3.
  destruct (handle_title l1 kids) as [l2 title]. cbn [fst snd] in *.
  pose proof (href_spec keep il legacy l2 us K) as R. destruct (handle_href il legacy l2 us) as [l3 us']. cbn [fst snd] in *.
  assert (V : forall n, n <> XTitle -> n <> Target -> n <> XShow -> n <> XActuate -> n <> XArcrole -> n <> XRole -> n <> XType -> values n l2 = values n attrs).
  { intros n H1 H2 H3 H4 H5 H6 H7. rewrite (T3 n H1). unfold l1. rewrite show_values; [|assumption|assumption]. apply values_drop; assumption. }
  split.
  - rewrite R, T1. unfold l1. rewrite (show_spec keep l0 K). unfold l0 at 1. rewrite (filter_drop keep attrs K), <- app_assoc. do 2 f_equal.
    + unfold new_target, l0. rewrite !values_drop; try discriminate. reflexivity.
    + unfold new_href. rewrite !V; try discriminate. reflexivity.
  - rewrite T2. unfold new_title. destruct (existsb titled kids); [reflexivity|]. unfold l1. rewrite show_values; try discriminate.
    unfold l0. rewrite values_drop; try discriminate. reflexivity.
Qed.

(** ** Leaving an element *)
Lemma exit_keep keep il : keeps keep -> forall l s,
  il = true \/ (forall a, In a l -> keep a = true -> exists n v, a = XKnown n v) ->
  filter keep (fst (exit_attrs il l s)) = filter keep l.
Proof.
  intros [K1 K2]. induction l as [|a l IH]; intros s H; [reflexivity|].
  assert (H' : il = true \/ (forall a, In a l -> keep a = true -> exists n v, a = XKnown n v)).
  { destruct H as [H|H]; [left; exact H|right]. intros b Hb. apply H. right. exact Hb. }
  assert (U : (forall n v, a <> XKnown n v) ->
    filter keep (fst (let '(r, s') := exit_attrs il l (pop s) in (if negb il && negb (top (overridden s)) && negb (top (used s)) then r else a :: r, s'))) = filter keep (a :: l)).
  { intros N. specialize (IH (pop s) H'). destruct (exit_attrs il l (pop s)) as [r s']. cbn [fst filter] in *. destruct H as [->|H].
    - cbn [negb andb filter]. rewrite IH. reflexivity.
    - assert (F : keep a = false).
      { destruct (keep a) eqn:E; [|reflexivity]. destruct (H a (or_introl eq_refl) E) as (n & v & F). destruct (N _ _ F). }
      rewrite F. destruct (negb il && _ && _); cbn [filter]; rewrite ?F; exact IH. }
  cbn [exit_attrs]. destruct a as [x u|q v|m v].
  - destruct (text_eqb u xlink_uri) eqn:E.
    + apply text_eqb_spec in E. subst u. rewrite (IH s H'). cbn [filter]. rewrite K2. reflexivity.
    + apply U. discriminate.
  - apply U. discriminate.
  - specialize (IH s H'). destruct (exit_attrs il l s) as [r s']. cbn [fst filter] in *. rewrite IH. reflexivity.
Qed.
Lemma exit_incl il : forall l s, incl (fst (exit_attrs il l s)) l.
Proof.
  induction l as [|a l IH]; intros s x Hx; [destruct Hx|]. cbn [exit_attrs] in Hx.
  assert (U : In x (fst (let '(r, s') := exit_attrs il l (pop s) in (if negb il && negb (top (overridden s)) && negb (top (used s)) then r else a :: r, s'))) -> In x (a :: l)).
  { clear Hx. specialize (IH (pop s) x). destruct (exit_attrs il l (pop s)) as [r s']. cbn [fst] in *. destruct (negb il && _ && _); intros H.
    - right. apply IH, H.
    - destruct H as [->|H]; [left; reflexivity|right; apply IH, H]. }
  destruct a as [y u|q v|m v].
  - destruct (text_eqb u xlink_uri); [right; apply (IH s), Hx|apply U, Hx].
  - apply U, Hx.
  - clear U. specialize (IH s x). destruct (exit_attrs il l s) as [r s']. cbn [fst] in *. destruct Hx as [->|Hx]; [left; reflexivity|right; apply IH, Hx].
Qed.
Lemma exit_decl il n : forall l s, ~ In (XDecl n xlink_uri) (fst (exit_attrs il l s)).
Proof.
  induction l as [|a l IH]; intros s Hx; [destruct Hx|]. cbn [exit_attrs] in Hx.
  assert (U : In (XDecl n xlink_uri) (fst (let '(r, s') := exit_attrs il l (pop s) in (if negb il && negb (top (overridden s)) && negb (top (used s)) then r else a :: r, s'))) -> a = XDecl n xlink_uri).
  { clear Hx. specialize (IH (pop s)). destruct (exit_attrs il l (pop s)) as [r s']. cbn [fst] in *. destruct (negb il && _ && _); intros H.
    - destruct (IH H).
    - destruct H as [->|H]; [reflexivity|]. destruct (IH H). }
  destruct a as [y u|q v|m v].
  - destruct (text_eqb u xlink_uri) eqn:E; [exact (IH s Hx)|]. apply U in Hx. injection Hx as _ ->. rewrite text_eqb_refl in E. discriminate E.
  - apply U in Hx. discriminate Hx.
  - clear U. specialize (IH s). destruct (exit_attrs il l s) as [r s']. cbn [fst] in *. destruct Hx as [E|Hx]; [discriminate E|exact (IH Hx)].
Qed.

(** ** The tree *)
Definition xlink_kids (il : bool) : list xtree -> stacks -> list xtree * stacks :=
  fix go (l : list xtree) (s : stacks) : list xtree * stacks :=
    match l with
    | [] => ([], s)
    | x :: l => let '(y, s) := xlink il x s in let '(r, s) := go l s in (y :: r, s)
    end.
Lemma xlink_elem il name legacy attrs kids s : exists s1 s2,
  fst (xlink il (XE name legacy attrs kids) s) =
  XE name legacy (fst (exit_attrs il (fst (fst (enter il legacy attrs kids (used (fold_left open_attr attrs s))))) s2))
     (snd (fst (enter il legacy attrs kids (used (fold_left open_attr attrs s)))) ++ fst (xlink_kids il kids s1)).
Proof.
  cbn [xlink]. fold (xlink_kids il). unfold enter.
  destruct (handle_title _ kids) as [l2 title]. destruct (handle_href il legacy l2 _) as [l3 us].
  set (s1 := Stacks _ _ us). exists s1. destruct (xlink_kids il kids s1) as [ks s2]. exists s2. cbn [fst snd].
  destruct (exit_attrs il l3 s2) as [l4 s3]. reflexivity.
Qed.

Definition everywhere_kids (P : bool -> list xattr -> list xtree -> Prop) : list xtree -> Prop :=
  fix go l := match l with [] => True | x :: l => everywhere P x /\ go l end.
Definition changed_ok keep il (t : xtree) : Prop :=
  il = true \/ everywhere (fun _ attrs _ => forall a, In a attrs -> keep a = true -> exists n v, a = XKnown n v) t ->
  forall s, changed keep il t (fst (xlink il t s)).
Lemma handle_known_only il legacy attrs kids us keep : keeps keep ->
  (forall a, In a attrs -> keep a = true -> exists n v, a = XKnown n v) ->
  forall a, In a (fst (fst (enter il legacy attrs kids us))) -> keep a = true -> exists n v, a = XKnown n v.
Proof.
  intros K H a Ha Hk. assert (I0 : In a (filter keep (fst (fst (enter il legacy attrs kids us))))) by (apply filter_In; auto).
  rewrite (proj1 (enter_spec keep il legacy attrs kids us K)) in I0. apply in_app_or in I0. destruct I0 as [I0|I0].
  - apply filter_In in I0. apply H; [apply I0|exact Hk].
  - apply in_app_or in I0. destruct I0 as [I0|I0].
    + unfold new_target in I0. destruct (values Target attrs); [|destruct I0]. destruct (values XShow attrs) as [|v vs]; [destruct I0|].
      destruct (text_eqb v (lit "new")); [|destruct I0]. destruct I0 as [<-|[]]. eauto.
    + unfold new_href in I0. destruct (values Href attrs); [|destruct I0]. destruct (values XHref attrs) as [|v vs]; [destruct I0|].
      destruct (legacy && negb il); [destruct I0|]. destruct I0 as [<-|[]]. eauto.
Qed.
Lemma changed_spec keep il : keeps keep -> forall t, changed_ok keep il t.
Proof.
  intros K. fix IH 1. destruct t as [name legacy attrs kids|t]; intros H s; [|constructor].
  destruct (xlink_elem il name legacy attrs kids s) as (s1 & s2 & ->).
  rewrite (proj2 (enter_spec keep il legacy attrs kids _ K)). constructor.
  - rewrite (exit_keep keep il K); [apply (enter_spec keep il legacy attrs kids _ K)|].
    destruct H as [H|H]; [left; exact H|right]. apply handle_known_only; [exact K|]. cbn [everywhere] in H. apply H.
  - assert (H' : il = true \/ everywhere_kids (fun _ attrs _ => forall a, In a attrs -> keep a = true -> exists n v, a = XKnown n v) kids).
    { destruct H as [H|H]; [left; exact H|right]. cbn [everywhere] in H. exact (proj2 H). }
    clear H s s2. revert kids H' s1. fix IHk 1. destruct kids as [|x l]; intros H s1; [constructor|]. cbn [xlink_kids].
    assert (Hx : il = true \/ everywhere (fun _ attrs _ => forall a, In a attrs -> keep a = true -> exists n v, a = XKnown n v) x).
    { destruct H as [H|H]; [left; exact H|right]. exact (proj1 H). }
    pose proof (IH x Hx s1) as X. destruct (xlink il x s1) as [y s2]. cbn [fst] in X.
    assert (Hl : il = true \/ everywhere_kids (fun _ attrs _ => forall a, In a attrs -> keep a = true -> exists n v, a = XKnown n v) l).
    { destruct H as [H|H]; [left; exact H|right]. exact (proj2 H). }
    pose proof (IHk l Hl s2) as Y. fold (xlink_kids il). destruct (xlink_kids il l s2) as [r s3]. cbn [fst] in *. constructor; assumption.
Qed.
Lemma keeps_outside : keeps outside.
Proof. split; [reflexivity|]. intros n. reflexivity. Qed.
Lemma keeps_known : keeps known_outside.
Proof. split; reflexivity. Qed.
Lemma known_changed il t : changed known_outside il t (remove_xlink il t).
Proof.
  apply (changed_spec known_outside il keeps_known). right. revert t. fix IH 1. destruct t as [name legacy attrs kids|t]; [|exact Logic.I].
  split; [intros a _ E; destruct a as [x u|q v|m v]; [discriminate E|discriminate E|eauto]|].
  revert kids. fix IHk 1. destruct kids as [|x l]; [exact Logic.I|]. split; [apply IH|apply IHk].
Qed.
Lemma outside_changed il t : il = true \/ all_known_names t -> changed outside il t (remove_xlink il t).
Proof. intros H. apply (changed_spec outside il keeps_outside). exact H. Qed.

(** ** What is left *)
Lemma everywhere_title (P : bool -> list xattr -> list xtree -> Prop) attrs kids : P false [] [XT (hd [] (values XTitle attrs))] -> everywhere_kids P (new_title attrs kids).
Proof.
  intros H. unfold new_title. destruct (existsb titled kids); [exact Logic.I|]. destruct (values XTitle attrs) as [|v vs]; [exact Logic.I|].
  split; [|exact Logic.I]. split; [exact H|]. split; exact Logic.I.
Qed.
Lemma everywhere_app P a b : everywhere_kids P a -> everywhere_kids P b -> everywhere_kids P (a ++ b).
Proof. induction a as [|x a IH]; intros Ha Hb; [exact Hb|]. destruct Ha as [Hx Ha]. split; [exact Hx|apply IH; assumption]. Qed.
Lemma no_decl_left il : forall t s, no_declaration (fst (xlink il t s)).
Proof.
  fix IH 1. destruct t as [name legacy attrs kids|t]; intros s; [|exact Logic.I].
  destruct (xlink_elem il name legacy attrs kids s) as (s1 & s2 & ->). rewrite (proj2 (enter_spec _ il legacy attrs kids _ keeps_outside)).
  split; [intros n; apply exit_decl|]. apply everywhere_app.
  - apply everywhere_title. intros n [].
  - revert kids s1. fix IHk 1. destruct kids as [|x l]; intros s1; [exact Logic.I|]. cbn [xlink_kids].
    pose proof (IH x s1) as X. destruct (xlink il x s1) as [y s3]. cbn [fst] in X. pose proof (IHk l s3) as Y. fold (xlink_kids il).
    destruct (xlink_kids il l s3) as [r s4]. cbn [fst] in *. split; assumption.
Qed.

Lemma in_values n v l : In (XKnown n v) l -> In v (values n l).
Proof.
  induction l as [|a l IH]; intros H; [destruct H|]. rewrite values_cons. destruct H as [->|H].
  - rewrite (proj2 (xname_eqb_iff n n) eq_refl). left. reflexivity.
  - apply IH in H. destruct a as [x u|q w|m w]; try exact H. destruct (xname_eqb n m); [right; exact H|exact H].
Qed.
Lemma remove_incl n l : incl (remove_first n l) l.
Proof.
  induction l as [|a l IH]; intros x Hx; [destruct Hx|]. cbn [remove_first] in Hx. destruct (named n a); [right; exact Hx|].
  destruct Hx as [->|Hx]; [left; reflexivity|right; apply IH, Hx].
Qed.
Lemma enter_unknown il legacy attrs kids us a : (forall n v, a <> XKnown n v) -> In a (fst (fst (enter il legacy attrs kids us))) -> In a attrs.
Proof.
  intros N. unfold enter.
  assert (P : forall l n v, In a (push n v l) -> In a l).
  { intros l n v H. unfold push in H. apply in_app_or in H. destruct H as [H|[H|[]]]; [exact H|]. destruct (N n v (eq_sym H)). }
  assert (S0 : In a (handle_show (filter (fun a => negb (dropped a)) attrs)) -> In a attrs).
  { intros H. assert (G : In a (filter (fun a => negb (dropped a)) attrs)).
    { revert H. generalize (filter (fun a => negb (dropped a)) attrs). intros l H. unfold handle_show in H.
      destruct (has Target l); [apply (remove_incl _ _ _ H)|]. destruct (get XShow l) as [v|]; [|exact H]. destruct (text_eqb v (lit "new")); [|exact H].
      apply remove_incl in H. apply P in H. exact H. }
    apply filter_In in G. apply G. }
  revert S0. generalize (handle_show (filter (fun a => negb (dropped a)) attrs)). intros l S0.
  assert (T : In a (fst (handle_title l kids)) -> In a l).
  { unfold handle_title. destruct (existsb is_title kids); [auto|]. destruct (get XTitle l); [|auto]. cbn [fst]. apply remove_incl. }
  destruct (handle_title l kids) as [l2 title]. cbn [fst] in T. unfold handle_href.
  destruct (has Href l2); [cbn; auto|]. destruct (negb il && legacy); [cbn; auto|]. destruct (get XHref l2); [|cbn; auto]. cbn [fst].
  intros H. apply P in H. apply remove_incl in H. auto.
Qed.
Lemma enter_clean il legacy attrs kids us :
  length (values XShow attrs) <= 1 -> length (values XTitle attrs) <= 1 -> length (values XHref attrs) <= 1 ->
  (values Target attrs = [] -> values XShow attrs = [] \/ values XShow attrs = [lit "new"]) ->
  (existsb titled kids = true -> values XTitle attrs = []) ->
  (values Href attrs <> [] \/ (legacy = true /\ il = false) -> values XHref attrs = []) ->
  forall n, xlink_name n = true -> values n (fst (fst (enter il legacy attrs kids us))) = [].
Proof.
  intros L1 L2 L3 H1 H2 H3 n Hn. unfold enter. set (l0 := filter (fun a => negb (dropped a)) attrs). set (l1 := handle_show l0).
  pose proof (fun n H => title_values n l1 kids H) as T3.
  assert (T4 : values XTitle (fst (handle_title l1 kids)) = []).
  { assert (E : values XTitle l1 = values XTitle attrs) by (unfold l1, l0; rewrite show_values, values_drop; try discriminate; reflexivity).
    unfold handle_title. rewrite titles_same. destruct (existsb titled kids); [cbn [fst]; rewrite E; apply H2; reflexivity|].
    rewrite get_values, E. destruct (values XTitle attrs) as [|v vs] eqn:F; [cbn [fst]; exact E|]. cbn [fst]. rewrite values_remove, E. cbn in L2 |- *.
    destruct vs; [reflexivity|cbn in L2; lia]. }
  destruct (handle_title l1 kids) as [l2 title]. cbn [fst] in *.
  assert (V : forall m, m <> XTitle -> values m l2 = values m l1) by exact T3.
  assert (S1 : values XShow l1 = []).
  { unfold l1, handle_show. rewrite has_values, get_values. unfold l0. rewrite !values_drop; try discriminate.
    destruct (values Target attrs) as [|t ts].
    - destruct (H1 eq_refl) as [E|E]; rewrite E.
      + rewrite values_drop; try discriminate. exact E.
      + rewrite text_eqb_refl, values_remove. unfold push. rewrite values_app, values_drop; try discriminate. rewrite E. reflexivity.
    - rewrite values_remove, values_drop; try discriminate. cbn. destruct (values XShow attrs) as [|v vs]; [reflexivity|]. cbn in L1 |- *.
      destruct vs; [reflexivity|cbn in L1; lia]. }
  assert (D : forall m, m = XActuate \/ m = XArcrole \/ m = XRole \/ m = XType -> values m l1 = []).
  { intros m Hm. unfold l1. rewrite show_values; [|destruct Hm as [->|[->|[->| ->]]]; discriminate|destruct Hm as [->|[->|[->| ->]]]; discriminate].
    unfold l0. clear - Hm. induction attrs as [|a l IH]; [reflexivity|]. cbn [filter]. destruct (dropped a) eqn:E; cbn [negb]; [exact IH|].
    rewrite values_cons. destruct a as [x u|q v|k v]; try exact IH. destruct (xname_eqb m k) eqn:F; [|exact IH]. apply xname_eqb_iff in F. subst k.
    destruct Hm as [->|[->|[->| ->]]]; discriminate E. }
  assert (Eh : forall m, m = Href \/ m = XHref -> values m l2 = values m attrs).
  { intros m Hm. rewrite V by (destruct Hm as [->| ->]; discriminate). unfold l1. rewrite show_values by (destruct Hm as [->| ->]; discriminate).
    unfold l0. apply values_drop; destruct Hm as [->| ->]; discriminate. }
  assert (B : forall m, xlink_name m = true -> m <> XHref -> values m l2 = []).
  { intros m Hm N. destruct m; try discriminate Hm; try congruence; try (rewrite V by discriminate; auto; fail). }
  unfold handle_href. rewrite has_values, get_values, (Eh Href (or_introl eq_refl)), (Eh XHref (or_intror eq_refl)).
  destruct (values Href attrs) as [|h hs] eqn:Fh.
  - destruct (negb il && legacy) eqn:Fl.
    + cbn [fst]. apply andb_true_iff in Fl. destruct Fl as [Fl1 Fl2]. apply negb_true_iff in Fl1.
      destruct (xname_eqb n XHref) eqn:N.
      * apply xname_eqb_iff in N. subst n. rewrite (Eh XHref (or_intror eq_refl)). apply H3. right. auto.
      * apply B; [exact Hn|]. intros E. subst n. discriminate N.
    + destruct (values XHref attrs) as [|v vs] eqn:Fx; cbn [fst].
      * destruct (xname_eqb n XHref) eqn:N; [apply xname_eqb_iff in N; subst n; rewrite (Eh XHref (or_intror eq_refl)); exact Fx|].
        apply B; [exact Hn|]. intros E. subst n. discriminate N.
      * unfold push. rewrite values_app, values_remove, values_cons. replace (xname_eqb n Href) with false by (destruct n; try discriminate Hn; reflexivity).
        destruct (xname_eqb n XHref) eqn:N.
        -- apply xname_eqb_iff in N. subst n. rewrite (Eh XHref (or_intror eq_refl)), Fx. cbn in L3 |- *. destruct vs; [reflexivity|cbn in L3; lia].
        -- rewrite B; [reflexivity|exact Hn|]. intros E. subst n. discriminate N.
  - cbn [fst]. destruct (xname_eqb n XHref) eqn:N.
    + apply xname_eqb_iff in N. subst n. rewrite (Eh XHref (or_intror eq_refl)). apply H3. left. discriminate.
    + apply B; [exact Hn|]. intros E. subst n. discriminate N.
Qed.
Lemma clean_left il : forall t s, convertible il t -> no_xlink (fst (xlink il t s)).
Proof.
  fix IH 1. destruct t as [name legacy attrs kids|t]; intros s C; [|exact Logic.I].
  destruct (xlink_elem il name legacy attrs kids s) as (s1 & s2 & ->). rewrite (proj2 (enter_spec _ il legacy attrs kids _ keeps_outside)).
  destruct C as [(L1 & L2 & L3 & H1 & H2 & H3 & H4) C]. split.
  - intros a Ha. pose proof (exit_incl _ _ _ _ Ha) as He. destruct a as [x u|q v|m v].
    + cbn [outside]. destruct (text_eqb u (lit "http://www.w3.org/1999/xlink")) eqn:E; [|reflexivity]. apply text_eqb_spec in E. subst u.
      destruct (exit_decl _ _ _ _ Ha).
    + apply enter_unknown in He; [|discriminate]. cbn [outside]. apply H4 in He. apply negb_true_iff, text_eqb_neq, He.
    + cbn [outside]. destruct (xlink_name m) eqn:E; [|reflexivity]. exfalso.
      apply in_values in He. rewrite (enter_clean il legacy attrs kids _ L1 L2 L3 H1 H2 H3 m E) in He. destruct He.
  - apply everywhere_app.
    + apply everywhere_title. intros a [].
    + revert kids C s1 H2. fix IHk 1. destruct kids as [|x l]; intros C s1 H2; [exact Logic.I|]. cbn [xlink_kids]. destruct C as [C1 C2].
      pose proof (IH x s1 C1) as X. destruct (xlink il x s1) as [y s3]. cbn [fst] in X.
      assert (Y : everywhere_kids (fun _ attrs _ => forall a, In a attrs -> outside a = true) (fst (xlink_kids il l s3))).
      { apply (IHk l C2 s3). intros E. apply H2. cbn [existsb]. rewrite E. apply orb_true_r. }
      fold (xlink_kids il). destruct (xlink_kids il l s3) as [r s4]. cbn [fst] in *. split; assumption.
Qed.
Lemma no_xlink_declared : forall t b, no_xlink t -> xlink_declared b t = true.
Proof.
  fix IH 1. destruct t as [name legacy attrs kids|t]; intros b H; [|reflexivity]. destruct H as [H1 H2]. cbn [xlink_declared].
  apply andb_true_iff. split.
  - apply orb_true_iff. right. apply forallb_forall. exact H1.
  - generalize (b || existsb is_xdecl attrs). clear H1. revert kids H2. fix IHk 1. destruct kids as [|x l]; intros H2 b'; [reflexivity|]. destruct H2 as [Hx Hl].
    cbn [forallb]. rewrite (IH x b' Hx), (IHk l Hl b'). reflexivity.
Qed.
Lemma xlink_clean il t : convertible il t -> no_xlink (remove_xlink il t) /\ xlink_declared false (remove_xlink il t) = true.
Proof. intros C. pose proof (clean_left il t (Stacks [] [] []) C) as N. split; [exact N|]. apply no_xlink_declared. exact N. Qed.
