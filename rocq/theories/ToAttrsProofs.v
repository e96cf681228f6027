(** Proofs about the conversion of declarations to attributes. *)
From Coq Require Import String List Bool.
From Verif Require Import ToAttrsModel ToAttrsSpec.
Import ListNotations.
Local Open Scope string_scope.

Lemma attribute_put : forall n a l, attribute n (put a l) = if String.eqb (fst a) n then Some (snd a) else attribute n l.
Proof.
  intros n a l. unfold attribute. induction l as [|b l IH]; cbn [put find].
  - destruct (String.eqb (fst a) n); reflexivity.
  - destruct (String.eqb_spec (fst a) (fst b)) as [E|E]; cbn [find].
    + rewrite <- E. destruct (String.eqb (fst a) n); reflexivity.
    + destruct (String.eqb_spec (fst b) n) as [F|F]; [|exact IH]. destruct (String.eqb_spec (fst a) n) as [G|G]; [congruence|reflexivity].
Qed.
Lemma attribute_puts : forall n l m, NoDup (map fst l) -> attribute n (fold_left (fun l a => put a l) l m) = or_else (attribute n l) (attribute n m).
Proof.
  intros n l. induction l as [|a l IH]; intros m N; [reflexivity|]. cbn [fold_left]. inversion N as [|x y N1 N2]; subst. rewrite IH by exact N2. rewrite attribute_put. unfold attribute at 1 3. cbn [find].
  destruct (String.eqb_spec (fst a) n) as [E|E]; [|reflexivity]. subst n. destruct (find (fun b => String.eqb (fst b) (fst a)) l) as [b|] eqn:F; [|reflexivity].
  apply find_some in F. destruct F as [F1 F2]. apply String.eqb_eq in F2. exfalso. apply N1. rewrite <- F2. apply in_map. exact F1.
Qed.
Lemma put_names : forall a l, NoDup (map fst l) -> NoDup (map fst (put a l)).
Proof.
  assert (K : forall a l x, In x (map fst (put a l)) -> x = fst a \/ In x (map fst l)).
  { intros a l x. induction l as [|b l IH]; cbn [put map]; [intros [H|[]]; left; symmetry; exact H|]. destruct (String.eqb_spec (fst a) (fst b)) as [E|E]; cbn [map In].
    - intros [H|H]; [left; symmetry; exact H|right; right; exact H].
    - intros [H|H]; [right; left; exact H|destruct (IH H) as [H'|H']; [left; exact H'|right; right; exact H']]. }
  intros a l. induction l as [|b l IH]; intros N; cbn [put].
  - constructor; [intros []|constructor].
  - inversion N as [|x y N1 N2]; subst. destruct (String.eqb_spec (fst a) (fst b)) as [E|E]; cbn [map].
    + rewrite E. exact N.
    + constructor; [|exact (IH N2)]. intros H. destruct (K a l _ H) as [H'|H']; [congruence|exact (N1 H')].
Qed.
Lemma collect_names : forall l m, NoDup (map fst m) -> NoDup (map fst (fold_left collect l m)).
Proof. intros l. induction l as [|d l IH]; intros m N; [exact N|]. cbn [fold_left]. apply IH. unfold collect. destruct (to_attr d); [apply put_names; exact N|exact N]. Qed.
Definition given (p : string) (l : list declaration) (o : option nat) : option nat :=
  fold_left (fun o d => match to_attr d with Some a => if String.eqb (fst a) p then Some (snd a) else o | None => o end) l o.
Lemma collected : forall p l m, attribute p (fold_left collect l m) = given p l (attribute p m).
Proof.
  intros p l. unfold given. induction l as [|d l IH]; intros m; [reflexivity|]. cbn [fold_left]. rewrite IH. f_equal. unfold collect. destruct (to_attr d) as [a|]; [apply attribute_put|reflexivity].
Qed.
Definition all_stay (p : string) (l : list declaration) : bool := forallb (fun d => negb (about p d && negb (vendor d)) || stays d) l.
(** Of the declarations about a property that are not shorthands, the last is converted or stays. *)
Definition from (p : string) (l : list declaration) (o : option nat) : option nat := fold_left (fun o d => if negb (vendor d) && about p d then Some (val d) else o) l o.
Lemma given_none : forall p l, (forall d, In d l -> about p d = true -> prop d = p) -> existsb (String.eqb p) convertible = false -> given p l None = None.
Proof.
  intros p l H C. unfold given. induction l as [|d l IH]; [reflexivity|]. cbn [fold_left]. assert (E : match to_attr d with Some a => if String.eqb (fst a) p then Some (snd a) else None | None => None end = None).
  { unfold to_attr. destruct (parsed d && negb (vendor d) && existsb (String.eqb (prop d)) convertible) eqn:T; [|reflexivity]. cbn [fst snd]. destruct (String.eqb_spec (prop d) p) as [E|E]; [|reflexivity].
    apply andb_prop in T. destruct T as [_ T]. rewrite E, C in T. discriminate. }
  rewrite E. apply IH. intros d' I. apply H. right. exact I.
Qed.
Lemma about_self : forall p d, prop d = p -> about p d = true.
Proof. intros p d E. unfold about. rewrite E, String.eqb_refl. reflexivity. Qed.
(** All declarations about the property have values that can be converted, or none has. *)
Lemma given_from : forall p l o, (forall d, In d l -> about p d = true -> prop d = p /\ parsed d = true) -> existsb (String.eqb p) convertible = true -> given p l o = from p l o.
Proof.
  intros p l. induction l as [|d l IH]; intros o H C; [reflexivity|]. unfold given, from in *. cbn [fold_left]. rewrite IH; [|intros d' I; apply H; right; exact I|exact C]. f_equal.
  unfold to_attr. destruct (about p d) eqn:A.
  - destruct (H d (or_introl eq_refl) A) as [E Pd]. rewrite E, C, Pd. cbn [andb]. destruct (vendor d); cbn [negb andb fst snd]; [reflexivity|]. rewrite String.eqb_refl. reflexivity.
  - destruct (vendor d); cbn [negb andb]; [rewrite andb_false_r; reflexivity|]. destruct (parsed d && true && existsb (String.eqb (prop d)) convertible); [|reflexivity]. cbn [fst snd].
    destruct (String.eqb_spec (prop d) p) as [E|E]; [|reflexivity]. rewrite (about_self p d E) in A. discriminate.
Qed.
Lemma from_stays_none : forall p l, (forall d, In d l -> about p d = true -> prop d = p /\ parsed d = true) -> existsb (String.eqb p) convertible = true -> forall o, from p (filter stays l) o = o.
Proof.
  intros p l H C. induction l as [|d l IH]; intros o; [reflexivity|]. assert (IH' := IH (fun d' I => H d' (or_intror I))). cbn [filter]. destruct (stays d) eqn:S; [|apply IH']. unfold from in *. cbn [fold_left]. rewrite IH'.
  destruct (about p d) eqn:A; [|rewrite andb_false_r; reflexivity]. destruct (H d (or_introl eq_refl) A) as [E Pd]. unfold stays, to_attr in S. rewrite E, C, Pd in S. cbn [andb] in S. destruct (vendor d); [reflexivity|discriminate].
Qed.
Lemma from_stays_all : forall p l, (forall d, In d l -> about p d = true -> existsb (String.eqb (prop d)) convertible = false) -> forall o, from p (filter stays l) o = from p l o.
Proof.
  intros p l H. induction l as [|d l IH]; intros o; [reflexivity|]. assert (IH' := IH (fun d' I => H d' (or_intror I))). cbn [filter]. destruct (stays d) eqn:S; unfold from in *; cbn [fold_left]; [apply IH'|]. rewrite IH'. f_equal.
  destruct (about p d) eqn:A; [|rewrite andb_false_r; reflexivity]. unfold stays, to_attr in S. rewrite (H d (or_introl eq_refl) A), andb_false_r in S. discriminate.
Qed.
Lemma given_nothing : forall p l, (forall d, In d l -> about p d = true -> existsb (String.eqb (prop d)) convertible = false) -> forall o, given p l o = o.
Proof.
  intros p l H. unfold given. induction l as [|d l IH]; intros o; [reflexivity|]. cbn [fold_left]. rewrite IH; [|intros d' I; apply H; right; exact I]. unfold to_attr.
  destruct (String.eqb_spec (prop d) p) as [E|E].
  - rewrite (H d (or_introl eq_refl) (about_self p d E)), andb_false_r. reflexivity.
  - destruct (parsed d && negb (vendor d) && existsb (String.eqb (prop d)) convertible); [|reflexivity]. cbn [fst snd]. destruct (String.eqb_spec (prop d) p) as [F|F]; [contradiction|reflexivity].
Qed.
Lemma from_or : forall p l o, from p l o = or_else (from p l None) o.
Proof.
  intros p l. unfold from. induction l as [|d l IH]; intros o; [reflexivity|]. cbn [fold_left]. rewrite IH. destruct (negb (vendor d) && about p d) eqn:A; [|reflexivity].
  rewrite (IH (Some (val d))). destruct (fold_left _ l None); reflexivity.
Qed.
Lemma or_assoc : forall a b c, or_else (or_else a b) c = or_else a (or_else b c). Proof. intros [a|] b c; reflexivity. Qed.
Lemma or_none : forall a, or_else a None = a. Proof. intros [a|]; reflexivity. Qed.
(** What [style] declares afterwards, whether it is left or not. *)
Lemma left_block : forall (b : block), let s := match declarations b, important b with [], [] => None | _, _ => Some b end in
  match s with Some x => x | None => mkBlock [] [] end = b.
Proof. intros [[|d l] [|i m]]; reflexivity. Qed.
Section Job.
  Variable minify : block -> block.
  Hypothesis HM : sound minify.
  (** A property that is not converted. *)
  Lemma value_other : forall k s e p b, style e = Some b -> (forall d, In d (declarations (minify b) ++ important (minify b)) -> about p d = true -> existsb (String.eqb (prop d)) convertible = false) ->
    value s (job minify k e) p = value s e p.
  Proof.
    intros k s e p b E H. unfold value, job. rewrite E. cbn [style attrs name]. rewrite left_block. cbn [declarations important].
    assert (HD : forall d, In d (declarations (minify b)) -> about p d = true -> existsb (String.eqb (prop d)) convertible = false) by (intros d I; apply H; apply in_or_app; left; exact I).
    assert (HI : forall d, In d (important (minify b)) -> about p d = true -> existsb (String.eqb (prop d)) convertible = false) by (intros d I; apply H; apply in_or_app; right; exact I).
    destruct (HM b p) as [M1 M2]. rewrite <- M1, <- M2. repeat match goal with |- context [declared p ?l] => change (declared p l) with (from p l None) end.
    rewrite (from_stays_all p _ HD).
    assert (EI : from p (if k then important (minify b) else filter stays (important (minify b))) None = from p (important (minify b)) None) by (destruct k; [reflexivity|exact (from_stays_all p _ HI None)]).
    rewrite EI. do 4 f_equal. unfold presents. cbn [name]. match goal with |- (if ?c then _ else _) = _ => destruct c; [|reflexivity] end.
    rewrite attribute_puts by (apply collect_names; constructor). rewrite collected. rewrite given_nothing; [reflexivity|]. destruct k; [exact HD|exact H].
  Qed.
  (** A property that is. *)
  Lemma value_converted : forall k s e p b, style e = Some b -> presents e p = true -> existsb (String.eqb p) convertible = true -> normal s p = None -> (k = true \/ strong s p = None) ->
    (forall d, In d (declarations (minify b) ++ (if k then [] else important (minify b))) -> about p d = true -> prop d = p /\ parsed d = true) ->
    value s (job minify k e) p = value s e p.
  Proof.
    intros k s e p b E Pr C N K H. unfold value, job. rewrite E. cbn [style attrs name]. rewrite left_block. cbn [declarations important]. unfold presents in *. cbn [name]. rewrite Pr.
    assert (HD : forall d, In d (declarations (minify b)) -> about p d = true -> prop d = p /\ parsed d = true) by (intros d I; apply H; apply in_or_app; left; exact I).
    destruct (HM b p) as [M1 M2]. rewrite <- M1, <- M2. rewrite N. cbn [or_else]. rewrite attribute_puts by (apply collect_names; constructor). rewrite collected.
    change (declared p (filter stays (declarations (minify b)))) with (from p (filter stays (declarations (minify b))) None). rewrite (from_stays_none p _ HD C). cbn [or_else].
    change (attribute p []) with (@None nat). destruct k.
    - rewrite (given_from p _ _ HD C). change (declared p ?l) with (from p l None). reflexivity.
    - destruct K as [K|K]; [discriminate|]. rewrite K. cbn [or_else].
      assert (HI : forall d, In d (important (minify b)) -> about p d = true -> prop d = p /\ parsed d = true) by (intros d I; apply H; apply in_or_app; right; exact I).
      change (declared p (filter stays (important (minify b)))) with (from p (filter stays (important (minify b))) None). rewrite (from_stays_none p _ HI C). cbn [or_else].
      rewrite (given_from p _ _ H C). unfold from at 1. rewrite fold_left_app. change (fold_left _ (important (minify b)) ?o) with (from p (important (minify b)) o).
      rewrite from_or, or_assoc. reflexivity.
  Qed.
  Theorem value_kept : forall k s e p, normal s p = None -> (k = true \/ strong s p = None) ->
    (forall b d, style e = Some b -> In d (declarations (minify b) ++ important (minify b)) -> about p d = true -> prop d = p /\ parsed d = true) ->
    p <> "font" -> p <> "marker" -> (p <> "fill" \/ ~ In (name e) animations) -> value s (job minify k e) p = value s e p.
  Proof.
    intros k s e p N K H NF NM NA. destruct (style e) as [b|] eqn:E; [|unfold job; rewrite E; reflexivity]. destruct (existsb (String.eqb p) convertible) eqn:C.
    - apply (value_converted k s e p b E); try assumption.
      + unfold presents. apply andb_true_intro. split.
        * apply existsb_exists in C. destruct C as [q [C1 C2]]. apply String.eqb_eq in C2. subst q. apply existsb_exists. exists p. split; [|apply String.eqb_refl]. clear - C1 NF NM.
          repeat (destruct C1 as [<-|C1]; [first [contradiction NF; reflexivity|contradiction NM; reflexivity|vm_compute; tauto]|]). destruct C1.
        * apply negb_true_iff, andb_false_iff. destruct NA as [NA|NA]; [left; apply String.eqb_neq; exact NA|right]. destruct (existsb (String.eqb (name e)) animations) eqn:X; [|reflexivity]. apply existsb_exists in X. destruct X as [y [Y1 Y2]]. apply String.eqb_eq in Y2. subst y. contradiction.
      + intros d I. apply (H b d eq_refl). apply in_app_or in I. apply in_or_app. destruct I as [I|I]; [left; exact I|right]. destruct k; [destruct I|exact I].
    - apply (value_other k s e p b E). intros d I A. destruct (H b d eq_refl I A) as [-> _]. exact C.
  Qed.
  (** Attributes of other names stay. *)
  Theorem attribute_kept : forall k e n, ~ In n convertible -> attribute n (attrs (job minify k e)) = attribute n (attrs e).
  Proof.
    intros k e n C. unfold job. destruct (style e) as [b|]; [|reflexivity]. cbn [attrs]. rewrite attribute_puts by (apply collect_names; constructor). rewrite collected.
    assert (G : forall l, given n l None = None); [|rewrite G; reflexivity]. intros l. unfold given. induction l as [|d l IH]; [reflexivity|]. cbn [fold_left]. unfold to_attr at 2.
    destruct (parsed d && negb (vendor d) && existsb (String.eqb (prop d)) convertible) eqn:T; [|exact IH]. cbn [fst snd]. destruct (String.eqb_spec (prop d) n) as [E|E]; [|exact IH].
    exfalso. apply C. apply andb_prop in T. destruct T as [_ T]. apply existsb_exists in T. destruct T as [q [Q1 Q2]]. apply String.eqb_eq in Q2. subst. exact Q1.
  Qed.
  (** What is left in [style] cannot be converted, or is important and to be kept. *)
  Theorem rest : forall k e b, style (job minify k e) = Some b -> Forall (fun d => vendor d = true \/ parsed d = false \/ ~ In (prop d) convertible) (declarations b) /\
    (k = false -> Forall (fun d => vendor d = true \/ parsed d = false \/ ~ In (prop d) convertible) (important b)) /\ (declarations b <> [] \/ important b <> []).
  Proof.
    intros k e b. assert (S : forall l, Forall (fun d => vendor d = true \/ parsed d = false \/ ~ In (prop d) convertible) (filter stays l)).
    { intros l. apply Forall_forall. intros d I. apply filter_In in I. destruct I as [_ I]. unfold stays, to_attr in I. destruct (vendor d); [left; reflexivity|]. destruct (parsed d); [|right; left; reflexivity]. right. right. intros C.
      assert (X : existsb (String.eqb (prop d)) convertible = true) by (apply existsb_exists; exists (prop d); split; [exact C|apply String.eqb_refl]). cbn [andb negb] in I. rewrite X in I. discriminate. }
    unfold job. destruct (style e) as [b0|] eqn:E; [|intros H; congruence]. cbn [style].
    set (lf := mkBlock (filter stays (declarations (minify b0))) (if k then important (minify b0) else filter stays (important (minify b0)))).
    intros H. assert (B : b = lf /\ (declarations lf <> [] \/ important lf <> [])).
    { destruct (declarations lf) as [|x l] eqn:D; [destruct (important lf) as [|y m] eqn:M; [discriminate|]|]; injection H as <-; (split; [reflexivity|]); [right|left]; discriminate. }
    destruct B as [-> B]. split; [apply S|]. split; [|exact B]. intros ->. apply S.
  Qed.
  Theorem important_stays : forall e b, style e = Some b -> match style (job minify true e) with Some b' => important b' | None => [] end = important (minify b).
  Proof.
    intros e b E. unfold job. rewrite E. cbn [style declarations important]. destruct (filter stays (declarations (minify b))); [destruct (important (minify b))|]; reflexivity.
  Qed.
  Theorem fixed_stay : forall k e b, style e = Some b -> let b' := match style (job minify k e) with Some b' => b' | None => mkBlock [] [] end in
    let fixed := filter (fun d => vendor d || negb (parsed d) || negb (existsb (String.eqb (prop d)) convertible)) in
    fixed (declarations b') = fixed (declarations (minify b)) /\ fixed (important b') = fixed (important (minify b)).
  Proof.
    intros k e b E. cbn zeta. unfold job. rewrite E. cbn [style]. rewrite left_block. cbn [declarations important].
    assert (S : forall l, filter (fun d => vendor d || negb (parsed d) || negb (existsb (String.eqb (prop d)) convertible)) (filter stays l) = filter (fun d => vendor d || negb (parsed d) || negb (existsb (String.eqb (prop d)) convertible)) l).
    { intros l. induction l as [|x l IH]; [reflexivity|]. cbn [filter]. destruct (stays x) eqn:T; cbn [filter]; rewrite IH; [reflexivity|]. unfold stays, to_attr in T.
      destruct (parsed x), (vendor x), (existsb (String.eqb (prop x)) convertible); try discriminate T. reflexivity. }
    split; [apply S|]. destruct k; [reflexivity|apply S].
  Qed.
End Job.
