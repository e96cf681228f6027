(** Proofs for C69. *)
From Coq Require Import String List NArith QArith Qcanon Bool Arith Lia.
From Verif Require Import Chars TextModel PathModel PathSpec SegmentModel SegmentSpec JoinModel JoinSpec.
Import ListNotations.
Local Close Scope Q_scope.
Local Open Scope nat_scope.

(** ** Outlines *)
Lemma subpaths_app_move l : forall s o r p t m, (r = false) -> subpaths s o (l ++ Move r p :: m) = subpaths s o l ++ subpaths t [] (Move r p :: m).
Proof.
  induction l as [|c l IH]; intros s o r p t m ->; cbn [app].
  - cbn [subpaths]. destruct t, s; reflexivity.
  - destruct c; cbn [subpaths]; rewrite (IH _ _ false p t m eq_refl); [rewrite app_assoc|..]; reflexivity.
Qed.
Lemma pop_cons (a x : out) (d : list out) : pop_move (a :: x :: d) = a :: pop_move (x :: d).
Proof. destruct a as [i []]; reflexivity. Qed.
Lemma subpaths_pop d : forall s o, subpaths s o (map snd (pop_move d)) = subpaths s o (map snd d).
Proof.
  induction d as [|[i c] d IH]; intros s o; [reflexivity|]. destruct d as [|x d].
  - destruct c; cbn; rewrite ?app_nil_r; reflexivity.
  - rewrite pop_cons.
    change (map snd ((i, c) :: pop_move (x :: d))) with (c :: map snd (pop_move (x :: d))).
    change (map snd ((i, c) :: x :: d)) with (c :: map snd (x :: d)).
    destruct c; cbn [subpaths]; rewrite IH; reflexivity.
Qed.
Lemma outline_pop d : outline_of (pop_move d) = outline_of d.
Proof. apply subpaths_pop. Qed.
Lemma outline_absolute d : outline_of (absolute_start d) = outline_of d.
Proof.
  unfold outline_of. destruct d as [|[[|] c] d]; [reflexivity|reflexivity|]. destruct c as [[|] p| | | | | | | | |]; try reflexivity.
  cbn [absolute_start map]. assert (E : snd (step (Move false p) rest) = snd (step (Move true p) rest)).
  { cbn. f_equal; destruct p; cbn; rewrite !Qcplus_0_l; reflexivity. }
  change (map snd ((false, Move true p) :: d)) with (Move true p :: map snd d).
  assert (F : map snd (match d with (true, Line false q) :: l => (true, Line false q) :: l | (true, c) :: l => (false, c) :: l | l => l end) = map snd d).
  { destruct d as [|[[|] []] d]; try reflexivity. destruct rel; reflexivity. }
  cbn [snd subpaths done app]. rewrite E. f_equal. exact F.
Qed.
(** Data that starts with an absolute move. *)
Definition starts_abs (d : list out) : Prop := match d with [] => True | (i, c) :: _ => exists p, c = Move false p end.
Lemma absolute_starts d : data_ok d -> starts_abs (absolute_start d).
Proof.
  destruct d as [|[i c] d]; [exact (fun H => H)|]. cbn [data_ok]. intros (-> & M & _). destruct c as [[|] p| | | | | | | | |]; try discriminate M; cbn; eexists; reflexivity.
Qed.
Lemma outline_app x d : starts_abs d -> outline_of (x ++ d) = outline_of x ++ outline_of d.
Proof.
  unfold outline_of. rewrite map_app. destruct d as [|[i c] d]; [intros _; cbn [map]; rewrite app_nil_r; cbn [subpaths done]; rewrite app_nil_r; reflexivity|].
  intros [p ->]. cbn [map snd]. apply subpaths_app_move. reflexivity.
Qed.

(** ** Implicit commands *)
Lemma absolute_ok d : data_ok d -> data_ok (absolute_start d).
Proof.
  destruct d as [|[i c] d]; [exact (fun H => H)|]. intros (-> & M & F). destruct c as [[|] p| | | | | | | | |]; try discriminate M.
  - cbn [absolute_start]. cbn [id_of] in F. destruct d as [|[[|] e] d].
    + cbn. repeat split; reflexivity.
    + cbn [map to_data follows fst snd d_implicit d_id] in F. destruct F as [F1 F2]. specialize (F1 eq_refl). cbn [repeats] in F1.
      destruct e as [[|]| |[|]| | | | | | |]; try discriminate F1; cbn [data_ok is_move id_of map to_data follows fst snd d_implicit d_id]; repeat split; try discriminate; exact F2.
    + cbn [data_ok is_move id_of map to_data follows fst snd d_implicit d_id] in *. repeat split; try discriminate. apply F.
  - cbn [absolute_start]. repeat split; assumption.
Qed.
Lemma follows_pop p b d : follows b (map (to_data p) d) -> follows b (map (to_data p) (pop_move d)).
Proof.
  revert b. induction d as [|[i c] d IH]; intros b H; [exact H|]. destruct d as [|x d]; [destruct c; exact H || exact Logic.I|].
  rewrite pop_cons. cbn [map follows] in *. split; [apply H|]. apply IH. apply H.
Qed.
Lemma pop_ok d : data_ok d -> data_ok (pop_move d).
Proof.
  destruct d as [|[i c] d]; [exact (fun H => H)|]. intros (-> & M & F). destruct d as [|x d].
  - destruct c; try discriminate M. exact Logic.I.
  - rewrite pop_cons. cbn [data_ok].
    repeat split; [exact M|]. apply follows_pop. exact F.
Qed.
Lemma follows_app p a d : forall b, follows b (map (to_data p) a) -> match d with [] => True | (i, c) :: d => i = false /\ follows (id_of c) (map (to_data p) d) end -> follows b (map (to_data p) (a ++ d)).
Proof.
  induction a as [|x a IH]; intros b H D; cbn [app map follows] in *.
  - destruct d as [|[i c] d]; [exact Logic.I|]. destruct D as [-> D]. cbn. split; [discriminate|exact D].
  - split; [apply H|]. apply IH; [apply H|exact D].
Qed.
Lemma app_ok x d : data_ok x -> data_ok d -> data_ok (x ++ d).
Proof.
  destruct x as [|[i c] x]; [intros _ H; exact H|]. intros (-> & M & F) D. cbn [app data_ok]. repeat split; [exact M|]. apply follows_app; [exact F|].
  destruct d as [|[j e] d]; [exact Logic.I|]. destruct D as (-> & _ & D). auto.
Qed.

(** ** Attributes *)
Lemma find_attr_in n l v : find_attr n l = Some v -> In (n, v) l.
Proof. induction l as [|[m w] l IH]; cbn; [discriminate|]. destruct (text_eqb m n) eqn:E; [intros [= ->]; apply (proj1 (text_eqb_spec _ _)) in E; subst; auto|auto]. Qed.
Lemma in_find_attr n l v : NoDup (map fst l) -> In (n, v) l -> find_attr n l = Some v.
Proof.
  induction l as [|[m w] l IH]; cbn; [intros _ []|]. intros N [[= -> ->]|H]; [rewrite text_eqb_refl; reflexivity|]. inversion N as [|? ? N1 N2]; subst.
  destruct (text_eqb m n) eqn:E; [|auto]. apply (proj1 (text_eqb_spec _ _)) in E. subst. exfalso. apply N1. change n with (fst (n, v)). apply in_map. exact H.
Qed.
Lemma same_from_diff prev c : NoDup (map fst (c_attrs prev)) -> NoDup (map fst (c_attrs c)) -> List.length (c_attrs prev) = List.length (c_attrs c) -> attr_diff prev c = false -> same_attrs prev c.
Proof.
  intros N1 N2 L D. assert (I : incl (c_attrs c) (c_attrs prev)).
  { intros [n v] H. apply find_attr_in. unfold attr_diff in D. rewrite <- not_true_iff_false, existsb_exists in D.
    destruct (find_attr n (c_attrs prev)) as [w|] eqn:E.
    - destruct (text_eqb w v) eqn:T; [apply (proj1 (text_eqb_spec _ _)) in T; congruence|]. exfalso. apply D. exists (n, v). split; [exact H|]. cbn. rewrite E, T. reflexivity.
    - exfalso. apply D. exists (n, v). split; [exact H|]. cbn. rewrite E. reflexivity. }
  intros n v. split; [|apply I]. apply NoDup_length_incl; [|lia|exact I]. clear - N2. induction (c_attrs c) as [|x l IH]; [constructor|]. cbn in N2. inversion N2; subst. constructor; [|auto].
  intros H. apply H1. apply in_map. exact H.
Qed.

Section Job.
  Variable intersects : list out -> list out -> bool.
  Variable force : bool.
  Variable apart : list subpath -> list subpath -> Prop.
  Hypothesis sound : forall x y, force || negb (intersects x y) = true -> apart (outline_of x) (outline_of y).
  Notation merge_loop := (merge_loop intersects force).

  (** What has been gathered: the group before, ending in the original of [prev]. *)
  Definition gathered (g : list child) (prev : child) (data : option (list out)) : Prop :=
    child_ok prev /\
    match data with
    | None => exists a, g = [a] /\ c_key prev = c_key a /\ c_path prev = c_path a /\ c_empty prev = c_empty a /\ c_attrs prev = c_attrs a /\ outline prev = outline a /\
        (c_d a = None <-> c_d prev = None)
    | Some x => data_ok x /\ c_path prev = true /\ c_empty prev = true /\ c_d prev <> None /\ outline_of x = flat_map outline g /\ g <> [] /\
        (forall a, In a g -> c_path a = true /\ c_empty a = true /\ same_attrs a prev /\ forall v, ~ In (lit "id", v) (c_attrs a)) /\
        (forall a y b, g = a ++ y :: b -> a <> [] -> c_forbidden y = false /\ apart (flat_map outline a) (outline y))
    end.
  Lemma gathered_joined g prev data : gathered g prev data -> joined apart g (flush prev data).
  Proof.
    intros [K G]. destruct data as [x|]; cbn [flush].
    - right. destruct G as (_ & P & E & _ & O & _ & A & B). split; [exact P|]. split; [exact E|]. split; [exact O|]. split; [exact A|exact B].
    - left. destruct G as (a & -> & G1 & G2 & G3 & G4 & G5 & _). exists a. auto 10.
  Qed.
  Lemma single_gathered c : child_ok c -> gathered [c] c None.
  Proof. intros K. split; [exact K|]. exists c. repeat split; auto. Qed.
  Lemma absolute_gathered c d : child_ok c -> c_d c = Some d -> gathered [c] (set_d (absolute_start d) c) None.
  Proof.
    intros [N K] E. split.
    - split; [exact N|]. cbn. intros e [= <-]. apply absolute_ok. apply K. exact E.
    - exists c. unfold outline. cbn. rewrite E, outline_absolute. repeat split; try reflexivity; intros; discriminate.
  Qed.

  Lemma loop_joined l : forall g prev data, gathered g prev data -> Forall child_ok l ->
    exists gs, concat gs = g ++ l /\ Forall2 (joined apart) gs (merge_loop prev data l).
  Proof.
    induction l as [|c l IH]; intros g prev data G F.
    - exists [g]. cbn. rewrite !app_nil_r. split; [reflexivity|]. constructor; [apply gathered_joined; exact G|constructor].
    - inversion F as [|? ? Fc Fl]; subst.
      assert (STOP : forall c', gathered [c] c' None -> exists gs, concat gs = g ++ c :: l /\ Forall2 (joined apart) gs (flush prev data :: merge_loop c' None l)).
      { intros c' Gc. destruct (IH [c] c' None Gc Fl) as (gs & E & H). exists (g :: gs). cbn. rewrite E. split; [reflexivity|]. constructor; [apply gathered_joined; exact G|exact H]. }
      cbn [JoinModel.merge_loop]. destruct (negb (c_path prev) || negb (c_empty prev) || has_id prev) eqn:P; [apply STOP, single_gathered, Fc|].
      destruct (negb (c_path c) || negb (c_empty c)) eqn:C; [apply STOP, single_gathered, Fc|].
      destruct (c_d c) as [d|] eqn:D; [|apply STOP, single_gathered, Fc]. cbv zeta. set (c' := set_d (absolute_start d) c).
      pose proof (absolute_gathered c d Fc D) as Gc. fold c' in Gc.
      destruct (c_forbidden c') eqn:B; [apply STOP, Gc|]. destruct (negb (count prev =? count c')) eqn:L; [apply STOP, Gc|].
      destruct (attr_diff prev c') eqn:A; [apply STOP, Gc|].
      apply orb_false_iff in P. destruct P as [P P3]. apply orb_false_iff in P. destruct P as [P1 P2]. apply negb_false_iff in P1, P2.
      apply orb_false_iff in C. destruct C as [C1 C2]. apply negb_false_iff in C1, C2.
      apply negb_false_iff, Nat.eqb_eq in L.
      destruct (match data with Some x => Some x | None => c_d prev end) as [x|] eqn:X.
      2: { destruct data; [discriminate|]. apply STOP. exact Gc. }
      assert (S : same_attrs prev c').
      { apply same_from_diff; [apply G|apply Gc| |exact A]. unfold count in L. cbn [c' set_d c_d] in L.
        assert (c_d prev <> None) by (destruct data; [apply G|congruence]). destruct (c_d prev); [lia|congruence]. }
      assert (NI : forall v, ~ In (lit "id", v) (c_attrs prev)).
      { intros v H. unfold has_id in P3. rewrite (in_find_attr _ _ _ (proj1 (proj1 G)) H) in P3. discriminate. }
      assert (OX : outline_of x = flat_map outline g /\ data_ok x /\ g <> [] /\ (forall a, In a g -> c_path a = true /\ c_empty a = true /\ same_attrs a prev /\ forall v, ~ In (lit "id", v) (c_attrs a)) /\
        (forall a y b, g = a ++ y :: b -> a <> [] -> c_forbidden y = false /\ apart (flat_map outline a) (outline y))).
      { destruct data as [y|].
        - injection X as ->. destruct G as (_ & G1 & _ & _ & _ & G4 & G5 & G6 & G7). auto.
        - destruct G as (K & a & -> & _ & G2 & G3 & G4 & G5 & _). unfold outline in G5. rewrite X in G5. cbn. rewrite app_nil_r.
          split; [exact G5|]. split; [apply K; exact X|]. split; [discriminate|]. split.
          + intros b [<-|[]]. rewrite <- G2, <- G3. split; [exact P1|]. split; [exact P2|]. split; [intros n v; rewrite G4; reflexivity|]. rewrite <- G4. exact NI.
          + intros a0 y b E N. destruct a0 as [|z a0]; [contradiction|]. injection E as _ E. destruct a0; discriminate. }
      destruct OX as (O & OK & NE & MA & AP). destruct (force || negb (intersects (pop_move x) (absolute_start d))) eqn:I.
      + replace (g ++ c :: l) with ((g ++ [c]) ++ l) by (rewrite <- app_assoc; reflexivity). apply IH; [|exact Fl].
        split; [apply Gc|]. split; [apply app_ok; [apply pop_ok; exact OK|apply absolute_ok; apply Fc; exact D]|]. split; [exact C1|]. split; [exact C2|]. split; [discriminate|].
        assert (SA : starts_abs (absolute_start d)) by (apply absolute_starts; apply Fc; exact D).
        assert (OC : outline c = outline_of (absolute_start d)) by (unfold outline; rewrite D, outline_absolute; reflexivity).
        split; [|split; [|split]].
        * rewrite outline_app by exact SA. rewrite outline_pop, O, flat_map_app. cbn. rewrite app_nil_r, OC. reflexivity.
        * destruct g; discriminate.
        * intros a H. apply in_app_or in H. destruct H as [H|[<-|[]]].
          -- destruct (MA a H) as (M1 & M2 & M3 & M4). split; [exact M1|]. split; [exact M2|]. split; [|exact M4]. intros n v. rewrite (M3 n v). apply S.
          -- split; [exact C1|]. split; [exact C2|]. split; [intros n v; reflexivity|]. intros v H. apply (NI v). apply S. exact H.
        * intros a y b E N. destruct (exists_last (l := y :: b)) as (b' & z & Eb); [discriminate|]. rewrite Eb, app_assoc in E. apply app_inj_tail in E. destruct E as [E ->].
          destruct b' as [|y' b'].
          -- cbn in Eb. injection Eb as -> ->. rewrite app_nil_r in E. subst a. split; [exact B|]. rewrite <- O, OC, <- (outline_pop x). apply sound. exact I.
          -- cbn in Eb. injection Eb as -> ->. apply (AP a y' b' E N).
      + destruct data as [y|]; [injection X as ->|].
        * destruct (IH [c] c' None Gc Fl) as (gs & E & H). exists (g :: gs). cbn [concat]. rewrite E. split; [reflexivity|]. constructor; [|exact H].
          right. destruct G as (_ & _ & G2 & G3 & _). cbn [set_d c_path c_empty]. split; [exact G2|]. split; [exact G3|]. split; [unfold outline; cbn; rewrite outline_pop; exact O|]. split; [|exact AP].
          exact MA.
        * apply (STOP c' Gc).
  Qed.
  Theorem merge_joined l : Forall child_ok l -> exists gs, concat gs = l /\ Forall2 (joined apart) gs (merge intersects force l).
  Proof.
    destruct l as [|c l]; intros F; [exists []; split; [reflexivity|constructor]|]. inversion F; subst. apply (loop_joined l [c] c None); [apply single_gathered; assumption|assumption].
  Qed.
End Job.

(** The data of what is left is well-formed. *)
Section Data.
  Variable intersects : list out -> list out -> bool.
  Variable force : bool.
  Lemma flush_ok c data : child_ok c -> (forall x, data = Some x -> data_ok x) -> child_ok (flush c data).
  Proof. intros K D. destruct data as [x|]; [|exact K]. split; [apply K|]. cbn. intros e [= <-]. apply D. reflexivity. Qed.
  Lemma loop_ok l : forall prev data, child_ok prev -> (forall x, data = Some x -> data_ok x) -> Forall child_ok l -> Forall child_ok (merge_loop intersects force prev data l).
  Proof.
    induction l as [|c l IH]; intros prev data K D F; cbn [merge_loop]; [constructor; [apply flush_ok; assumption|constructor]|]. inversion F as [|? ? Fc Fl]; subst.
    assert (NO : forall x : list out, None = Some x -> data_ok x) by discriminate.
    repeat match goal with |- Forall _ (if ?b then flush _ _ :: _ else _) => destruct b; [constructor; [apply flush_ok; assumption|apply IH; assumption]|] end.
    destruct (c_d c) as [d|] eqn:E; [|constructor; [apply flush_ok; assumption|apply IH; assumption]]. cbv zeta.
    assert (KC : child_ok (set_d (absolute_start d) c)) by (split; [apply Fc|]; cbn; intros e [= <-]; apply absolute_ok; apply Fc; exact E).
    repeat match goal with |- Forall _ (if ?b then flush _ _ :: _ else _) => destruct b; [constructor; [apply flush_ok; assumption|apply IH; assumption]|] end.
    assert (X : forall x, match data with Some x => Some x | None => c_d prev end = Some x -> data_ok x) by (destruct data; [exact D|apply K]).
    destruct (match data with Some x => Some x | None => c_d prev end) as [x|]; [|constructor; [exact K|apply IH; assumption]]. specialize (X x eq_refl).
    destruct (force || negb (intersects (pop_move x) (absolute_start d))).
    - apply IH; [exact KC| |exact Fl]. intros y [= <-]. apply app_ok; [apply pop_ok; exact X|apply absolute_ok; apply Fc; exact E].
    - constructor; [|apply IH; assumption]. destruct data; [|exact K]. split; [apply K|]. cbn. intros e [= <-]. apply pop_ok. exact X.
  Qed.
  Theorem merge_ok l : Forall child_ok l -> Forall child_ok (merge intersects force l).
  Proof. destruct l as [|c l]; intros F; [constructor|]. inversion F; subst. apply loop_ok; [assumption|discriminate|assumption]. Qed.
End Data.

Theorem merge_groups intersects force (apart : list subpath -> list subpath -> Prop) l :
  (forall x y, force = true \/ intersects x y = false -> apart (outline_of x) (outline_of y)) -> Forall child_ok l ->
  exists gs, concat gs = l /\ Forall2 (joined apart) gs (merge intersects force l).
Proof.
  intros S. apply merge_joined. intros x y H. apply S. apply orb_true_iff in H. destruct H as [H|H]; [auto|right]. apply negb_true_iff. exact H.
Qed.
Theorem merge_outlines intersects force l : Forall child_ok l -> flat_map outline (merge intersects force l) = flat_map outline l.
Proof.
  intros F. destruct (merge_joined intersects force (fun _ _ => True) (fun _ _ _ => Logic.I) l F) as (gs & <- & H). clear F.
  induction H as [|g c gs cs J H IH]; [reflexivity|]. cbn [flat_map concat]. rewrite flat_map_app, IH. f_equal.
  destruct J as [(a & -> & _ & _ & _ & _ & E)|(_ & _ & E & _)]; cbn; rewrite ?app_nil_r; exact E.
Qed.
