(** Deciding the conditions on segments, and telling drawings apart, for concrete paths. *)
From Coq Require Import List NArith ZArith QArith Qcanon Bool Arith Lia.
From Verif Require Import SegmentModel SegmentSpec SegmentProofs SegmentProofs2 SegmentProofs3.
Import ListNotations.
Local Close Scope Q_scope.
Local Open Scope nat_scope.

Definition gridb (p : nat) (x : Qc) : bool := Qc_eq_bool x (Q2Qc (Qmake (scale p x) (pow10 p))).
Definition grid_pointb p a := gridb p (px a) && gridb p (py a).
Lemma gridb_ok p x : gridb p x = true -> on_grid p x.
Proof. intros H. apply Qc_eq_bool_iff in H. eexists. exact H. Qed.
Lemma grid_pointb_ok p a : grid_pointb p a = true -> grid_point p a.
Proof. intros H. apply andb_prop in H. destruct H as [H K]. split; apply gridb_ok; assumption. Qed.

Definition exactlyb t a b := negb (near t a b) || point_eqb a b.
Lemma exactlyb_ok t a b : exactlyb t a b = true -> exactly t a b.
Proof. unfold exactlyb, exactly. intros H K. rewrite K in H. apply point_eqb_iff. exact H. Qed.
Definition apartb t a b := negb (near t a b).
Lemma apartb_ok t a b : apartb t a b = true -> apart t a b.
Proof. unfold apartb, apart. apply negb_true_iff. Qed.

Definition curve_okb (t : tolerance) (w : ahead) (a c1 c2 b : point) : bool :=
  let p := precision t in
  let q := quad_from_start a c1 in
  let quad := looks_quad t a c1 c2 b in
  grid_pointb p c1 && (grid_pointb p c2 && (grid_pointb p b &&
  ((negb quad || (point_eqb q (quad_from_end b c2) && grid_pointb p q)) &&
  match w with
  | Fresh => exactlyb t c1 a
  | AfterCubic k => exactlyb t c1 (mirror k a) && (negb quad || apartb t q (mirror k a))
  | AfterQuad k => apartb t c1 (mirror k a) && (negb quad || exactlyb t q (mirror k a))
  | AfterSegment k => apartb t c1 (mirror k a) && (negb quad || apartb t q (mirror k a))
  end))).
Lemma impb (a b : bool) : negb a || b = true -> a = true -> b = true.
Proof. destruct a; auto. discriminate. Qed.
Lemma curve_okb_ok t w a c1 c2 b : curve_okb t w a c1 c2 b = true -> curve_ok t w a c1 c2 b.
Proof.
  unfold curve_okb, curve_ok. cbv zeta. intros H.
  apply andb_prop in H. destruct H as [H1 H]. apply andb_prop in H. destruct H as [H2 H].
  apply andb_prop in H. destruct H as [H3 H]. apply andb_prop in H. destruct H as [H4 H].
  split; [apply grid_pointb_ok, H1|]. split; [apply grid_pointb_ok, H2|]. split; [apply grid_pointb_ok, H3|].
  split.
  { intros Q. apply (impb _ _ H4) in Q. apply andb_prop in Q. destruct Q as [Q1 Q2].
    split; [apply point_eqb_iff, Q1|apply grid_pointb_ok, Q2]. }
  destruct w; [apply exactlyb_ok, H| | |]; apply andb_prop in H; destruct H as [H5 H6]; split;
    try (apply exactlyb_ok, H5); try (apply apartb_ok, H5);
    intros Q; apply (impb _ _ H6) in Q; (apply exactlyb_ok, Q) || (apply apartb_ok, Q).
Qed.

Fixpoint data_okb (t : tolerance) (start : point) (w : ahead) (a : point) (l : list sdata) : bool :=
  match l with
  | [] => true
  | d :: l =>
    match d with
    | LineTo b => grid_pointb (precision t) b && (negb (point_eqb a b) || point_eqb a start)
    | CurveTo c1 c2 b => curve_okb t w a c1 c2 b
    | ArcTo _ _ _ _ _ _ => false
    end && data_okb t start (after_data t a d) (end_point d) l
  end.
Lemma data_okb_ok t start : forall l w a, data_okb t start w a l = true -> data_ok t start w a l.
Proof.
  induction l as [|d l IH]; intros w a H; [exact Logic.I|]. cbn [data_okb data_ok] in *.
  apply andb_prop in H. destruct H as [H K]. split; [|apply IH, K]. destruct d; [| |discriminate H].
  - apply andb_prop in H. destruct H as [H1 H2]. split; [apply grid_pointb_ok, H1|].
    intros E. apply point_eqb_iff in E. apply point_eqb_iff. exact (impb _ _ H2 E).
  - apply curve_okb_ok, H.
Qed.
Fixpoint segments_okb (t : tolerance) (w : ahead) (l : list segment) : bool :=
  match l with
  | [] => true
  | g :: l =>
    grid_pointb (precision t) (s_start g) && (data_okb t (s_start g) w (s_start g) (s_data g) &&
    segments_okb t (match s_data g with [] => Fresh | _ => outlive (after_all t w (s_start g) (s_data g)) end) l)
  end.
Lemma segments_okb_ok t : forall l w, segments_okb t w l = true -> segments_ok t w l.
Proof.
  induction l as [|g l IH]; intros w H; [exact Logic.I|]. cbn [segments_okb segments_ok] in *.
  apply andb_prop in H. destruct H as [H K]. apply andb_prop in K. destruct K as [K1 K2].
  split; [apply grid_pointb_ok, H|]. split; [apply data_okb_ok, K1|]. apply IH, K2.
Qed.
Lemma writable_by t l : segments_okb t Fresh l = true -> writable t l.
Proof. apply segments_okb_ok. Qed.

(** Conditions on commands *)
Fixpoint matchesb (l : list cmd) : bool :=
  match l with
  | a :: (b :: _) as l => match b with
                          | Smooth _ _ _ => negb (is_quad a)
                          | SmoothQuad _ _ => negb (is_cubic a)
                          | _ => true
                          end && matchesb l
  | _ => true
  end.
Lemma matches_by l : matchesb l = true -> smooth_matches l.
Proof.
  intros H pre. revert l H. induction pre as [|c pre IH]; intros l H a b post E; subst l.
  - cbn in H. apply andb_prop in H. destruct H as [H _]. destruct b; trivial; apply negb_true_iff; exact H.
  - refine (IH _ _ a b post eq_refl). cbn [app] in H. cbn [matchesb] in H.
    destruct (pre ++ a :: b :: post); [reflexivity|]. apply andb_prop in H. apply H.
Qed.
Definition is_arc (c : cmd) : bool := match c with Arc _ _ _ _ _ _ _ => true | _ => false end.
Lemma arcs_by l : existsb is_arc l = false -> arcs_ok l.
Proof.
  intros H rel rx ry rot la sw p I0. exfalso. assert (existsb is_arc l = true); [|congruence].
  apply existsb_exists. eexists. split; [exact I0|reflexivity].
Qed.
Fixpoint apartb_from (t : tolerance) (s : pen) (l : list cmd) : bool :=
  match l with
  | [] => true
  | d :: post =>
    let s := snd (step d s) in
    (negb (draws d) ||
     match post with
     | [] => negb (near t (sub s) (cur s)) || point_eqb (cur s) (sub s)
     | Move rel p :: _ => negb (near t (to_ rel (cur s) p) (cur s)) || point_eqb (cur s) (sub s)
     | _ => true
     end) && apartb_from t s post
  end.
Lemma apart_by t l : apartb_from t rest l = true -> ends_apart t l.
Proof.
  intros H pre d post -> D. cbv zeta.
  assert (G : forall pre s, apartb_from t s (pre ++ d :: post) = true -> apartb_from t (pen_after s pre) (d :: post) = true).
  { clear. induction pre as [|c pre IH]; intros s H; [exact H|]. cbn [app apartb_from] in H.
    apply andb_prop in H. apply (IH _ (proj2 H)). }
  apply G in H. rewrite pen_after_app. cbn [pen_after]. cbn [apartb_from] in H. apply andb_prop in H. destruct H as [H _].
  rewrite D in H. cbn [negb orb] in H. destruct post as [|[] post]; trivial; intros N; apply point_eqb_iff; exact (impb _ _ H N).
Qed.

(** Drawings with different points halfway along their edges are different. *)
Definition halves (l : list edge) : list (option point) := map (fun e => at_ e (Q2Qc (1 # 2))) (filter seen l).
Definition opoint_eqb (a b : option point) : bool :=
  match a, b with Some a, Some b => point_eqb a b | None, None => true | _, _ => false end.
Fixpoint list_eqb (l m : list (option point)) : bool :=
  match l, m with
  | [], [] => true
  | a :: l, b :: m => opoint_eqb a b && list_eqb l m
  | _, _ => false
  end.
Lemma list_eqb_refl l : list_eqb l l = true.
Proof. induction l as [|[p|] l IH]; cbn; rewrite ?point_eqb_refl, ?IH; reflexivity. Qed.
Lemma drawing_differs l m : list_eqb (halves l) (halves m) = false -> ~ same_drawing l m.
Proof.
  intros H S. assert (halves l = halves m) as E; [|rewrite E, list_eqb_refl in H; discriminate H].
  clear H. unfold same_drawing, halves in *. induction S as [|e f l' m' [->|(_ & _ & H)] S IH]; [reflexivity| |]; cbn; rewrite IH; [reflexivity|].
  rewrite H. reflexivity.
Qed.

Lemma from_svg_drawing t l gs : from_svg t l = Some gs -> smooth_matches l -> arcs_ok l -> ends_apart t l ->
  same_drawing (drawing l) (segments_drawing gs).
Proof.
  intros E Hs Ha He. destruct l as [|c l]; [injection E as <-; apply drawing_refl|].
  destruct c; try discriminate E. apply (from_svg_spec t rel p l gs E Hs Ha). exact He.
Qed.
Lemma closed_apart t l gs : from_svg t l = Some gs ->
  Forall (fun q => p_closed q = false -> near t (p_next q) (p_end q) = near t (p_start q) (p_end q)) (pieces rest false l) ->
  map summary (filter nonempty gs) = map (truly_closed t) (pieces rest false l).
Proof.
  intros E F. rewrite (closed_spec t l gs E). apply map_ext_in. intros q I0. rewrite Forall_forall in F. specialize (F q I0).
  unfold piece_of, truly_closed. destruct (p_closed q); [reflexivity|]. rewrite F; reflexivity.
Qed.

Lemma round_half_near q : (- Zpos (Qden q) <= 2 * (round_half q * Zpos (Qden q) - Qnum q) <= Zpos (Qden q))%Z.
Proof.
  unfold round_half. set (n := Qnum q). set (d := Zpos (Qden q)).
  assert (Hd : (0 < 2 * d)%Z) by (unfold d; lia).
  destruct (0 <=? n)%Z.
  - pose proof (Z.div_mod (2 * n + d) (2 * d) ltac:(lia)) as E.
    pose proof (Z.mod_pos_bound (2 * n + d) (2 * d) Hd) as B.
    set (k := ((2 * n + d) / (2 * d))%Z) in *. set (m := ((2 * n + d) mod (2 * d))%Z) in *. nia.
  - pose proof (Z.div_mod (- (2 * n) + d) (2 * d) ltac:(lia)) as E.
    pose proof (Z.mod_pos_bound (- (2 * n) + d) (2 * d) Hd) as B.
    set (k := ((- (2 * n) + d) / (2 * d))%Z) in *. set (m := ((- (2 * n) + d) mod (2 * d))%Z) in *. nia.
Qed.

Lemma and_assoc_swap (A B C : Prop) : (A /\ B /\ C) <-> (C /\ A /\ B).
Proof. tauto. Qed.
Lemma rnd_spec p x :
  ((1 + 1) * (rnd p x - x) <= Q2Qc (1 # pow10 p))%Qc /\ ((1 + 1) * (x - rnd p x) <= Q2Qc (1 # pow10 p))%Qc /\
  (on_grid p x -> rnd p x = x).
Proof.
  rewrite and_assoc_swap; split; [intros H; exact (rnd_grid p x H)|].
  pose proof (round_half_near (this x * inject_Z (Zpos (pow10 p)))%Q) as B. fold (scale p x) in B.
  unfold Qcle, rnd. generalize dependent (scale p x). intros n B.
  destruct x as [[a b] C]. cbn [this] in *. set (k := pow10 p) in *.
  assert (G : forall u v w, (this ((1 + 1) * (u - v)) <= this w)%Q <-> ((1 + 1) * (this u - this v) <= this w)%Q).
  { intros u v w. cbn [this Qcmult Qcplus Qcminus Qcopp Q2Qc]. rewrite ?Qred_correct. reflexivity. }
  split.
  - apply G. cbn [this Q2Qc]. rewrite ?Qred_correct. unfold Qle, Qminus, Qplus, Qmult, Qopp, inject_Z in *. cbn [Qnum Qden] in *.
    rewrite ?Pos2Z.inj_mul in *. nia.
  - apply G. cbn [this Q2Qc]. rewrite ?Qred_correct. unfold Qle, Qminus, Qplus, Qmult, Qopp, inject_Z in *. cbn [Qnum Qden] in *.
    rewrite ?Pos2Z.inj_mul in *. nia.
Qed.

(** Naming results. *)
Definition got {A} (d : A) (o : option A) : A := match o with Some a => a | None => d end.
Lemma got_some {A} (d : A) o : (match o with Some _ => true | None => false end) = true -> o = Some (got d o).
Proof. destruct o; [reflexivity|discriminate]. Qed.
Definition has_close (l : list cmd) : bool := existsb (fun c => match c with Close => true | _ => false end) l.
Lemma has_close_iff l : has_close l = true <-> In Close l.
Proof.
  unfold has_close. rewrite existsb_exists. split; [|intros H; exists Close; auto].
  intros ([] & H & K); try discriminate K. exact H.
Qed.
Lemma no_close l : has_close l = false -> ~ In Close l.
Proof. intros H K. apply has_close_iff in K. congruence. Qed.
Lemma close_in l : has_close l = true -> In Close l.
Proof. apply has_close_iff. Qed.
