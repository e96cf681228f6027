(** Reading commands into segments keeps the drawing. *)
From Coq Require Import List NArith ZArith QArith Qcanon Bool Arith Lia Field.
From Verif Require Import SegmentModel SegmentSpec.
Import ListNotations.
Local Close Scope Q_scope.
Local Open Scope nat_scope.

(** ** Points *)
Lemma Qc_eq_bool_iff x y : Qc_eq_bool x y = true <-> x = y.
Proof.
  split; [apply Qc_eq_bool_correct|]. intros ->. unfold Qc_eq_bool.
  destruct (Qc_eq_dec y y); congruence.
Qed.
Lemma Qc_eq_bool_false x y : Qc_eq_bool x y = false <-> x <> y.
Proof. rewrite <- Qc_eq_bool_iff. destruct (Qc_eq_bool x y); split; congruence. Qed.
Lemma point_eqb_iff a b : point_eqb a b = true <-> a = b.
Proof.
  unfold point_eqb. rewrite andb_true_iff, !Qc_eq_bool_iff. destruct a, b; cbn.
  split; [intros [-> ->]; reflexivity | intros E; injection E; auto].
Qed.
Lemma point_eqb_refl a : point_eqb a a = true.
Proof. apply point_eqb_iff; reflexivity. Qed.
Lemma point_eqb_false a b : point_eqb a b = false <-> a <> b.
Proof. rewrite <- point_eqb_iff. destruct (point_eqb a b); split; congruence. Qed.
Lemma point_eq a b : px a = px b -> py a = py b -> a = b.
Proof. destruct a, b; cbn; intros -> ->; reflexivity. Qed.
Lemma ltb_iff a b : ltb a b = true <-> (a < b)%Qc.
Proof.
  unfold ltb. rewrite Qclt_alt. destruct (a ?= b)%Qc; split; congruence.
Qed.
Lemma ltb_false a b : ltb a b = false <-> (b <= a)%Qc.
Proof.
  split; intros H.
  - apply Qcnot_lt_le. intros L. apply ltb_iff in L. congruence.
  - destruct (ltb a b) eqn:E; [|reflexivity]. apply ltb_iff in E. apply Qcle_not_lt in H. contradiction.
Qed.

Lemma third : (two_thirds * (1 + 1 + 1) = 1 + 1)%Qc.
Proof. apply Qc_is_canon. reflexivity. Qed.
Lemma third_half : (two_thirds * one_half = 1)%Qc.
Proof. apply Qc_is_canon. reflexivity. Qed.
Lemma half_thirds : (one_half * (1 + 1) = 1 + 1 + 1)%Qc.
Proof. apply Qc_is_canon. reflexivity. Qed.

Lemma mirror_reflect c a : reflect c a = mirror c a.
Proof. apply point_eq; cbn; ring. Qed.
Lemma resolve_to rel a p : resolve rel a p = to_ rel a p.
Proof. reflexivity. Qed.

(** ** Drawings *)
Lemma same_refl e : same_edge e e.
Proof. left; reflexivity. Qed.
Lemma same_sym e f : same_edge e f -> same_edge f e.
Proof. intros [->|(A & B & H)]; [left; reflexivity|right]. split; [exact B|split; [exact A|]]. intros t. symmetry. apply H. Qed.
Lemma same_trans e f g : same_edge e f -> same_edge f g -> same_edge e g.
Proof.
  intros [->|(A & B & H)] K; [exact K|]. destruct K as [<-|(C & D & K)].
  - right. auto.
  - right. split; [exact A|split; [exact D|]]. intros t. rewrite H. apply K.
Qed.
Lemma drawing_refl l : same_drawing l l.
Proof. unfold same_drawing. induction (filter seen l); constructor; auto using same_refl. Qed.
Lemma drawing_sym l m : same_drawing l m -> same_drawing m l.
Proof.
  unfold same_drawing. intros H. induction H; constructor; auto using same_sym.
Qed.
Lemma drawing_trans l m n : same_drawing l m -> same_drawing m n -> same_drawing l n.
Proof.
  unfold same_drawing. intros H. revert n. generalize (filter seen l) (filter seen m) H.
  intros a b F n K. revert K. generalize (filter seen n). induction F; intros c K; inversion K; subst; constructor; eauto using same_trans.
Qed.
Lemma drawing_app a b c d : same_drawing a b -> same_drawing c d -> same_drawing (a ++ c) (b ++ d).
Proof. unfold same_drawing. intros H K. rewrite !filter_app. apply Forall2_app; assumption. Qed.
Lemma seen_same e f : same_edge e f -> (seen e = seen f -> same_drawing [e] [f]).
Proof.
  intros H E. unfold same_drawing. cbn. rewrite E. destruct (seen f); [constructor; [exact H|constructor]|constructor].
Qed.
Lemma drawing_cons e f l m : same_edge e f -> seen e = seen f -> same_drawing l m -> same_drawing (e :: l) (f :: m).
Proof. intros A B C. apply (drawing_app [e] [f] l m); [apply seen_same; assumption|exact C]. Qed.
Lemma unseen a l : same_drawing (ELine a a :: l) l.
Proof. unfold same_drawing. cbn. rewrite point_eqb_refl. cbn. apply drawing_refl. Qed.

(** A quadratic curve and its cubic form. *)
Lemma elevate a c b :
  same_edge (EQuad a c b) (ECubic a (padd a (pmul (psub c a) two_thirds)) (padd b (pmul (psub c b) two_thirds)) b).
Proof.
  right. split; [discriminate|split; [discriminate|]]. intros t. cbn. f_equal.
  assert (G : forall a c b : Qc, quad_at a c b t =
            cubic_at a (a + (c - a) * two_thirds) (b + (c - b) * two_thirds) b t).
  { clear a c b. intros a c b. unfold quad_at, cubic_at. ring [third]. }
  rewrite <- !G. reflexivity.
Qed.

(** ** Reading: the hypotheses as recursive predicates *)
Definition handle_of (o : option cmd) (h : handle) : Prop :=
  match h with
  | NoHandle => match o with Some c => is_quad c = false /\ is_cubic c = false | None => True end
  | CubicHandle _ => match o with Some c => is_cubic c = true | None => False end
  | QuadHandle _ => match o with Some c => is_quad c = true | None => False end
  end.
Definition follows_ok (o : option cmd) (b : cmd) : Prop :=
  match o with
  | None => True
  | Some a => match b with
              | Smooth _ _ _ => is_quad a = false
              | SmoothQuad _ _ => is_cubic a = false
              | _ => True
              end
  end.
Fixpoint smooth_from (o : option cmd) (l : list cmd) : Prop :=
  match l with [] => True | b :: l => follows_ok o b /\ smooth_from (Some b) l end.
Lemma smooth_from_all l o :
  smooth_matches l -> (match l with b :: _ => follows_ok o b | [] => True end) -> smooth_from o l.
Proof.
  revert o. induction l as [|b l IH]; intros o H K; [exact Logic.I|]. split; [exact K|].
  apply IH.
  - intros pre x y post E. apply (H (b :: pre) x y post). rewrite E. reflexivity.
  - destruct l as [|c l]; [exact Logic.I|]. cbn. apply (H [] b c l). reflexivity.
Qed.

Fixpoint apart_from (t : tolerance) (s : pen) (l : list cmd) : Prop :=
  match l with
  | [] => True
  | c :: l =>
    let s' := snd (step c s) in
    (draws c = true -> match l with
                       | [] => near t (sub s') (cur s') = true -> cur s' = sub s'
                       | Move rel p :: _ => near t (to_ rel (cur s') p) (cur s') = true -> cur s' = sub s'
                       | _ => True
                       end) /\ apart_from t s' l
  end.
Lemma pen_after_app s a b : pen_after s (a ++ b) = pen_after (pen_after s a) b.
Proof. revert s. induction a as [|c a IH]; intros s; [reflexivity|]. apply IH. Qed.
Lemma apart_from_all t l : ends_apart t l -> apart_from t rest l.
Proof.
  intros H. assert (G : forall pre post, l = pre ++ post -> apart_from t (pen_after rest pre) post).
  { intros pre post. revert pre. induction post as [|c post IH]; intros pre E; [exact Logic.I|].
    split.
    - intros D. generalize (H pre c post E D). rewrite pen_after_app. cbn [pen_after].
      intros K. destruct post as [|[] post]; exact K.
    - generalize (IH (pre ++ [c])). rewrite pen_after_app. cbn [pen_after]. intros K. apply K.
      rewrite E, <- app_assoc. reflexivity. }
  apply (G [] l). reflexivity.
Qed.

(** ** One command *)
(** The control point the reader keeps against the handle of the pen. *)
Definition control_of (h : handle) : option point :=
  match h with NoHandle => None | CubicHandle c | QuadHandle c => Some c end.

Lemma small_ok r : radius_ok r ->
  ltb r (Q2Qc (1 # 100000)) && ltb (- Q2Qc (1 # 100000))%Qc r = Qc_eq_bool r 0.
Proof.
  intros [->|[H|H]].
  - reflexivity.
  - assert (E : ltb r (Q2Qc (1 # 100000)) = false) by (apply ltb_false; exact H).
    rewrite E. symmetry. apply Qc_eq_bool_false. intros ->. vm_compute in H. apply H. reflexivity.
  - assert (E : ltb (- Q2Qc (1 # 100000))%Qc r = false) by (apply ltb_false; exact H).
    rewrite E, andb_false_r. symmetry. apply Qc_eq_bool_false. intros ->. vm_compute in H. apply H. reflexivity.
Qed.

Lemma take_draws c start s z o :
  draws c = true -> handle_of o (hand s) -> follows_ok o c ->
  (forall rel rx ry rot la sw p, c = Arc rel rx ry rot la sw p -> radius_ok rx /\ radius_ok ry) ->
  exists d e,
    take c (TS start (cur s) (control_of (hand s)) z) =
      (Some d, TS start (cur (snd (step c s))) (control_of (hand (snd (step c s)))) z) /\
    fst (step c s) = [e] /\ same_edge e (data_edge (cur s) d) /\ seen e = seen (data_edge (cur s) d) /\
    end_point d = cur (snd (step c s)) /\ sub (snd (step c s)) = sub s /\
    handle_of (Some c) (hand (snd (step c s))).
Proof.
  intros D H F A. destruct c; try discriminate D; cbn [take step fst snd cur sub hand control_of].
  - eexists _, _. split; [reflexivity|]. split; [reflexivity|].
    split; [apply same_refl|]. split; [reflexivity|]. split; [reflexivity|]. split; [reflexivity|].
    split; reflexivity.
  - eexists _, _. split; [reflexivity|]. split; [reflexivity|].
    split; [apply same_refl|]. split; [reflexivity|]. split; [reflexivity|]. split; [reflexivity|].
    split; reflexivity.
  - eexists _, _. split; [reflexivity|]. split; [reflexivity|].
    split; [apply same_refl|]. split; [reflexivity|]. split; [reflexivity|]. split; [reflexivity|].
    split; reflexivity.
  - eexists _, _. split; [reflexivity|]. split; [reflexivity|].
    split; [apply same_refl|]. split; [reflexivity|]. split; [reflexivity|]. split; reflexivity.
  - eexists _, _. split; [reflexivity|]. split; [reflexivity|].
    assert (E : smooth_control (control_of (hand s)) (cur s) =
                match hand s with CubicHandle c => mirror c (cur s) | _ => cur s end).
    { destruct (hand s); cbn in *; try reflexivity; [apply mirror_reflect|].
      destruct o; [|contradiction]. cbn in *. congruence. }
    rewrite E. split; [apply same_refl|]. split; [reflexivity|]. split; [reflexivity|]. split; reflexivity.
  - eexists _, _. split; [reflexivity|]. split; [reflexivity|].
    split; [apply elevate|]. split; [reflexivity|]. split; [reflexivity|]. split; reflexivity.
  - assert (E : smooth_control (control_of (hand s)) (cur s) =
                match hand s with QuadHandle c => mirror c (cur s) | _ => cur s end).
    { destruct (hand s); cbn in *; try reflexivity; [|apply mirror_reflect].
      destruct o; [|contradiction]. cbn in *. congruence. }
    eexists _, _. rewrite E. split; [reflexivity|]. split; [reflexivity|].
    split; [apply elevate|]. split; [reflexivity|]. split; [reflexivity|]. split; reflexivity.
  - specialize (A _ _ _ _ _ _ _ eq_refl). destruct A as [A B].
    unfold is_arc_to_line. rewrite (small_ok _ A), (small_ok _ B). rewrite resolve_to.
    eexists _, _. split; [reflexivity|]. split; [reflexivity|].
    destruct (_ || _ || _); (split; [apply same_refl|]); (split; [reflexivity|]); (split; [reflexivity|]);
      (split; [reflexivity|]); split; reflexivity.
Qed.

(** ** The loop of one segment *)
Lemma data_edges_app a l m : data_edges a (l ++ m) = data_edges a l ++ data_edges (data_end a l) m.
Proof. revert a. induction l as [|d l IH]; intros a; [reflexivity|]. cbn. rewrite IH. reflexivity. Qed.
Lemma data_end_app a l m : data_end a (l ++ m) = data_end (data_end a l) m.
Proof. revert a. induction l as [|d l IH]; intros a; [reflexivity|]. apply IH. Qed.
Lemma data_end_last a l : data_end a l = end_point (last l (LineTo a)).
Proof.
  assert (G : forall l a b, l <> [] -> data_end a l = end_point (last l (LineTo b))).
  { clear. induction l as [|d l IH]; intros a b N; [congruence|]. destruct l as [|d' l]; [reflexivity|].
    transitivity (data_end (end_point d) (d' :: l)); [reflexivity|]. rewrite (IH (end_point d) b); [reflexivity|discriminate]. }
  destruct l; [reflexivity|]. apply G. discriminate.
Qed.


Definition stop (post : list cmd) : Prop := match post with [] => True | c :: _ => draws c = false end.

(** What the loop returns: the data read, and how it stopped. *)
Lemma take_loop_spec : forall l s o acc,
  handle_of o (hand s) -> smooth_from o l -> arcs_ok l ->
  exists pre new post,
    l = pre ++ post /\ forallb draws pre = true /\ stop post /\
    List.length new = List.length pre /\
    (let s' := pen_after s pre in
     take_loop l (TS (sub s) (cur s) (control_of (hand s)) false) acc =
      (rev acc ++ new,
       match post with
       | [] => TS (sub s') (cur s') (control_of (hand s')) false
       | c :: _ => snd (take c (TS (sub s') (cur s') (control_of (hand s')) false))
       end,
       tl post) /\
     sub s' = sub s /\
     data_end (cur s) new = cur s') /\
    same_drawing (run s pre) (data_edges (cur s) new).
Proof.
  induction l as [|c l IH]; intros s o acc Ho Hs Ha.
  - exists [], [], []. cbn. rewrite app_nil_r. split; [reflexivity|]. split; [reflexivity|].
    split; [exact Logic.I|]. split; [reflexivity|]. split; [split; [reflexivity|split; reflexivity]|]. apply drawing_refl.
  - destruct Hs as [Hf Hs].
    assert (Ha' : arcs_ok l) by (intros ? ? ? ? ? ? ? I0; eapply Ha; right; exact I0).
    destruct (draws c) eqn:D.
    + destruct (take_draws c (sub s) s false o D Ho Hf) as (d & e & T & S1 & Sm & Se & En & Su & Hn).
      { intros ? ? ? ? ? ? ? ->. eapply Ha. left. reflexivity. }
      destruct (IH (snd (step c s)) (Some c) (d :: acc) Hn Hs Ha') as (pre & new & post & -> & Hpre & Hpost & Hlen & (E1 & E2 & E3) & E4).
      exists (c :: pre), (d :: new), post. cbn [pen_after app forallb List.length].
      split; [reflexivity|]. split; [rewrite D; exact Hpre|]. split; [exact Hpost|]. split; [congruence|].
      split.
      * cbv zeta in *. cbn [take_loop]. rewrite T. rewrite Su in E1.
        split; [rewrite E1; cbn [rev]; rewrite <- app_assoc; reflexivity|].
        split; [congruence|]. cbn [data_end]. rewrite En. exact E3.
      * cbn [run data_edges]. rewrite S1, En. cbn [app]. apply drawing_cons; assumption.
    + exists [], [], (c :: l). cbn [pen_after app forallb List.length tl stop].
      split; [reflexivity|]. split; [reflexivity|]. split; [exact D|]. split; [reflexivity|]. split.
      * cbv zeta. rewrite app_nil_r. split; [|split; reflexivity].
        cbn [take_loop]. destruct c; try discriminate D; reflexivity.
      * apply drawing_refl.
Qed.

Lemma run_app s a b : run s (a ++ b) = run s a ++ run (pen_after s a) b.
Proof. revert s. induction a as [|c a IH]; intros s; [reflexivity|]. cbn. rewrite IH, app_assoc. reflexivity. Qed.
Lemma smooth_from_app o a b : smooth_from o (a ++ b) -> smooth_from o a /\ match b with c :: b => smooth_from (Some c) b | [] => True end.
Proof.
  revert o. induction a as [|c a IH]; intros o H; cbn [app smooth_from] in *.
  - split; [exact Logic.I|]. destruct b; [exact Logic.I|]. apply H.
  - destruct H as [H K]. destruct (IH _ K) as [K1 K2]. auto.
Qed.
Lemma apart_from_app t s a b : apart_from t s (a ++ b) ->
  apart_from t (pen_after s a) b /\
  (a <> [] -> forallb draws a = true ->
   let s' := pen_after s a in
   match b with
   | [] => near t (sub s') (cur s') = true -> cur s' = sub s'
   | Move rel p :: _ => near t (to_ rel (cur s') p) (cur s') = true -> cur s' = sub s'
   | _ => True
   end).
Proof.
  revert s. induction a as [|c a IH]; intros s H; cbn [app apart_from] in *.
  - split; [exact H|]. congruence.
  - destruct H as [H K]. destruct (IH _ K) as [K1 K2]. split; [exact K1|]. intros _ D.
    cbn [forallb] in D. apply andb_prop in D. destruct D as [D1 D2].
    destruct a as [|c' a]; [|apply K2; [discriminate|exact D2]].
    cbn [pen_after app] in *. specialize (H D1). destruct b as [|[] b]; exact H.
Qed.
Lemma pieces_draws s d a b : forallb draws a = true ->
  pieces s d (a ++ b) = pieces (pen_after s a) (match a with [] => d | _ => true end) b.
Proof.
  revert s d. induction a as [|c a IH]; intros s d H; [reflexivity|].
  cbn [forallb] in H. apply andb_prop in H. destruct H as [H K].
  cbn [app pen_after]. transitivity (pieces (snd (step c s)) true (a ++ b)).
  - destruct c; try discriminate H; reflexivity.
  - rewrite (IH _ _ K). destruct a; reflexivity.
Qed.

(** ** The whole path *)
Lemma from_loop_spec t : forall fuel l s,
  List.length l <= fuel -> cur s = sub s -> hand s = NoHandle ->
  (exists o, handle_of o NoHandle /\ smooth_from o l) -> arcs_ok l ->
  (apart_from t s l -> same_drawing (run s l) (segments_drawing (from_loop t fuel l (sub s) (cur s)))) /\
  map summary (filter nonempty (from_loop t fuel l (sub s) (cur s))) = map (piece_of t) (pieces s false l).
Proof.
  induction fuel as [|fuel IH]; intros l s Hl Hc Hh (o & Ho & Hs) Ha.
  { destruct l; [|cbn in Hl; lia]. split; [intros _; apply drawing_refl|reflexivity]. }
  destruct l as [|c0 l0]; [split; [intros _; apply drawing_refl|reflexivity]|].
  cbn [from_loop]. remember (c0 :: l0) as l eqn:El. unfold take_segment.
  rewrite <- Hh in Ho.
  destruct (take_loop_spec l s o [] Ho Hs Ha) as (pre & new & post & E & Hpre & Hpost & Hlen & (E1 & E2 & E3) & E4).
  rewrite Hh in E1 at 1. cbn [control_of rev app] in E1. rewrite E1. clear E1.
  set (s' := pen_after s pre) in *.
  assert (Ha2 : arcs_ok (tl post)).
  { intros ? ? ? ? ? ? ? I0. eapply Ha. rewrite E. apply in_or_app. right. destruct post; [destruct I0|right; exact I0]. }
  assert (Hs2 : match post with c :: b => smooth_from (Some c) b | [] => True end).
  { rewrite E in Hs. apply smooth_from_app in Hs. apply Hs. }
  assert (Hl2 : List.length (tl post) <= fuel).
  { rewrite E, app_length in Hl. destruct post; cbn [tl List.length] in *; lia. }
  assert (Hp : run s l = run s pre ++ run s' post) by (rewrite E; apply run_app).
  assert (Hq : pieces s false l = pieces s' (match pre with [] => false | _ => true end) post) by (rewrite E; apply pieces_draws; exact Hpre).
  assert (Hlast : forall a, new <> [] -> end_point (last new (LineTo a)) = cur s').
  { intros a N. rewrite <- E3. destruct new as [|d new]; [congruence|].
    rewrite (data_end_last (cur s)). f_equal. clear. revert d. induction new as [|e new IH]; intros d; [reflexivity|].
    transitivity (last (e :: new) (LineTo a)); [reflexivity|]. rewrite IH. reflexivity. }
  destruct new as [|d new].
  - (* nothing drawn *)
    assert (pre = []) as -> by (destruct pre; [reflexivity|discriminate Hlen]). cbn [pen_after] in s'. subst s'.
    cbn [app] in E. subst post. rewrite El. rewrite El in Hpost, Hs2, Ha2, Hl2. cbn [stop tl] in *.
    assert (G : forall b, b = cur (snd (step c0 s)) -> forall a, a = sub (snd (step c0 s)) ->
       (apart_from t s (c0 :: l0) -> same_drawing (run s (c0 :: l0)) (segments_drawing (Seg (sub s) [] false :: from_loop t fuel l0 a b))) /\
       map summary (filter nonempty (Seg (sub s) [] false :: from_loop t fuel l0 a b)) = map (piece_of t) (pieces s false (c0 :: l0))).
    { intros b -> a ->. destruct (IH l0 (snd (step c0 s)) Hl2) as [F1 F2].
      - destruct c0; try discriminate Hpost; reflexivity.
      - destruct c0; try discriminate Hpost; reflexivity.
      - exists (Some c0). split; [|exact Hs2]. destruct c0; try discriminate Hpost; split; reflexivity.
      - exact Ha2.
      - split.
        + intros [_ A]. specialize (F1 A). destruct c0; try discriminate Hpost; cbn [run step fst app].
          * exact F1.
          * rewrite Hc. eapply drawing_trans; [apply unseen|]. exact F1.
        + cbn [filter nonempty s_data]. rewrite F2. destruct c0; try discriminate Hpost; reflexivity. }
    destruct c0; try discriminate Hpost.
    + apply G; reflexivity.
    + apply G; cbn; [symmetry|]; try exact Hc; reflexivity || auto.
  - (* something drawn *)
    assert (Np : pre <> []) by (intros ->; discriminate Hlen).
    assert (Hq' : pieces s false l = pieces s' true post) by (rewrite Hq; destruct pre; congruence).
    destruct post as [|c post].
    + (* end of the path *)
      cbn [tl t_z t_start t_cursor]. rewrite E2. rewrite (Hlast (sub s)) by discriminate.
      assert (N : from_loop t fuel [] (sub s) (cur s') = []) by (destruct fuel; reflexivity). rewrite N.
      split.
      * intros A. rewrite Hp. cbn [run]. rewrite app_nil_r. unfold segments_drawing. cbn [map concat]. rewrite app_nil_r.
        unfold segment_edges. cbn [s_start s_data s_closed]. rewrite <- Hc.
        destruct (near t (cur s) (cur s')) eqn:Nr.
        -- rewrite E3. rewrite E in A. apply apart_from_app in A. destruct A as [_ A].
           specialize (A Np Hpre). cbv zeta in A. fold s' in A. rewrite E2, <- Hc in A. rewrite (A Nr).
           eapply drawing_trans; [exact E4|]. rewrite <- (app_nil_r (data_edges (cur s) (d :: new))) at 1.
           apply drawing_app; [apply drawing_refl|]. apply drawing_sym. apply unseen.
        -- rewrite app_nil_r. exact E4.
      * rewrite Hq'. cbn [pieces map filter nonempty s_data]. unfold piece_of, summary. cbn [p_start p_end p_closed p_next s_start s_closed s_data orb].
        rewrite E2. rewrite <- Hc, E3. reflexivity.
    + cbn [stop] in Hpost. cbn [tl] in *. destruct c; try discriminate Hpost.
      * (* a moveto *)
        cbn [take snd t_z t_start t_cursor]. rewrite (Hlast (sub s)) by discriminate. rewrite resolve_to.
        set (b := to_ rel (cur s') p).
        destruct (IH post (Pen b b NoHandle) Hl2) as [F1 F2]; [reflexivity|reflexivity| |exact Ha2|].
        { exists (Some (Move rel p)). split; [split; reflexivity|exact Hs2]. }
        cbn [cur sub] in F1, F2. split.
        -- intros A. rewrite Hp. cbn [run step fst snd app]. fold b. unfold segments_drawing. cbn [map concat].
           rewrite E in A. apply apart_from_app in A. destruct A as [[_ A1] A2]. specialize (A2 Np Hpre). cbv zeta in A2. fold s' in A2.
           cbn [step snd] in A1. fold s' in A1. fold b in A1, A2.
           apply drawing_app; [|apply F1; exact A1].
           unfold segment_edges. cbn [s_start s_data s_closed]. rewrite <- Hc. destruct (near t b (cur s')) eqn:Nr.
           ++ rewrite E3. rewrite (A2 eq_refl), E2, <- Hc.
              eapply drawing_trans; [exact E4|]. rewrite <- (app_nil_r (data_edges (cur s) (d :: new))) at 1.
              apply drawing_app; [apply drawing_refl|]. apply drawing_sym. apply unseen.
           ++ rewrite app_nil_r. exact E4.
        -- rewrite Hq'. cbn [pieces step snd map filter nonempty s_data app]. fold b. cbn [cur map].
           rewrite F2. f_equal. unfold piece_of, summary. cbn [p_start p_end p_closed p_next s_start s_closed s_data orb].
           rewrite E2. rewrite <- Hc, E3. reflexivity.
      * (* a closepath *)
        cbn [take snd t_z t_start t_cursor]. rewrite E2.
        destruct (IH post (Pen (sub s') (sub s') NoHandle) Hl2) as [F1 F2]; [reflexivity|reflexivity| |exact Ha2|].
        { exists (Some Close). split; [split; reflexivity|exact Hs2]. }
        cbn [cur sub] in F1, F2. rewrite E2 in F1, F2. split.
        -- intros A. rewrite Hp. cbn [run step fst snd app]. unfold segments_drawing. cbn [map concat].
           rewrite E in A. apply apart_from_app in A. destruct A as [[_ A1] _].
           cbn [step snd] in A1. fold s' in A1. rewrite E2 in *.
           unfold segment_edges. cbn [s_start s_data s_closed]. rewrite <- Hc in *. rewrite E3. rewrite <- app_assoc.
           apply drawing_app; [exact E4|]. cbn [app]. apply drawing_cons; [apply same_refl|reflexivity|].
           apply F1. exact A1.
        -- rewrite Hq'. cbn [pieces step snd map filter nonempty s_data app]. rewrite E2, F2. f_equal.
           unfold piece_of, summary. cbn [p_start p_end p_closed p_next s_start s_closed s_data orb].
           rewrite <- Hc, E3. reflexivity.
Qed.

Lemma from_svg_spec t rel p l gs :
  from_svg t (Move rel p :: l) = Some gs -> smooth_matches (Move rel p :: l) -> arcs_ok (Move rel p :: l) ->
  (ends_apart t (Move rel p :: l) -> same_drawing (drawing (Move rel p :: l)) (segments_drawing gs)) /\
  map summary (filter nonempty gs) = map (piece_of t) (pieces rest false (Move rel p :: l)).
Proof.
  intros E Hs Ha. cbn [from_svg] in E. injection E as <-.
  assert (Eb : to_ rel origin p = p).
  { destruct rel; [|reflexivity]. apply point_eq; cbn; ring. }
  destruct (from_loop_spec t (List.length l) l (Pen p p NoHandle)) as [F1 F2]; [lia|reflexivity|reflexivity| | |].
  { exists (Some (Move rel p)). split; [split; reflexivity|].
    apply (smooth_from_all _ None) in Hs; [apply Hs|exact Logic.I]. }
  { intros ? ? ? ? ? ? ? I0. eapply Ha. right. exact I0. }
  cbn [cur sub] in F1, F2.
  assert (G : forall gs, gs = from_loop t (Datatypes.length l) l p p ->
     same_drawing (segments_drawing gs) (segments_drawing (match gs with [] => [Seg p [] false] | g :: r => g :: r end)) /\
     filter nonempty gs = filter nonempty (match gs with [] => [Seg p [] false] | g :: r => g :: r end)).
  { intros gs _. destruct gs; split; apply drawing_refl || reflexivity. }
  destruct (G _ eq_refl) as [G1 G2]. split.
  - intros A. apply apart_from_all in A. destruct A as [_ A]. cbn [step snd rest cur] in A. rewrite Eb in A.
    unfold drawing. cbn [run step fst snd rest cur app]. rewrite Eb.
    eapply drawing_trans; [apply F1; exact A|exact G1].
  - rewrite <- G2, F2. cbn [pieces step snd rest cur app]. rewrite Eb. reflexivity.
Qed.
