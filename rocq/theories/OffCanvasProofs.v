(** Proofs about the removal of paths off the canvas. *)
From Coq Require Import List QArith Qminmax Bool Arith Lia Lqa.
From Verif Require Import GjkModel GjkSpec GjkProofs4 OffCanvasModel OffCanvasSpec.
Import ListNotations.
Local Open Scope Q_scope.

Section Induction.
  Variable F : node -> Prop.
  Hypothesis HI : forall k t s c, Forall F c -> F (Inner k t s c).
  Hypothesis HP : forall i t s w d, F (Path i t s w d).
  Fixpoint node_induction (n : node) : F n :=
    match n with
    | Inner k t s c => HI k t s c ((fix all l : Forall F l := match l return Forall F l with [] => Forall_nil F | x :: r => Forall_cons x (node_induction x) (all r) end) c)
    | Path i t s w d => HP i t s w d
    end.
End Induction.
Lemma all_forall : forall (F : node -> Prop) l, (fix all l := match l with [] => True | x :: r => F x /\ all r end) l <-> Forall F l.
Proof.
  intros F l. induction l as [|x r IH]; [split; [constructor|exact (fun _ => Logic.I)]|]. split.
  - intros [A B]. constructor; [exact A|apply IH, B].
  - intros H. inversion H; subst. split; [assumption|apply IH; assumption].
Qed.
(** * The canvas *)
Lemma same_refl : forall p, same p p. Proof. intros p. split; reflexivity. Qed.
Lemma hull_same : forall f p q, hull f p -> same q p -> hull f q.
Proof. intros f p q H [X Y]. apply (hull_mix f p p 0); [exact H|exact H|split; [apply Qle_refl|discriminate]|]. split; unfold mix; cbn [px py]; rewrite ?X, ?Y; ring. Qed.
Lemma canvas_covered : forall v p, 0 < width v -> 0 < height v -> min_x v <= px p <= min_x v + width v -> min_y v <= py p <= min_y v + height v -> covered (canvas v) p.
Proof.
  intros v p W H X Y. set (tx := (px p - min_x v) / width v). set (ty := (py p - min_y v) / height v).
  assert (TX : 0 <= tx <= 1) by (unfold tx; split; [apply Qle_shift_div_l; lra|apply Qle_shift_div_r; lra]). assert (TY : 0 <= ty <= 1) by (unfold ty; split; [apply Qle_shift_div_l; lra|apply Qle_shift_div_r; lra]).
  assert (EX : tx * width v == px p - min_x v) by (unfold tx; field; lra). assert (EY : ty * height v == py p - min_y v) by (unfold ty; field; lra).
  apply (hull_mix _ (mix tx (P (min_x v) (min_y v)) (P (min_x v + width v) (min_y v))) (mix (1 - tx) (P (min_x v + width v) (min_y v + height v)) (P (min_x v) (min_y v + height v))) ty).
  - apply hull_in. unfold outline. cbn [canvas start items on_items]. left. apply on_line. exact TX.
  - apply hull_in. unfold outline. cbn [canvas start items on_items end_of]. right. right. left. apply on_line. lra.
  - exact TY.
  - unfold same, mix. cbn [px py]. split.
    + setoid_replace (px p) with (min_x v + tx * width v) by lra. ring.
    + setoid_replace (py p) with (min_y v + ty * height v) by lra. ring.
Qed.
Lemma fitted_box : forall c r v p, gather r = Some v -> fitted c r -> on_canvas c r p -> min_x v <= px p <= min_x v + width v /\ min_y v <= py p <= min_y v + height v.
Proof.
  intros c r v p G F H. unfold gather, fitted, on_canvas in *. destruct (r_viewbox r) as [u|].
  - injection G as <-. destruct H as [W [H [A [B [X Y]]]]]. set (w := resolve (px c) (r_width r)) in *. set (h := resolve (py c) (r_height r)) in *.
    assert (E : w / width u == h / height u).
    { setoid_replace (w / width u) with (w * height u / (width u * height u)) by (field; split; lra). rewrite F. field. split; lra. }
    assert (S1 : Qmin (w / width u) (h / height u) == w / width u) by (apply Q.min_l; rewrite E; apply Qle_refl).
    set (s := Qmin (w / width u) (h / height u)) in *. assert (Ws : s * width u == w) by (rewrite S1; field; lra). assert (Hs : s * height u == h) by (rewrite S1, E; field; lra).
    assert (S0 : 0 < s) by (rewrite S1; apply Qlt_shift_div_l; lra).
    assert (Wh : w / 2 == s * (width u / 2)) by (rewrite <- Ws; field). assert (Hh : h / 2 == s * (height u / 2)) by (rewrite <- Hs; field).
    assert (M : forall a b, s * a <= s * b -> a <= b) by (intros a b L; apply (Qmult_le_l a b s S0); exact L).
    rewrite Wh in X. rewrite Hh in Y. destruct X as [X1 X2]. destruct Y as [Y1 Y2]. apply M in X2. apply M in Y2.
    assert (X1' : - (width u / 2) <= px p - (min_x u + width u / 2)) by (apply M; lra). assert (Y1' : - (height u / 2) <= py p - (min_y u + height u / 2)) by (apply M; lra).
    assert (HW : width u / 2 + width u / 2 == width u) by field. assert (HH : height u / 2 + height u / 2 == height u) by field. lra.
  - destruct (r_width r) as [[w|w]|]; try discriminate. destruct (r_height r) as [[h|h]|]; try discriminate. injection G as <-. cbn [min_x min_y width height resolve] in *. lra.
Qed.
Lemma inside_sizes : forall v p e, 0 < e -> (forall q, near p e q -> min_x v <= px q <= min_x v + width v /\ min_y v <= py q <= min_y v + height v) -> 0 < width v /\ 0 < height v.
Proof.
  intros v p e E H. assert (N : forall x y, x * x + y * y <= e * e -> near p e (P (px p + x) (py p + y))) by (intros x y L; unfold near; cbn [px py]; setoid_replace ((px p + x - px p) * (px p + x - px p) + (py p + y - py p) * (py p + y - py p)) with (x * x + y * y) by ring; exact L).
  assert (H1 := H _ (N e 0 ltac:(lra))). assert (H2 := H _ (N (- e) 0 ltac:(lra))). assert (H3 := H _ (N 0 e ltac:(lra))). assert (H4 := H _ (N 0 (- e) ltac:(lra))). cbn [px py] in *. lra.
Qed.
(** * A path that goes is not seen *)
Lemma beyond_line : forall (f g : pt -> Prop) p e, separated f g -> 0 < e -> (forall q, near p e q -> f q) -> ~ g p.
Proof.
  intros f g p e [[x y] [N H]] R F G. set (n := x * x + y * y). assert (Pn : 0 < n).
  { destruct (Qlt_le_dec 0 n) as [z|z]; [exact z|]. exfalso. apply N. unfold n in z. split; cbn [px py]; nra. }
  set (t := e / (1 + n)). assert (T : t * (1 + n) == e) by (unfold t; field; lra). assert (T0 : 0 < t) by (unfold t; apply Qlt_shift_div_l; lra).
  assert (A : f (P (px p + t * x) (py p + t * y))).
  { apply F. unfold near. cbn [px py]. setoid_replace ((px p + t * x - px p) * (px p + t * x - px p) + (py p + t * y - py p) * (py p + t * y - py p)) with (t * t * n) by (unfold n; ring). rewrite <- T. nra. }
  specialize (H _ _ A G). unfold dot in H. cbn [px py] in H. unfold n in Pn. nra.
Qed.
Lemma gone_unseen : forall c r v w d, gather r = Some v -> fitted c r -> w == 0 -> Forall arcs_ok (segs d) -> path_element v d = None -> ~ seen c r (P 0 0, w, d).
Proof.
  intros c r v w d G F W A N [p [e [E [H [s [q [S [Q K]]]]]]]]. unfold path_element in N. destruct (existsb (starts_within v) (moves d)); [discriminate|].
  destruct (intersects [canvas v] (segs d)) as [[|]|] eqn:I; try discriminate.
  assert (B : forall z, near p e z -> min_x v <= px z <= min_x v + width v /\ min_y v <= py z <= min_y v + height v) by (intros z Z; exact (fitted_box c r v z G F (H z Z))).
  destruct (inside_sizes v p e E B) as [W0 H0].
  assert (Sep : separated (covered (canvas v)) (covered s)).
  { apply (intersects_false [canvas v] (segs d)); [|exact I|left; reflexivity|exact S]. intros z Z. apply in_app_or in Z. destruct Z as [[<-|[]]|Z].
    - intros l L. cbn [canvas items] in L. destruct L as [L|[L|[L|[]]]]; discriminate.
    - rewrite Forall_forall in A. exact (A z Z). }
  assert (C : forall z, near p e z -> covered (canvas v) z) by (intros z Z; destruct (B z Z) as [X Y]; exact (canvas_covered v z W0 H0 X Y)).
  apply (beyond_line _ _ p e Sep E C). apply (hull_same _ q).
  - destruct K as [K|[k [K L]]]; [exact K|]. apply (hull_same _ k); [apply hull_in; exact K|]. unfold near in L. rewrite W in L.
    set (a := px q - px k) in *. set (b := py q - py k) in *. assert (L' : a * a + b * b <= 0) by (setoid_replace (0 / 2 * (0 / 2)) with 0 in L by reflexivity; exact L).
    assert (a == 0) by nra. assert (b == 0) by nra. unfold a, b in *. split; lra.
  - destruct Q as [Q1 Q2]. unfold shift in *. cbn [px py] in *. split; lra.
Qed.
(** * The document *)
Lemma thinned_refl : forall c r l, thinned c r l l.
Proof. intros c r l. induction l as [|x l IH]; [constructor|]. apply thin_keep; [repeat split|exact IH]. Qed.
Lemma thinned_app : forall c r l m l' m', thinned c r l m -> thinned c r l' m' -> thinned c r (l ++ l') (m ++ m').
Proof. intros c r l m l' m' H K. induction H; cbn [app]; [exact K|apply thin_keep; assumption|apply thin_drop; assumption]. Qed.
Lemma draw_plain : forall n all all' o, plain n -> draw all o n = draw all' o n.
Proof.
  induction n as [k t s c IH|i t s w d] using node_induction; intros all all' o H; [|reflexivity]. cbn [plain] in H. destruct H as [K [S H]]. apply all_forall in H. cbn [draw]. destruct k; try destruct K; [|reflexivity].
  induction c as [|n c IHc]; [reflexivity|]. inversion IH; subst. inversion H; subst. cbn [flat_map]. rewrite (H2 all all' _ H4), IHc; [reflexivity|assumption|assumption].
Qed.
Lemma visit_thinned : forall c r v all all', gather r = Some v -> fitted c r -> forall n, plain n -> thinned c r (draw all (P 0 0) n) (flat_map (draw all' (P 0 0)) (visit v n)).
Proof.
  intros c r v all all' G F. induction n as [k t s ch IH|i t s w d] using node_induction; intros H.
  - destruct t as [t|]; [cbn [visit flat_map]; rewrite app_nil_r, (draw_plain _ all all' _ H); apply thinned_refl|].
    cbn [plain] in H. destruct H as [K [S H]]. apply all_forall in H. subst s. cbn [visit flat_map]. rewrite app_nil_r. cbn [draw]. destruct k; try destruct K; [|constructor]. cbn [moved].
    induction ch as [|n ch IHc]; [constructor|]. inversion IH; subst. inversion H; subst. cbn [flat_map]. rewrite flat_map_app. apply thinned_app; [exact (H2 H4)|apply IHc; assumption].
  - cbn [plain] in H. destruct H as [S [W A]]. subst s. destruct t as [t|]; [cbn [visit flat_map]; apply thinned_refl|]. cbn [visit]. destruct (path_element v d) as [d'|] eqn:E.
    + cbn [flat_map draw draw_path moved app]. apply thin_keep; [|constructor]. unfold path_element in E. destruct (existsb _ _); [injection E as <-; repeat split|].
      assert (Z : d' = close d) by (destruct (intersects _ _) as [[|]|]; congruence). subst d'. unfold close. destruct (Nat.eqb (count d) 2); repeat split.
    + cbn [flat_map draw draw_path moved]. apply thin_drop; [|constructor]. exact (gone_unseen c r v w d G F W A E).
Qed.
Theorem job_thinned : forall c on r, Forall plain (r_children r) -> fitted c r -> thinned c r (drawings r) (drawings (job on r)).
Proof.
  intros c on r H F. unfold job. destruct on; [|apply thinned_refl]. destruct (r_transform r) as [t|] eqn:T; [apply thinned_refl|]. destruct (gather r) as [v|] eqn:G; [|apply thinned_refl].
  unfold drawings. rewrite T. cbn [r_children r_transform moved]. set (all := r_children r) at 1. set (all' := flat_map (visit v) (r_children r)) at 1. clearbody all all'.
  induction H as [|n l Hn H IH]; [constructor|]. cbn [flat_map]. rewrite flat_map_app. apply thinned_app; [exact (visit_thinned c r v all all' G F n Hn)|exact IH].
Qed.
(** * What stays in any case *)
Theorem start_stays : forall v d p, In p (moves d) -> min_x v <= px p <= min_x v + width v -> min_y v <= py p <= min_y v + height v -> path_element v d = Some d.
Proof.
  intros v d p I [X1 X2] [Y1 Y2]. unfold path_element. assert (E : existsb (starts_within v) (moves d) = true); [|rewrite E; reflexivity]. apply existsb_exists. exists p. split; [exact I|]. unfold starts_within. rewrite !andb_true_iff. repeat split; apply Qle_bool_iff; assumption.
Qed.
Lemma flat_frame : forall v c, Forall (fun n => flat_map frame (visit v n) = frame n) c -> flat_map frame (flat_map (visit v) c) = flat_map frame c.
Proof. intros v c H. induction H as [|n c E H IH]; [reflexivity|]. cbn [flat_map]. rewrite flat_map_app, E, IH. reflexivity. Qed.
Lemma visit_frame : forall v n, flat_map frame (visit v n) = frame n.
Proof.
  intros v. induction n as [k t s c IH|i t s w d] using node_induction; cbn [visit].
  - destruct t; cbn [flat_map]; rewrite app_nil_r; [reflexivity|]. cbn [frame]. rewrite (flat_frame v c IH). reflexivity.
  - destruct t; [reflexivity|]. destruct (path_element v d); reflexivity.
Qed.
Theorem job_frame : forall on r, flat_map frame (r_children (job on r)) = flat_map frame (r_children r).
Proof.
  intros [] r; [|reflexivity]. unfold job. destruct (r_transform r); [reflexivity|]. destruct (gather r) as [v|]; [|reflexivity]. cbn [r_children]. apply flat_frame, Forall_forall. intros n _. apply visit_frame.
Qed.
Theorem job_moved : forall on r t, r_transform r = Some t -> job on r = r.
Proof. intros [] r t H; [|reflexivity]. unfold job. rewrite H. reflexivity. Qed.
Theorem job_unknown : forall on r, r_viewbox r = None -> (forall n, r_width r <> Some (Pixels n)) \/ (forall n, r_height r <> Some (Pixels n)) -> job on r = r.
Proof.
  intros [] r V H; [|reflexivity]. unfold job, gather. rewrite V. destruct (r_transform r); [reflexivity|]. destruct (r_width r) as [[w|w]|]; try reflexivity. destruct (r_height r) as [[h|h]|]; try reflexivity. exfalso. destruct H as [H|H]; eapply H; reflexivity.
Qed.
(** * What is not so *)
Lemma near_box : forall p e q, 0 < e -> near p e q -> px p - e <= px q <= px p + e /\ py p - e <= py q <= py p + e.
Proof. intros p e q E H. unfold near in H. set (a := px q - px p) in *. set (b := py q - py p) in *. assert (A : - e <= a <= e) by (split; nra). assert (B : - e <= b <= e) by (split; nra). unfold a, b in *. lra. Qed.
Definition square (c : list node) : root := mkRoot (Some (Pixels 10)) (Some (Pixels 10)) None None c.
Definition away : path := mkPath [P 20 20] [mkSegment (P 20 20) [LineTo (P 30 30); LineTo (P 20 30)]] 3 false.
Lemma away_seen : forall c k w, seen c (square k) (P (-(20)) (-(20)), w, away).
Proof.
  intros c k w. exists (P 5 5), 1. split; [reflexivity|]. split.
  - intros q Q. apply near_box in Q; [|reflexivity]. cbn [px py] in Q. unfold on_canvas. cbn [square r_viewbox r_width r_height resolve]. lra.
  - exists (mkSegment (P 20 20) [LineTo (P 30 30); LineTo (P 20 30)]), (mix (1 # 2) (P 20 20) (P 30 30)). split; [left; reflexivity|]. split; [split; reflexivity|]. left. apply hull_in. left. apply on_line. split; discriminate.
Qed.
Lemma below_seen : forall c k, seen c (square k) (P 0 0, 4, mkPath [P (-(5)) (-(1))] [mkSegment (P (-(5)) (-(1))) [LineTo (P 15 (-(1)))]] 2 false).
Proof.
  intros c k. exists (P 5 (1 # 2)), (1 # 4). split; [reflexivity|]. split.
  - intros q Q. apply near_box in Q; [|reflexivity]. cbn [px py] in Q. unfold on_canvas. cbn [square r_viewbox r_width r_height resolve]. lra.
  - exists (mkSegment (P (-(5)) (-(1))) [LineTo (P 15 (-(1)))]), (P 5 (1 # 2)). split; [left; reflexivity|]. split; [split; reflexivity|]. right. exists (mix (1 # 2) (P (-(5)) (-(1))) (P 15 (-(1)))). split; [left; apply on_line; split; discriminate|]. vm_compute. discriminate.
Qed.
Definition beside : path := mkPath [P 12 4] [mkSegment (P 12 4) [LineTo (P 14 6); LineTo (P 12 6)]] 3 false.
Definition wide : root := mkRoot (Some (Pixels 20)) (Some (Pixels 10)) (Some (mkBox 0 0 10 10)) None [Path 1 None None 0 beside].
Lemma beside_seen : forall c, seen c wide (P 0 0, 0, beside).
Proof.
  intros c. exists (P 13 5), 1. split; [reflexivity|]. split.
  - intros q Q. apply near_box in Q; [|reflexivity]. cbn [px py] in Q. unfold on_canvas. cbn [wide r_viewbox r_width r_height resolve min_x min_y width height].
    assert (E : Qmin (20 / 10) (10 / 10) == 1) by reflexivity. assert (A : 20 / 2 == 10) by reflexivity. assert (B : 10 / 2 == 5) by reflexivity. rewrite E, A, B. repeat split; lra.
  - exists (mkSegment (P 12 4) [LineTo (P 14 6); LineTo (P 12 6)]), (mix (1 # 2) (P 12 4) (P 14 6)). split; [left; reflexivity|]. split; [split; reflexivity|]. left. apply hull_in. left. apply on_line. split; discriminate.
Qed.
