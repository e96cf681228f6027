From Coq Require Import List NArith ZArith QArith Qcanon Bool Arith Lia Lqa.
From Verif Require Import SegmentModel SimplifyModel SimplifyProofs BezierModel BezierSpec BezierProofs BezierProofs2 OverlayModel OverlaySpec OverlayProofs OverlayProofs2.
Import ListNotations.
Local Close Scope Q_scope.
Local Open Scope Qc_scope.
Local Strategy 1000 [t_at coords].

Lemma reversed_part : forall start c k1 k2 c', part_of (curve_end c) (reverse start c) k1 k2 (bezier (curve_end c) (reverse start c) k1) c' ->
  part_of start c (1 - k1) (1 - k2) (bezier start c (1 - k1)) c'.
Proof.
  intros start c k1 k2 c' H s. rewrite <- (reversed start c k1), H, reversed. f_equal. ring.
Qed.
(** The piece made of a source. *)
Lemma curve_piece : forall debug start c t1 t2 a b e c', unit_ t1 -> unit_ t2 -> dist2 (bezier start c t1) a <= e -> dist2 (bezier start c t2) b <= e ->
  (if ltb t2 t1 then option_map CurveTo (clamp_t debug (curve_end c) (reverse start c) (1 - t1) (1 - t2)) else option_map CurveTo (clamp_t debug start c t1 t2)) = Some c' ->
  exists x t2', c' = CurveTo x /\ part_of start c t1 t2' (bezier start c t1) x /\ (t2' = t2 \/ (t2' = 1 /\ 1 - t1 < Q2Qc (1 # 10000000000)) \/ (t2' = 0 /\ t1 < Q2Qc (1 # 10000000000))).
Proof.
  intros debug start c t1 t2 a b e c' U1 U2 A B H. destruct (ltb t2 t1).
  - destruct (clamp_t debug (curve_end c) (reverse start c) (1 - t1) (1 - t2)) as [x|] eqn:E; [|discriminate]. injection H as <-.
    destruct (clamped _ _ _ _ _ _ E) as (k & K & L). apply reversed_part in K. replace (1 - (1 - t1)) with t1 in * by ring. exists x, (1 - k). split; [reflexivity|]. split; [exact K|].
    destruct L as [-> |[-> L]]; [left; ring|right; right]. split; [ring|exact L].
  - destruct (clamp_t debug start c t1 t2) as [x|] eqn:E; [|discriminate]. injection H as <-. destruct (clamped _ _ _ _ _ _ E) as (k & K & L). exists x, k. split; [reflexivity|]. split; [exact K|].
    destruct L as [L|L]; [left; exact L|right; left; exact L].
Qed.
Lemma flip : forall t, unit_ t -> unit_ (1 - t).
Proof. intros t [A B]. unfold unit_, Qcle in *. rewrite this_minus. change (this 0) with 0%Q in *. change (this 1) with 1%Q in *. split; lra. Qed.
Lemma curve_piece_some : forall debug start c t1 t2, unit_ t1 -> unit_ t2 ->
  (if ltb t2 t1 then option_map CurveTo (clamp_t debug (curve_end c) (reverse start c) (1 - t1) (1 - t2)) else option_map CurveTo (clamp_t debug start c t1 t2)) <> None.
Proof.
  intros debug start c t1 t2 U1 U2 H. destruct (ltb t2 t1) eqn:L.
  - destruct (clamp_t debug (curve_end c) (reverse start c) (1 - t1) (1 - t2)) eqn:E; [discriminate|]. apply (clamps debug (curve_end c) (reverse start c) (1 - t1) (1 - t2)); [exact (proj1 (flip _ U1))| |exact (proj2 (flip _ U2))|exact E].
    apply ltb_true in L. unfold Qcle. rewrite !this_minus. lra.
  - destruct (clamp_t debug start c t1 t2) eqn:E; [discriminate|]. apply (clamps debug start c t1 t2); [exact (proj1 U1)| |exact (proj2 U2)|exact E]. exact (proj1 (ltb_false _ _) L).
Qed.
(** The two cases of the places of a piece, with the places as they come. *)
Lemma places_inv : forall debug start c (o1 o2 : option Qc) x,
  match o1, o2 with
  | Some t1, Some t2 => if ltb t2 t1 then option_map CurveTo (clamp_t debug (curve_end c) (reverse start c) (1 - t1) (1 - t2)) else option_map CurveTo (clamp_t debug start c t1 t2)
  | _, _ => None end = x ->
  (exists t1 t2, o1 = Some t1 /\ o2 = Some t2 /\ (if ltb t2 t1 then option_map CurveTo (clamp_t debug (curve_end c) (reverse start c) (1 - t1) (1 - t2)) else option_map CurveTo (clamp_t debug start c t1 t2)) = x) \/
  ((o1 = None \/ o2 = None) /\ x = None).
Proof. intros debug start c [t1|] [t2|] x H; [left; exists t1, t2; auto|right; auto|right; auto|right; auto]. Qed.
Lemma data_of_curve : forall rounded debug id c start l a b,
  data_of rounded debug (Original (Source id (CurveTo c) start l) a b) =
  match t_at rounded start c a matching, t_at rounded start c b matching with
  | Some t1, Some t2 => if ltb t2 t1 then option_map CurveTo (clamp_t debug (curve_end c) (reverse start c) (1 - t1) (1 - t2)) else option_map CurveTo (clamp_t debug start c t1 t2)
  | _, _ => None end.
Proof. reflexivity. Qed.
Lemma data_of_made : forall rounded debug s a b x, data_of rounded debug (Original s a b) = Some x -> made_of matching s a b x.
Proof.
  intros rounded debug [id [p|c] start l] a b x H; [injection H as <-; reflexivity|]. rewrite data_of_curve in H.
  destruct (places_inv _ _ _ _ _ _ H) as [(t1 & t2 & A & B & C)|[_ K]]; [|discriminate].
  apply place in A. apply place in B. destruct A as [A1 A2], B as [B1 B2]. destruct (curve_piece _ _ _ _ _ _ _ _ _ A1 B1 A2 B2 C) as (y & t2' & -> & Q & R).
  cbv beta iota delta [made_of OverlayModel.s_data OverlayModel.s_start]. exists y, t1, t2, t2'. exact (conj eq_refl (conj A1 (conj B1 (conj A2 (conj B2 (conj Q R)))))).
Qed.
Lemma data_of_lost : forall rounded debug s a b, data_of rounded debug (Original s a b) = None ->
  exists c, OverlayModel.s_data s = CurveTo c /\ (t_at rounded (OverlayModel.s_start s) c a matching = None \/ t_at rounded (OverlayModel.s_start s) c b matching = None).
Proof.
  intros rounded debug [id [p|c] start l] a b H; [discriminate|]. rewrite data_of_curve in H. exists c. split; [reflexivity|]. cbn [OverlayModel.s_start].
  destruct (places_inv _ _ _ _ _ _ H) as [(t1 & t2 & A & B & C)|[K _]]; [|exact K]. exfalso. apply place in A. apply place in B. exact (curve_piece_some _ _ _ _ _ (proj1 A) (proj1 B) C).
Qed.
(** ** Pieces *)
Lemma all_some_app : forall {A} (l m : list (option A)) x, all_some (l ++ m) = Some x -> exists y z, all_some l = Some y /\ all_some m = Some z /\ x = y ++ z.
Proof.
  intros A l. induction l as [|[a|] l IH]; intros m x H; [exists [], x; auto| |discriminate]. cbn [app all_some] in *.
  destruct (all_some (l ++ m)) as [w|] eqn:E; [|discriminate]. injection H as <-. destruct (IH m w E) as (y & z & -> & B & ->). exists (a :: y), z. auto.
Qed.
Lemma all_some_none : forall {A} (l : list (option A)), all_some l = None -> In None l.
Proof. intros A l. induction l as [|[a|] l IH]; intros H; [discriminate| |left; reflexivity]. cbn [all_some] in H. right. apply IH. destruct (all_some l); [discriminate|reflexivity]. Qed.
Lemma covers_follows : forall rounded debug reg pts d, covers reg pts d -> forall ds, all_some (map (data_of rounded debug) (rev d)) = Some ds ->
  forall pre a tl rest, pts = pre ++ [a] -> follows matching reg (a :: tl) rest -> follows matching reg (pts ++ tl) (ds ++ rest).
Proof.
  intros rounded debug reg pts d C. induction C as [a|pre a b d C IH|pre a m b s d C IH I A]; intros ds E pre' a' tl' rest X F.
  - injection E as <-. assert (a = a'). { destruct pre' as [|x pre']; [injection X as ->; reflexivity|]. injection X as _ X. destruct pre'; discriminate. } subst. exact F.
  - cbn [rev] in E. rewrite map_app in E. apply all_some_app in E. destruct E as (y & z & E1 & E2 & ->). cbn in E2. injection E2 as <-.
    replace (pre ++ [a; b]) with ((pre ++ [a]) ++ [b]) in * by (rewrite <- app_assoc; reflexivity). apply app_inj_tail in X. destruct X as [_ <-].
    rewrite <- !app_assoc. cbn [app]. replace (pre ++ a :: b :: tl') with ((pre ++ [a]) ++ b :: tl') by (rewrite <- app_assoc; reflexivity). apply (IH y E1 pre a (b :: tl') _ eq_refl). apply follows_line. exact F.
  - cbn [rev] in E. rewrite map_app in E. apply all_some_app in E. destruct E as (y & z & E1 & E2 & ->). cbn [map] in E2. cbn [all_some] in E2.
    destruct (data_of rounded debug (Original s a b)) as [x|] eqn:D; [|discriminate]. injection E2 as <-. apply data_of_made in D.
    rewrite app_comm_cons, app_assoc in X. apply app_inj_tail in X. destruct X as [_ <-].
    replace ((pre ++ a :: m ++ [b]) ++ tl') with ((pre ++ [a]) ++ m ++ b :: tl') by (rewrite <- !app_assoc; cbn [app]; rewrite <- app_assoc; reflexivity). replace ((y ++ [x]) ++ rest) with (y ++ x :: rest) by (rewrite <- app_assoc; reflexivity).
    apply (IH y E1 pre a (m ++ b :: tl') _ eq_refl). exact (follows_piece matching reg s a m b tl' x rest I A D F).
Qed.
Lemma windows_first : forall {A} (P : A * A -> Prop) a m b, Forall P (windows (a :: m ++ [b])) -> exists y, P (a, y).
Proof. intros A P a m b H. destruct m as [|x m]; cbn [app windows] in H; inversion H; subst; eexists; eassumption. Qed.
Lemma windows_last : forall {A} (P : A * A -> Prop) a m b, Forall P (windows (a :: m ++ [b])) -> exists y, P (y, b).
Proof.
  intros A P a m. revert a. induction m as [|x m IH]; intros a b H; [cbn [app windows] in H; inversion H; subst; eexists; eassumption|].
  change (windows (a :: (x :: m) ++ [b])) with ((a, x) :: windows (x :: m ++ [b])) in H. inversion H; subst. exact (IH x b H3).
Qed.
Lemma covers_lost : forall rounded debug reg pts d, covers reg pts d -> all_some (map (data_of rounded debug) (rev d)) = None -> lost rounded reg pts.
Proof.
  intros rounded debug reg pts d C H. apply all_some_none in H. apply in_map_iff in H. destruct H as (x & E & I). apply in_rev in I.
  induction C as [a|pre a b d C IH|pre a m b s d C IH J A]; [destruct I| |].
  - destruct I as [<-|I]; [discriminate|]. destruct (IH I) as (s & c & p & K1 & K2 & K3 & K). exists s, c, p. split; [exact K1|]. split; [exact K2|]. split; [|exact K].
    apply in_app_iff in K3. apply in_app_iff. destruct K3 as [K3|[<-|[]]]; [left; exact K3|right; left; reflexivity].
  - destruct I as [<-|I].
    + apply data_of_lost in E. destruct E as (c & E & L). destruct L as [L|L].
      * exists s, c, a. split; [exact J|]. split; [exact E|]. split; [apply in_app_iff; right; left; reflexivity|]. split; [|exact L]. destruct (windows_first _ _ _ _ A) as [y Y]. exact (proj1 Y).
      * exists s, c, b. split; [exact J|]. split; [exact E|]. split; [apply in_app_iff; right; right; apply in_app_iff; right; left; reflexivity|]. split; [|exact L]. destruct (windows_last _ _ _ _ A) as [y Y]. exact (proj1 (proj2 Y)).
    + destruct (IH I) as (s' & c & p & K1 & K2 & K3 & K). exists s', c, p. split; [exact K1|]. split; [exact K2|]. split; [|exact K].
      apply in_app_iff in K3. apply in_app_iff. destruct K3 as [K3|[<-|[]]]; [left; exact K3|right; left; reflexivity].
Qed.
(** ** Rings *)
Lemma ring_follows : forall closer rounded debug reg a l g, numbered reg -> segment_from_ring closer rounded debug reg (a :: l) = Some g ->
  g_start g = a /\ g_closed g = true /\ follows matching reg (a :: l) (g_data g).
Proof.
  intros closer rounded debug reg a l g N H. unfold segment_from_ring in H.
  destruct (actions_covers closer reg N l a [a] [] [] eq_refl (covers_one reg a)) as (d & E & C). rewrite E in H.
  destruct (all_some (map (data_of rounded debug) (rev d))) as [ds|] eqn:D; [|discriminate]. injection H as <-. split; [reflexivity|]. split; [reflexivity|]. cbn [g_data].
  destruct (@exists_last _ (a :: l) ltac:(discriminate)) as (pre & z & X).
  pose proof (covers_follows rounded debug reg _ _ C ds D pre z [] [] X (follows_end matching reg z)) as F. rewrite !app_nil_r in F. exact F.
Qed.
Lemma ring_lost : forall closer rounded debug reg ring, numbered reg -> segment_from_ring closer rounded debug reg ring = None -> lost rounded reg ring.
Proof.
  intros closer rounded debug reg [|a l] N H; [discriminate|]. unfold segment_from_ring in H.
  destruct (actions_covers closer reg N l a [a] [] [] eq_refl (covers_one reg a)) as (d & E & C). rewrite E in H.
  destruct (all_some (map (data_of rounded debug) (rev d))) as [ds|] eqn:D; [discriminate|]. exact (covers_lost _ _ _ _ _ C D).
Qed.
(** ** Operations *)
Lemma rings_made : forall closer rounded debug reg rings gs, numbered reg -> all_some (map (segment_from_ring closer rounded debug reg) rings) = Some gs -> Forall2 (made_from reg) rings gs.
Proof.
  intros closer rounded debug reg rings. induction rings as [|r rings IH]; intros gs N H; [injection H as <-; constructor|]. cbn [map all_some] in H.
  destruct (segment_from_ring closer rounded debug reg r) as [g|] eqn:G; [|discriminate]. destruct (all_some (map (segment_from_ring closer rounded debug reg) rings)) as [x|]; [|discriminate]. injection H as <-.
  constructor; [|apply IH; [exact N|reflexivity]]. destruct r as [|a l]; [injection G as <-; reflexivity|]. exact (ring_follows _ _ _ _ _ _ _ N G).
Qed.
Lemma boolean_op_made : forall closer rounded simplify overlay debug paths, exists shapes reg, flatten_all simplify 0 paths = Some (shapes, reg) /\
  match boolean_op closer rounded simplify overlay debug paths with
  | Some gs => Forall2 (made_from reg) (concat (fold_left overlay (tl shapes) (hd [] shapes))) gs
  | None => exists ring, In ring (concat (fold_left overlay (tl shapes) (hd [] shapes))) /\ lost rounded reg ring
  end.
Proof.
  intros closer rounded simplify overlay debug paths. destruct (flatten_all_spec simplify paths 0) as (shapes & reg & E & I & _). exists shapes, reg. split; [exact E|].
  unfold boolean_op. rewrite E. apply ids_numbered in I. destruct shapes as [|first rest]; [constructor|]. cbn [tl hd]. unfold path_from_shapes.
  destruct (all_some (map (segment_from_ring closer rounded debug reg) (concat (fold_left overlay rest first)))) as [gs|] eqn:A; [exact (rings_made _ _ _ _ _ _ I A)|].
  apply all_some_none in A. apply in_map_iff in A. destruct A as (ring & R & J). exists ring. split; [exact J|]. exact (ring_lost _ _ _ _ _ I R).
Qed.

(** ** A point between two points of a contour *)
Definition arch : curve := Curve (P (Q2Qc (128 # 3)) 0) (P (Q2Qc (256 # 3)) (Q2Qc (128 # 3))) (P (Q2Qc 128) (Q2Qc 128)).
Definition crossing : point := P (Q2Qc (1 # 2)) (Q2Qc (1 # 256)).
Lemma arch_points : forall t, bezier (P 0 0) arch t = P (Q2Qc 128 * t) (Q2Qc 128 * t * t).
Proof.
  intros t. unfold bezier, cubic, arch. cbn [px py start_control end_control curve_end Qcpower].
  assert (A : Q2Qc (128 # 3) = Q2Qc 128 / Q2Qc 3) by (apply Qc_is_canon; vm_compute; reflexivity). assert (B : Q2Qc (256 # 3) = (1 + 1) * Q2Qc 128 / Q2Qc 3) by (apply Qc_is_canon; vm_compute; reflexivity).
  rewrite A, B. generalize three_nz, three. generalize (Q2Qc 3) (Q2Qc 128). intros w k N W. f_equal.
  - transitivity (t * k * ((1 - t) * (1 - t) * (w / w) + (1 + 1) * (1 - t) * t * (w / w) + t * t)); [unfold Qcdiv; ring|]. replace (w / w) with 1 by (field; exact N). ring.
  - transitivity (t * t * k * ((1 - t) * (w / w) + t)); [unfold Qcdiv; ring|]. replace (w / w) with 1 by (field; exact N). ring.
Qed.
Lemma arch_far : forall t, matching < dist2 (bezier (P 0 0) arch t) crossing.
Proof.
  intros t. rewrite arch_points. unfold dist2, crossing, Qclt. cbn [px py Qcpower]. rewrite !this_plus, !this_mult, !this_minus, !this_mult.
  change (this 1) with 1%Q. change (this matching) with (1 # 1000000)%Q. change (this (Q2Qc 128)) with 128%Q. change (this (Q2Qc (1 # 2))) with (1 # 2)%Q. change (this (Q2Qc (1 # 256))) with (1 # 256)%Q.
  generalize (this t). intros x. set (u := (128 * x - (1 # 2))%Q). set (v := (128 * x * x - (1 # 256))%Q).
  assert (E : (v == (u + (1 # 2)) * (u + (1 # 2)) * (1 # 128) - (1 # 256))%Q) by (unfold u, v; ring).
  assert (V0 : (0 <= v * v)%Q) by nra. assert (U0 : (0 <= u * u)%Q) by nra.
  destruct (Qlt_le_dec u (1 # 500)) as [A|A]; [|assert ((1 # 250000) <= u * u)%Q by nra; lra].
  destruct (Qlt_le_dec (- (1 # 500)) u) as [B|B]; [|assert ((1 # 250000) <= u * u)%Q by nra; lra].
  assert (W : ((u + (1 # 2)) * (u + (1 # 2)) <= (2525 # 10000))%Q) by nra.
  assert (V1 : (v < - (19 # 10000))%Q) by lra. assert (V2 : ((19 # 10000) * (19 # 10000) < v * v)%Q) by nra. lra.
Qed.
Lemma arch_lost : forall rounded, t_at rounded (P 0 0) arch crossing matching = None.
Proof.
  intros rounded. assert (G : forall o, (forall t, o = Some t -> unit_ t /\ dist2 (bezier (P 0 0) arch t) crossing <= matching) -> o = None).
  { intros [t|] H; [|reflexivity]. destruct (H t eq_refl) as [_ K]. exfalso. exact (Qcle_not_lt _ _ K (arch_far t)). }
  apply G. intros t H. exact (place _ _ _ _ _ _ H).
Qed.
