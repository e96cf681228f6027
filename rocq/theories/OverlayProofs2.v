From Coq Require Import List NArith ZArith QArith Qcanon Bool Arith Lia Lqa.
From Verif Require Import SegmentModel SimplifyModel SimplifyProofs BezierModel BezierSpec BezierProofs BezierProofs2 OverlayModel OverlaySpec OverlayProofs.
Import ListNotations.
Local Close Scope Q_scope.
Local Open Scope Qc_scope.
Local Strategy 1000 [t_at coords].

(** ** Paths to polygons *)
Lemma piece_spec : forall p d, exists pts, piece_coords p d = Some (ends_at d, pts) /\ outline p d (p :: pts).
Proof.
  intros p [q|c]; cbn [piece_coords ends_at outline]; [exists [q]; split; reflexivity|].
  destruct (coords_points usual p c) as (n & I & E & _). rewrite E.
  exists (tl (map (fun i => bezier p c (frac i n)) (seq 0 (S (Pos.to_nat n))))). split; [reflexivity|]. exists n. split; [exact I|].
  assert (Z : bezier p c (frac 0 n) = p) by (rewrite frac_zero; exact (proj1 (bezier_ends p c))). cbn [seq map tl]. rewrite Z. reflexivity.
Qed.
Lemma flatten_loop_spec : forall l id p, exists ps reg, flatten_loop id p l = Some (ps, reg) /\ pieces id p l reg /\ ps = flat_map (fun s => tl (s_contour s)) reg.
Proof.
  induction l as [|d l IH]; intros id p; [exists [], []; split; [reflexivity|]; split; [constructor|reflexivity]|].
  cbn [flatten_loop]. destruct (piece_spec p d) as (pts & -> & O). destruct (IH (S id) (ends_at d)) as (ps & reg & -> & Q & E).
  exists (pts ++ ps), (Source id d p (p :: pts) :: reg). split; [reflexivity|]. split; [constructor; assumption|]. cbn [flat_map s_contour tl]. now rewrite E.
Qed.
Lemma flatten_segment_spec : forall id g, exists ps reg, flatten_segment id g = Some (ps, reg) /\ pieces id (g_start g) (g_data g) reg /\
  (g_data g = [] -> ps = []) /\ (g_data g <> [] -> ps = g_start g :: flat_map (fun s => tl (s_contour s)) reg).
Proof.
  intros id [s l c]. unfold flatten_segment. cbn [g_start g_data]. destruct l as [|d l]; [exists [], []; split; [reflexivity|]; split; [constructor|]; split; [reflexivity|congruence]|].
  destruct (flatten_loop_spec (d :: l) id s) as (ps & reg & -> & Q & E). exists (s :: ps), reg. split; [reflexivity|]. split; [exact Q|]. split; [discriminate|]. intros _. now rewrite E.
Qed.
Lemma pieces_ids : forall id p l reg, pieces id p l reg -> map s_id reg = seq id (List.length reg).
Proof. intros id p l reg H. induction H as [|id p d ds l ss O Q IH]; [reflexivity|]. cbn [map List.length seq s_id]. now rewrite IH. Qed.
Lemma flatten_path_spec : forall l id, exists rings reg, flatten_path id l = Some (rings, reg) /\ map s_id reg = seq id (List.length reg).
Proof.
  induction l as [|g l IH]; intros id; [exists [], []; split; reflexivity|]. cbn [flatten_path].
  destruct (flatten_segment_spec id g) as (ps & reg & -> & Q & _). destruct (IH (id + List.length reg)%nat) as (rings & reg' & -> & E).
  exists (ps :: rings), (reg ++ reg'). split; [reflexivity|]. rewrite map_app, app_length, seq_app, E, (pieces_ids _ _ _ _ Q). reflexivity.
Qed.
Lemma flatten_all_spec : forall simplify l id, exists shapes reg, flatten_all simplify id l = Some (shapes, reg) /\ map s_id reg = seq id (List.length reg) /\ List.length shapes = List.length l.
Proof.
  intros simplify. induction l as [|[g e] l IH]; intros id; [exists [], []; repeat split|]. cbn [flatten_all].
  destruct (flatten_path_spec g id) as (rings & reg & -> & Q). destruct (IH (id + List.length reg)%nat) as (shapes & reg' & -> & E & L).
  exists (simplify e rings :: shapes), (reg ++ reg'). split; [reflexivity|]. split; [|cbn [List.length]; now rewrite L]. rewrite map_app, app_length, seq_app, E, Q. reflexivity.
Qed.
Lemma ids_numbered : forall reg id, map s_id reg = seq id (List.length reg) -> numbered reg.
Proof.
  intros reg id E s s' I J K. assert (N : NoDup (map s_id reg)) by (rewrite E; apply seq_NoDup). clear E. induction reg as [|x reg IH]; [destruct I|].
  cbn [map] in N. inversion N as [|y z N1 N2]; subst. destruct I as [<-|I], J as [<-|J]; [reflexivity| | |apply IH; assumption].
  - exfalso. apply N1. rewrite K. apply in_map. exact J.
  - exfalso. apply N1. rewrite <- K. apply in_map. exact I.
Qed.

(** ** Distances *)
Lemma line_distance_spec : forall a b p, exists q, on_line a b q /\ line_distance a b p = dist2 p q.
Proof.
  intros a b p. unfold line_distance. destruct (Qc_eq_bool _ 0).
  - exists a. split; [|apply distance_dist2]. exists 0. split; [split; vm_compute; discriminate|]. destruct a as [x y]. cbn [px py]. f_equal; ring.
  - set (t := clamp_unit _). exists (padd a (pmul (psub b a) t)). split; [|apply distance_dist2]. exists t. split; [apply clamp_unit_unit|]. reflexivity.
Qed.
Lemma project_spec : forall p l best d, project p l best = Some d -> best = Some d \/ exists a b q, In (a, b) l /\ on_line a b q /\ d = dist2 p q.
Proof.
  intros p l. induction l as [|[a b] l IH]; intros best d H; [left; exact H|]. cbn [project] in H. apply IH in H.
  destruct (line_distance_spec a b p) as (q & O & E).
  destruct H as [H|(a' & b' & q' & I & O' & E')]; [|right; exists a', b', q'; split; [right; exact I|split; assumption]].
  assert (K : line_distance a b p = d -> exists a b q, In (a, b) ((a, b) :: l) /\ on_line a b q /\ d = dist2 p q) by (intros <-; exists a, b, q; split; [left; reflexivity|split; assumption]).
  assert (N : line_distance a b p = d -> best = Some d \/ (exists a0 b0 q0, In (a0, b0) ((a, b) :: l) /\ on_line a0 b0 q0 /\ d = dist2 p q0))
    by (intros <-; right; exists a, b, q; split; [left; reflexivity|split; assumption]).
  destruct best as [m|]; [destruct (ltb (line_distance a b p) m)|]; [injection H; exact N|left; exact H|injection H; exact N].
Qed.
Lemma project_near : forall p l d, project p (windows l) None = Some d -> ltb d matching = true -> near_contour matching l p.
Proof.
  intros p l d H L. destruct (project_spec _ _ _ _ H) as [E|(a & b & q & I & O & E)]; [discriminate|]. exists a, b, q. split; [exact I|]. split; [exact O|]. rewrite <- E. apply ltb_true in L. exact L.
Qed.
Lemma find_loop_spec : forall closer a b l found s, find_loop closer a b l found = Some s -> option_map fst found = Some s \/ (In s l /\ along matching (s_contour s) (a, b)).
Proof.
  intros closer a b l. induction l as [|x l IH]; intros found s H; [left; exact H|]. cbn [find_loop] in H.
  assert (S : forall f, find_loop closer a b l f = Some s -> option_map fst f = Some s \/ (In s (x :: l) /\ along matching (s_contour s) (a, b))).
  { intros f F. destruct (IH f s F) as [K|[K K']]; [left; exact K|right; split; [right; exact K|exact K']]. }
  destruct (from_coords (s_contour x)) as [bx|]; [|apply S; exact H]. destruct (intersects bx (new_box a b)); [|apply S; exact H].
  destruct (project a (windows (s_contour x)) None) as [da|] eqn:EA; [|apply S; exact H].
  destruct (project b (windows (s_contour x)) None) as [db|] eqn:EB; [|apply S; exact H].
  destruct (project (midpoint a b) (windows (s_contour x)) None) as [dm|] eqn:EM; [|apply S; exact H].
  destruct (ltb da matching) eqn:LA; [|apply S; exact H]. destruct (ltb db matching) eqn:LB; [|apply S; exact H]. destruct (ltb dm matching) eqn:LM; [|apply S; exact H]. cbn [andb] in H.
  assert (A : along matching (s_contour x) (a, b)) by (split; [exact (project_near _ _ _ EA LA)|split; [exact (project_near _ _ _ EB LB)|exact (project_near _ _ _ EM LM)]]).
  assert (T : find_loop closer a b l (Some (x, (da, db, dm))) = Some s -> In s (x :: l) /\ along matching (s_contour s) (a, b)).
  { intros F. destruct (S _ F) as [K|K]; [|exact K]. injection K as <-. split; [left; reflexivity|exact A]. }
  destruct found as [[y best]|]; [destruct (closer (da, db, dm) best)|]; [right; apply T; exact H|apply S; exact H|right; apply T; exact H].
Qed.
Lemma find_matching_spec : forall closer reg a b s, find_matching closer reg a b = Some s -> In s reg /\ along matching (s_contour s) (a, b).
Proof. intros closer reg a b s H. destruct (find_loop_spec _ _ _ _ _ _ H) as [K|K]; [discriminate|exact K]. Qed.

(** ** Actions *)
(** Actions, the last first, that go through points. *)
Inductive covers (reg : list source) : list point -> list action -> Prop :=
| covers_one a : covers reg [a] []
| covers_line pre a b d : covers reg (pre ++ [a]) d -> covers reg (pre ++ [a; b]) (Straight b :: d)
| covers_piece pre a m b s d : covers reg (pre ++ [a]) d -> In s reg -> Forall (along matching (s_contour s)) (windows (a :: m ++ [b])) -> covers reg (pre ++ a :: m ++ [b]) (Original s a b :: d).
Lemma windows_snoc : forall {A} (l : list A) a b, windows (l ++ [a; b]) = windows (l ++ [a]) ++ [(a, b)].
Proof.
  intros A l. induction l as [|x l IH]; intros a b; [reflexivity|]. cbn [app]. destruct l as [|y l]; [reflexivity|]. specialize (IH a b). cbn [app] in *.
  change (windows (x :: y :: l ++ [a; b])) with ((x, y) :: windows (y :: l ++ [a; b])). rewrite IH. reflexivity.
Qed.
Lemma covers_piece' : forall reg pre pts a b s d, pts = pre ++ [a] -> covers reg pts d -> In s reg -> along matching (s_contour s) (a, b) -> covers reg (pts ++ [b]) (Original s a b :: d).
Proof.
  intros reg pre pts a b s d -> C I A. rewrite <- app_assoc. cbn [app]. apply (covers_piece reg pre a [] b s d); [exact C|exact I|]. cbn [app windows]. constructor; [exact A|constructor].
Qed.
Lemma actions_covers : forall closer reg, numbered reg -> forall l a pts pre done, pts = pre ++ [a] -> covers reg pts done ->
  exists d, actions closer reg (windows (a :: l)) done = rev d /\ covers reg (pts ++ l) d.
Proof.
  intros closer reg NR l. induction l as [|b l IH]; intros a pts pre done E C.
  - cbn [windows actions]. exists done. split; [reflexivity|]. now rewrite app_nil_r.
  - change (windows (a :: b :: l)) with ((a, b) :: windows (b :: l)). cbn [actions].
    assert (G : forall done', covers reg (pts ++ [b]) done' -> exists d, actions closer reg (windows (b :: l)) done' = rev d /\ covers reg (pts ++ b :: l) d).
    { intros done' C'. destruct (IH b (pts ++ [b]) pts done' eq_refl C') as (d & E1 & E2). exists d. split; [exact E1|]. rewrite <- app_assoc in E2. exact E2. }
    destruct (find_matching closer reg a b) as [s|] eqn:F.
    + destruct (find_matching_spec _ _ _ _ _ F) as [I A].
      assert (N : exists d, actions closer reg (windows (b :: l)) (Original s a b :: done) = rev d /\ covers reg (pts ++ b :: l) d) by (apply G; apply (covers_piece' reg pre); assumption).
      destruct done as [|[s' from to|to] d0]; [exact N| |exact N].
      destruct (Nat.eqb_spec (s_id s) (s_id s')) as [K|K]; [|exact N].
      apply G. inversion C as [|pre' a' b' d' C' X1 X2|pre' a' m b' s'' d' C' I' A' X1 X2]; subst.
      assert (SS : s = s') by (apply NR; assumption). subst s'.
      assert (BA : to = a /\ pre = pre' ++ from :: m).
      { rewrite app_comm_cons, app_assoc in X1. apply app_inj_tail in X1. destruct X1 as [X1 X3]. split; [exact X3|]. rewrite X1. now rewrite <- ?app_assoc. }
      destruct BA as [-> ->].
      replace ((pre' ++ from :: m) ++ [a]) with (pre' ++ from :: m ++ [a]) by (rewrite <- app_assoc; reflexivity).
      replace ((pre' ++ from :: m ++ [a]) ++ [b]) with (pre' ++ from :: (m ++ [a]) ++ [b]) by (rewrite <- !app_assoc; cbn [app]; rewrite <- !app_assoc; reflexivity).
      apply covers_piece; [exact C'|exact I'|]. replace (from :: (m ++ [a]) ++ [b]) with ((from :: m) ++ [a; b]) by (cbn [app]; rewrite <- app_assoc; reflexivity).
      rewrite windows_snoc. apply Forall_app. split; [exact A'|]. constructor; [exact A|constructor].
    + apply G. subst pts. rewrite <- app_assoc. cbn [app]. apply covers_line. exact C.
Qed.
