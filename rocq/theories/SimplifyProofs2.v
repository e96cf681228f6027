(** Removing what has no length. *)
From Coq Require Import List QArith Qcanon Bool Lia Lqa Setoid Arith.
From Verif Require Import SegmentModel SimplifyModel SimplifySpec SimplifyProofs.
Import ListNotations.
Local Open Scope Q_scope.

Definition places (s : point) (l : list sdata) (a : vec) : Prop := exists p d, In (p, d) (pieces s l) /\ on p d a.
Lemma places_cons : forall s d l a, places s (d :: l) a <-> on s d a \/ places (end_point d) l a.
Proof.
  intros s d l a. unfold places. cbn [pieces In]. split.
  - intros (p & e & [E|I] & O); [injection E as <- <-; left; exact O|right; exists p, e; split; assumption].
  - intros [O|(p & e & I & O)]; [exists s, d; split; [left; reflexivity|exact O]|exists p, e; split; [right; exact I|exact O]].
Qed.
Lemma tip_cons : forall s d l, tip s (d :: l) = tip (end_point d) l.
Proof.
  intros s d l. unfold tip. cbn [map]. destruct l as [|e l]; [reflexivity|]. cbn [map]. generalize (map end_point l). intros m.
  change (last (end_point d :: end_point e :: m) s) with (last (end_point e :: m) s). generalize (end_point e) as x. clear.
  induction m as [|y m IH]; intros x; [reflexivity|]. change (last (y :: m) s = last (y :: m) (end_point d)). apply IH.
Qed.
Lemma tip_last : forall s l d, tip s (l ++ [d]) = end_point d.
Proof. intros s l d. revert s. induction l as [|e l IH]; intros s; [reflexivity|]. cbn [app]. rewrite tip_cons. apply IH. Qed.
Lemma tip_app : forall s a b, tip s (a ++ b) = tip (tip s a) b.
Proof. intros s a b. revert s. induction a as [|d a IH]; intros s; [reflexivity|]. cbn [app]. rewrite !tip_cons. apply IH. Qed.
Lemma pieces_app : forall s a b, pieces s (a ++ b) = pieces s a ++ pieces (tip s a) b.
Proof. intros s a b. revert s. induction a as [|d a IH]; intros s; [reflexivity|]. cbn [app pieces]. rewrite tip_cons, IH. reflexivity. Qed.
Lemma places_app : forall s l m a, places s (l ++ m) a <-> places s l a \/ places (tip s l) m a.
Proof.
  intros s l m a. unfold places. rewrite pieces_app. split.
  - intros (p & d & I & O). apply in_app_iff in I. destruct I; [left|right]; exists p, d; split; assumption.
  - intros [(p & d & I & O)|(p & d & I & O)]; exists p, d; split; try assumption; apply in_app_iff; [left|right]; assumption.
Qed.

Lemma traced_places : forall c g a, traced c g a <-> a = xy (s_start g) \/ places (s_start g) (s_data g) a \/ (c = true /\ on (tip (s_start g) (s_data g)) (LineTo (s_start g)) a).
Proof. intros c g a. unfold traced, places, parts. tauto. Qed.

(** The same piece from another start. *)
Lemma moved : forall r s s' d a, ~ is_arc d -> nigh r (xy s) (xy s') -> on s d a -> exists a', on s' d a' /\ nigh r a a'.
Proof.
  intros r s s' d a NA N O. destruct O as [p t T|c e p t T].
  - exists (on_line t (xy s') (xy p)). split; [constructor; exact T|]. apply line_nigh; [exact T|exact N|apply nigh_refl].
  - exists (on_cubic t (xy s') (xy c) (xy e) (xy p)). split; [constructor; exact T|]. apply cubic_nigh; try apply nigh_refl; [exact T|exact N].
Qed.
Lemma tiny_place : forall t s d a, 0 < tol t -> tiny t (s, d) -> on s d a -> nigh (tol t) a (xy s).
Proof.
  intros t s d a T0 H O. assert (N : forall q, In q (points d) -> nigh (tol t) (xy q) (xy s)).
  { intros q I. specialize (H q I). unfold nigh. cbn [fst] in H. lra. }
  destruct O as [p k K|c e p k K].
  - apply nigh_respects with (a := on_line k (xy s) (xy p)) (b := on_line k (xy s) (xy s)); try reflexivity; try apply line_still.
    apply line_nigh; [exact K|apply nigh_refl|apply N; left; reflexivity].
  - apply nigh_respects with (a := on_cubic k (xy s) (xy c) (xy e) (xy p)) (b := on_cubic k (xy s) (xy s) (xy s) (xy s)); try reflexivity; try apply cubic_still.
    apply cubic_nigh; [exact K|apply nigh_refl| | |]; apply N; cbn; tauto.
Qed.
Lemma end_in : forall d, In (end_point d) (points d).
Proof. destruct d; cbn; tauto. Qed.
Lemma zero_tiny : forall t s d, is_zero t s d = true -> tiny t (s, d).
Proof.
  intros t s d H q I. cbn [fst snd] in *. destruct d as [p|c1 c2 p|rx ry ro la sw p]; cbn in H, I.
  - destruct I as [<-|[]]. apply near_dist. exact H.
  - apply andb_true_iff in H. destruct H as [H H3]. apply andb_true_iff in H. destruct H as [H1 H2].
    destruct I as [<-|[<-|[<-|[]]]]; apply near_dist; assumption.
  - destruct I as [<-|[]]. apply andb_true_iff in H. apply near_dist. apply H.
Qed.

Definition times (n : nat) (r : Q) : Q := inject_Z (Z.of_nat n) * r.
Lemma times_S : forall n r, times (S n) r == times n r + r.
Proof. intros. unfold times. rewrite Nat2Z.inj_succ. unfold Z.succ. rewrite inject_Z_plus. ring. Qed.
Lemma times_pos : forall n r, 0 <= r -> 0 <= times n r.
Proof. intros n r R. induction n as [|n IH]; [unfold times; change (inject_Z (Z.of_nat 0)) with 0; lra|]. rewrite times_S. lra. Qed.
Lemma times_le : forall n m r, 0 <= r -> (n <= m)%nat -> times n r <= times m r.
Proof. intros n m r R H. induction H as [|m H IH]; [lra|]. rewrite times_S. lra. Qed.
Lemma nigh_Q : forall r s a b, r == s -> nigh r a b -> nigh s a b.
Proof. intros r s a b E. unfold nigh. rewrite E. exact (fun H => H). Qed.

(** [k] tiny pieces have been removed just before. *)
Lemma noop_places : forall t n l s s' k, 0 < tol t -> (forall d, In d l -> ~ is_arc d) -> nigh (times k (tol t)) (xy s) (xy s') -> (k <= n)%nat ->
  (forall b c, pieces s l = b ++ c -> (forall p, In p b -> tiny t p) -> (k + List.length b <= n)%nat) ->
  (forall a b c, pieces s l = a ++ b ++ c -> (forall p, In p b -> tiny t p) -> (List.length b <= n)%nat) ->
  (forall a, places s l a -> exists b, (b = xy s' \/ places s' (noop_data t s l) b) /\ nigh (times n (tol t)) a b) /\
  (forall b, places s' (noop_data t s l) b -> exists a, places s l a /\ nigh (times n (tol t)) b a) /\
  nigh (times n (tol t)) (xy (tip s l)) (xy (tip s' (noop_data t s l))).
Proof.
  intros t n l. induction l as [|d l IH]; intros s s' k T0 NA N K R1 R2.
  { cbn. split; [|split].
    - intros a (p & e & [] & _).
    - intros a (p & e & [] & _).
    - unfold tip. cbn. apply nigh_mono with (r := times k (tol t)); [apply times_pos; lra|apply times_le; [lra|exact K]|exact N]. }
  cbn [noop_data]. destruct (is_zero t s d) eqn:Z.
  - apply zero_tiny in Z.
    assert (K' : (S k <= n)%nat).
    { specialize (R1 [(s, d)] (pieces (end_point d) l) eq_refl). cbn in R1. assert (forall p, (s, d) = p \/ False -> tiny t p) by (intros p [<-|[]]; exact Z). specialize (R1 H). lia. }
    assert (N' : nigh (times (S k) (tol t)) (xy (end_point d)) (xy s')).
    { apply nigh_Q with (r := tol t + times k (tol t)); [rewrite times_S; ring|]. apply nigh_trans with (b := xy s); [lra|apply times_pos; lra| |exact N].
      specialize (Z _ (end_in d)). unfold nigh. cbn [fst] in Z. lra. }
    specialize (IH (end_point d) s' (S k) T0 (fun e I => NA e (or_intror I)) N' K').
    destruct IH as (A & B & C).
    + intros b c E H. specialize (R1 ((s, d) :: b) c). cbn [pieces app] in R1. rewrite E in R1. specialize (R1 eq_refl).
      cbn [List.length] in R1. assert (forall p, In p ((s, d) :: b) -> tiny t p) by (intros p [<-|I]; [exact Z|apply H; exact I]). specialize (R1 H0). lia.
    + intros a b c E H. apply (R2 ((s, d) :: a) b c); [cbn [pieces app]; rewrite E; reflexivity|exact H].
    + split; [|split].
      * intros a P. apply places_cons in P. destruct P as [O|P]; [|apply A, P].
        exists (xy s'). split; [left; reflexivity|]. apply nigh_mono with (r := times (S k) (tol t)); [apply times_pos; lra|apply times_le; [lra|exact K']|].
        apply nigh_Q with (r := tol t + times k (tol t)); [rewrite times_S; ring|]. apply nigh_trans with (b := xy s); [lra|apply times_pos; lra| |exact N].
        apply tiny_place with (d := d); assumption.
      * intros b P. destruct (B b P) as (a & Pa & Na). exists a. split; [apply places_cons; right; exact Pa|exact Na].
      * rewrite tip_cons. exact C.
  - assert (N' : nigh (times 0 (tol t)) (xy (end_point d)) (xy (end_point d))) by apply nigh_refl.
    specialize (IH (end_point d) (end_point d) 0%nat T0 (fun e I => NA e (or_intror I)) N' ltac:(lia)).
    destruct IH as (A & B & C).
    + intros b c E H. apply (R2 [(s, d)] b c); [cbn [pieces app]; rewrite E; reflexivity|exact H].
    + intros a b c E H. apply (R2 ((s, d) :: a) b c); [cbn [pieces app]; rewrite E; reflexivity|exact H].
    + assert (Nn : nigh (times n (tol t)) (xy s) (xy s')) by (apply nigh_mono with (r := times k (tol t)); [apply times_pos; lra|apply times_le; [lra|exact K]|exact N]).
      assert (NAd : ~ is_arc d) by (apply NA; left; reflexivity).
      split; [|split].
      * intros a P. apply places_cons in P. destruct P as [O|P].
        -- destruct (moved _ s s' d a NAd Nn O) as (a' & O' & M). exists a'. split; [right; apply places_cons; left; exact O'|exact M].
        -- destruct (A a P) as (b & [E|Pb] & M); [|exists b; split; [right; apply places_cons; right; exact Pb|exact M]].
           (* the end of the piece *)
           destruct d as [p|c1 c2 p|]; [| |exfalso; apply NAd; exact Logic.I]; cbn [end_point] in *.
           ++ exists (on_line 1 (xy s') (xy p)). split; [right; apply places_cons; left; constructor; lra|].
              apply nigh_Q with (r := times n (tol t) + 0); [ring|]. apply nigh_trans with (b := b); [apply times_pos; lra|lra|exact M|]. subst b. apply nigh_sym, line_end.
           ++ exists (on_cubic 1 (xy s') (xy c1) (xy c2) (xy p)). split; [right; apply places_cons; left; constructor; lra|].
              apply nigh_Q with (r := times n (tol t) + 0); [ring|]. apply nigh_trans with (b := b); [apply times_pos; lra|lra|exact M|]. subst b.
              apply nigh_eq; unfold on_cubic, cubic_at; cbn; ring.
      * intros b P. apply places_cons in P. destruct P as [O|P].
        -- destruct (moved _ s' s d b NAd (nigh_sym _ _ _ Nn) O) as (a & Oa & M). exists a. split; [apply places_cons; left; exact Oa|exact M].
        -- destruct (B b P) as (a & Pa & M). exists a. split; [apply places_cons; right; exact Pa|exact M].
      * rewrite !tip_cons. exact C.
Qed.

(** Segments one by one. *)
Lemma alike_map : forall r (c : segment -> bool) f gs, (forall g, In g gs -> alike r (traced (c g) g) (traced (c (f g)) (f g))) ->
  alike r (fun a => exists g, In g gs /\ traced (c g) g a) (fun a => exists g, In g (map f gs) /\ traced (c g) g a).
Proof.
  intros r c f gs H. split.
  - intros a (g & I & T). destruct (proj1 (H g I) a T) as (b & B & N). exists b. split; [|exact N]. exists (f g). split; [apply in_map, I|exact B].
  - intros b (g' & I & T). apply in_map_iff in I. destruct I as (g & <- & I). destruct (proj2 (H g I) b T) as (a & A & N). exists a. split; [|exact N]. exists g. split; assumption.
Qed.
Lemma alike_trans : forall r s A B C, 0 <= r -> 0 <= s -> alike r A B -> alike s B C -> alike (r + s) A C.
Proof.
  intros r s A B C R S [H1 H2] [H3 H4]. split.
  - intros a X. destruct (H1 a X) as (b & Y & N). destruct (H3 b Y) as (c & Z & M). exists c. split; [exact Z|]. apply nigh_trans with (b := b); assumption.
  - intros c Z. destruct (H4 c Z) as (b & Y & N). destruct (H2 b Y) as (a & X & M). exists a. split; [exact X|].
    apply nigh_Q with (r := s + r); [ring|]. apply nigh_trans with (b := b); assumption.
Qed.
Lemma alike_mono : forall r s A B, 0 <= r -> r <= s -> alike r A B -> alike s A B.
Proof.
  intros r s A B R S [H1 H2]. split; intros a X; [destruct (H1 a X) as (b & Y & N)|destruct (H2 a X) as (b & Y & N)]; exists b; (split; [exact Y|eapply nigh_mono; eassumption]).
Qed.
Lemma alike_refl : forall r A, alike r A A.
Proof. intros r A. split; intros a X; exists a; (split; [exact X|apply nigh_refl]). Qed.
Lemma alike_Q : forall r s A B, r == s -> alike r A B -> alike s A B.
Proof. intros r s A B E [H1 H2]. split; intros a X; [destruct (H1 a X) as (b & Y & N)|destruct (H2 a X) as (b & Y & N)]; exists b; (split; [exact Y|eapply nigh_Q; eassumption]). Qed.

(** Segments whose data and ends are alike are alike. *)
Lemma traced_alike : forall r c c' s l l', 0 <= r -> c = c' ->
  (forall a, places s l a -> exists b, (b = xy s \/ places s l' b) /\ nigh r a b) ->
  (forall b, places s l' b -> exists a, (a = xy s \/ places s l a) /\ nigh r b a) ->
  nigh r (xy (tip s l)) (xy (tip s l')) -> forall z z', alike r (traced c (Seg s l z)) (traced c' (Seg s l' z')).
Proof.
  intros r c c' s l l' R <- A B T z z'. split.
  - intros a H. rewrite traced_places in H. cbn [s_start s_data] in H. destruct H as [->|[P|[Hc O]]].
    + exists (xy s). split; [left; reflexivity|apply nigh_refl].
    + destruct (A a P) as (b & H & N). exists b. split; [|exact N]. rewrite traced_places. cbn. tauto.
    + inversion O as [p k K E1 E2|]. subst. exists (on_line k (xy (tip s l')) (xy s)). split.
      * rewrite traced_places. right. right. split; [reflexivity|constructor; exact K].
      * apply line_nigh; [exact K|exact T|apply nigh_refl].
  - intros a H. rewrite traced_places in H. cbn [s_start s_data] in H. destruct H as [->|[P|[Hc O]]].
    + exists (xy s). split; [left; reflexivity|apply nigh_refl].
    + destruct (B a P) as (b & H & N). exists b. split; [|exact N]. rewrite traced_places. cbn. tauto.
    + inversion O as [p k K E1 E2|]. subst. exists (on_line k (xy (tip s l)) (xy s)). split.
      * rewrite traced_places. right. right. split; [reflexivity|constructor; exact K].
      * apply line_nigh; [exact K|apply nigh_sym, T|apply nigh_refl].
Qed.
Lemma noop_alike : forall t n gs, 0 < tol t -> no_arcs gs -> tiny_runs t n gs ->
  alike (times n (tol t)) (stroked gs) (stroked (map (with_data (noop_data t)) gs)).
Proof.
  intros t n gs T0 NA TR. unfold stroked. apply (alike_map _ s_closed). intros g I.
  destruct (noop_places t n (s_data g) (s_start g) (s_start g) 0 T0 (fun d => NA g d I)) as (A & B & C).
  - apply nigh_refl.
  - lia.
  - intros b c E H. apply (TR g [] b c I); [exact E|exact H].
  - intros a b c E H. apply (TR g a b c I); [exact E|exact H].
  - destruct g as [s l z]. cbn [with_data s_start s_data s_closed] in *. apply traced_alike; [apply times_pos; lra|reflexivity|exact A| |exact C].
    intros b P. destruct (B b P) as (a & X & Y). exists a. split; [right; exact X|exact Y].
Qed.

(** The line to the start goes. *)
Lemma pop_line_shape : forall t s l, pop_line t s l = l \/ exists m p, l = m ++ [LineTo p] /\ pop_line t s l = m /\ SegmentModel.near t p s = true.
Proof.
  intros t s l. induction l as [|d l IH]; [left; reflexivity|]. destruct l as [|e l].
  - destruct d; cbn; try (left; reflexivity). destruct (SegmentModel.near t p s) eqn:N; [right; exists [], p; repeat split; assumption|left; reflexivity].
  - assert (E : pop_line t s (d :: e :: l) = d :: pop_line t s (e :: l)) by (destruct d; reflexivity). rewrite E.
    destruct IH as [->|(m & p & -> & -> & N)]; [left; reflexivity|]. right. exists (d :: m), p. repeat split; assumption.
Qed.
Lemma popped : forall t s m p z z', 0 < tol t -> SegmentModel.near t p s = true -> alike (tol t) (traced true (Seg s (m ++ [LineTo p]) z)) (traced true (Seg s m z')).
Proof.
  intros t s m p z z' T0 N. apply near_nigh in N. split.
  - intros a H. rewrite traced_places in H. cbn [s_start s_data] in H. destruct H as [->|[P|[_ O]]].
    + exists (xy s). split; [left; reflexivity|apply nigh_refl].
    + apply places_app in P. destruct P as [P|P].
      * exists a. split; [rewrite traced_places; right; left; exact P|apply nigh_refl].
      * apply places_cons in P. destruct P as [O|(q & d & [] & _)]. inversion O as [q k K E1 E2|]. subst.
        exists (on_line k (xy (tip s m)) (xy s)). split; [rewrite traced_places; right; right; split; [reflexivity|constructor; exact K]|].
        apply line_nigh; [exact K|apply nigh_refl|exact N].
    + rewrite tip_last in O. cbn [end_point] in O. inversion O as [q k K E1 E2|]. subst. exists (xy s). split; [left; reflexivity|].
      apply nigh_respects with (a := on_line k (xy p) (xy s)) (b := on_line k (xy s) (xy s)); try reflexivity; try apply line_still.
      apply line_nigh; [exact K|exact N|apply nigh_refl].
  - intros a H. rewrite traced_places in H. cbn [s_start s_data] in H. destruct H as [->|[P|[_ O]]].
    + exists (xy s). split; [left; reflexivity|apply nigh_refl].
    + exists a. split; [rewrite traced_places; right; left; apply places_app; left; exact P|apply nigh_refl].
    + inversion O as [q k K E1 E2|]. subst. exists (on_line k (xy (tip s m)) (xy p)). split.
      * rewrite traced_places. right. left. apply places_app. right. apply places_cons. left. constructor. exact K.
      * apply line_nigh; [exact K|apply nigh_refl|apply nigh_sym, N].
Qed.
Lemma pop_last_alike : forall t gs, 0 < tol t -> alike (tol t) (stroked gs) (stroked (pop_last t gs)).
Proof.
  intros t gs T0. induction gs as [|g gs IH]; [apply alike_refl|]. destruct gs as [|h gs].
  - cbn [pop_last]. destruct g as [s l z]. cbn [s_closed]. destruct z; [|apply alike_refl].
    unfold with_data. cbn [s_start s_data s_closed]. destruct (pop_line_shape t s l) as [E|(m & p & -> & E & N)]; rewrite E; [apply alike_refl|].
    pose proof (popped t s m p true true T0 N) as [A B]. split.
    + intros a (g & [<-|[]] & H). destruct (A a H) as (b & Hb & M). exists b. split; [eexists; split; [left; reflexivity|exact Hb]|exact M].
    + intros a (g & [<-|[]] & H). destruct (B a H) as (b & Hb & M). exists b. split; [eexists; split; [left; reflexivity|exact Hb]|exact M].
  - change (pop_last t (g :: h :: gs)) with (g :: pop_last t (h :: gs)). destruct IH as [A B]. split.
    + intros a (x & [<-|I] & H); [exists a; split; [exists g; split; [left; reflexivity|exact H]|apply nigh_refl]|].
      destruct (A a (ex_intro _ x (conj I H))) as (b & (y & J & Hb) & M). exists b. split; [exists y; split; [right; exact J|exact Hb]|exact M].
    + intros a (x & [<-|I] & H); [exists a; split; [exists g; split; [left; reflexivity|exact H]|apply nigh_refl]|].
      destruct (B a (ex_intro _ x (conj I H))) as (b & (y & J & Hb) & M). exists b. split; [exists y; split; [right; exact J|exact Hb]|exact M].
Qed.
Lemma remove_noop_alike : forall t n gs, 0 < tol t -> no_arcs gs -> tiny_runs t n gs ->
  alike (inject_Z (Z.of_nat (S n)) * tol t) (stroked gs) (stroked (remove_noop_commands t gs)).
Proof.
  intros t n gs T0 NA TR. apply alike_Q with (r := times n (tol t) + tol t); [fold (times (S n) (tol t)); rewrite times_S; reflexivity|].
  apply alike_trans with (B := stroked (map (with_data (noop_data t)) gs)); [apply times_pos; lra|lra|apply noop_alike; assumption|apply pop_last_alike; exact T0].
Qed.

(** The rest. *)
Lemma close_line_alike : forall t gs, 0 < tol t -> alike (tol t) (outlined gs) (outlined (SimplifyModel.remove_close_line t gs)).
Proof.
  intros t gs T0. unfold outlined. apply (alike_map _ (fun _ => true)). intros [s l z] I. unfold close_line. cbn [s_closed s_data s_start].
  destruct z; [|apply alike_refl]. destruct l as [|d l]; [apply alike_refl|].
  assert (E : exists m e, d :: l = m ++ [e]) by (destruct (exists_last (l := d :: l) ltac:(discriminate)) as (m & e & E); exists m, e; exact E).
  destruct E as (m & e & E). rewrite E. rewrite last_last, removelast_last.
  destruct e as [p|c1 c2 p|rx ry ro la sw p]; try apply alike_refl. destruct (SegmentModel.near t s p) eqn:N; [|apply alike_refl].
  apply popped; [exact T0|]. apply near_dist. apply near_dist in N. unfold dist2 in *. nra.
Qed.
Lemma empty_same : forall gs a, (exists g, In g gs /\ s_data g <> [] /\ traced (s_closed g) g a) <-> stroked (SimplifyModel.remove_empty_segments gs) a.
Proof.
  intros gs a. unfold stroked, SimplifyModel.remove_empty_segments. split.
  - intros (g & I & N & H). exists g. split; [|exact H]. apply filter_In. split; [exact I|]. destruct (s_data g); [congruence|reflexivity].
  - intros (g & I & H). apply filter_In in I. destruct I as [I E]. exists g. split; [exact I|]. split; [|exact H]. destruct (s_data g); [discriminate|discriminate].
Qed.
Lemma close_alike : forall gs, alike 0 (outlined gs) (outlined (SimplifyModel.close_segments gs)).
Proof.
  intros gs. unfold outlined. apply (alike_map _ (fun _ => true)). intros [s l z] I. cbn [s_closed s_data s_start]. destruct z; [apply alike_refl|]. split.
  - intros a H. rewrite traced_places in H. cbn [s_start s_data] in H. destruct H as [->|[P|[_ O]]].
    + exists (xy s). split; [left; reflexivity|apply nigh_refl].
    + exists a. split; [rewrite traced_places; right; left; apply places_app; left; exact P|apply nigh_refl].
    + exists a. split; [rewrite traced_places; right; left; apply places_app; right; apply places_cons; left; exact O|apply nigh_refl].
  - intros a H. rewrite traced_places in H. cbn [s_start s_data] in H. destruct H as [->|[P|[_ O]]].
    + exists (xy s). split; [left; reflexivity|apply nigh_refl].
    + apply places_app in P. destruct P as [P|P].
      * exists a. split; [rewrite traced_places; right; left; exact P|apply nigh_refl].
      * apply places_cons in P. destruct P as [O|(q & d & [] & _)]. exists a. split; [rewrite traced_places; right; right; split; [reflexivity|exact O]|apply nigh_refl].
    + rewrite tip_last in O. cbn [end_point] in O. inversion O as [q k K E1 E2|]. subst. exists (xy s). split; [left; reflexivity|].
      apply nigh_eq; apply line_still.
Qed.
