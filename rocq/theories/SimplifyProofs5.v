(** All passes for lines on a grid. *)
From Coq Require Import List QArith Qcanon Bool Lia Lqa Setoid Arith.
From Verif Require Import SegmentModel OptionsModel SimplifyModel SimplifySpec SimplifyProofs SimplifyProofs2 SimplifyProofs3 SimplifyProofs4.
Import ListNotations.
Local Open Scope Q_scope.

Lemma grid_near : forall h t a b, 0 < tol t -> tol t < h -> on_grid h a -> on_grid h b -> SegmentModel.near t a b = true <-> a = b.
Proof.
  intros h t a b T TH (a1 & a2 & A1 & A2) (b1 & b2 & B1 & B2). rewrite near_dist. split.
  - intros N.
    assert (E : dist2 (xy a) (xy b) == (inject_Z (a1 - b1) * inject_Z (a1 - b1) + inject_Z (a2 - b2) * inject_Z (a2 - b2)) * (h * h)).
    { unfold dist2, xy. cbn [fst snd]. rewrite A1, A2, B1, B2. unfold Z.sub. rewrite !inject_Z_plus, !inject_Z_opp. ring. }
    rewrite E in N. set (m := (a1 - b1)%Z) in *. set (n := (a2 - b2)%Z) in *.
    assert (W : (m * m + n * n)%Z = 0%Z).
    { destruct (Z.eq_dec (m * m + n * n) 0) as [Z|Z]; [exact Z|exfalso].
      assert (O : (1 <= m * m + n * n)%Z) by nia. rewrite Zle_Qle, inject_Z_plus, !inject_Z_mult in O. change (inject_Z 1) with 1 in O.
      assert (0 < h * h) by nra. assert (tol t * tol t < h * h) by nra. nra. }
    assert (M : m = 0%Z) by nia. assert (M' : n = 0%Z) by nia. unfold m, n in *.
    assert (F1 : a1 = b1) by lia. assert (F2 : a2 = b2) by lia. subst a1 a2. destruct a as [ax ay], b as [bx by']. cbn [px py] in *. f_equal; apply Qc_is_canon; [rewrite A1, B1|rewrite A2, B2]; reflexivity.
  - intros ->. assert (E : dist2 (xy b) (xy b) == 0) by (unfold dist2; ring). rewrite E. nra.
Qed.
Lemma grid_near_same : forall h t t' a b, 0 < tol t -> tol t < h -> 0 < tol t' -> tol t' < h -> on_grid h a -> on_grid h b -> SegmentModel.near t a b = SegmentModel.near t' a b.
Proof.
  intros h t t' a b T TH T' TH' A B. assert (E := grid_near h t a b T TH A B). assert (E' := grid_near h t' a b T' TH' A B).
  destruct (SegmentModel.near t a b), (SegmentModel.near t' a b); try reflexivity; exfalso.
  - assert (X : false = true) by (apply E', E; reflexivity). discriminate.
  - assert (X : false = true) by (apply E, E'; reflexivity). discriminate.
Qed.
Definition lined (h : Q) (s : point) (l : list sdata) : Prop := on_grid h s /\ forall d, In d l -> exists p, d = LineTo p /\ on_grid h p.
Lemma lined_tail : forall h s d l, lined h s (d :: l) -> exists p, d = LineTo p /\ lined h p l /\ on_grid h p.
Proof.
  intros h s d l [S H]. destruct (H d (or_introl eq_refl)) as (p & -> & G). exists p. split; [reflexivity|]. split; [|exact G]. split; [exact G|]. intros e I. apply H. right. exact I.
Qed.
Lemma noop_same : forall h t t' l s, 0 < tol t -> tol t < h -> 0 < tol t' -> tol t' < h -> lined h s l -> noop_data t s l = noop_data t' s l.
Proof.
  intros h t t' l. induction l as [|d l IH]; intros s T TH T' TH' L; [reflexivity|]. destruct (lined_tail _ _ _ _ L) as (p & -> & Lp & G). cbn [noop_data is_zero end_point].
  rewrite (grid_near_same h t t' p s T TH T' TH' G (proj1 L)), (IH p T TH T' TH' Lp). reflexivity.
Qed.
Lemma noop_lined : forall h t l s, lined h s l -> lined h s (noop_data t s l).
Proof.
  intros h t l s [S H]. split; [exact S|]. intros d I. apply H. clear H S. revert s I. induction l as [|e l IH]; intros s I; [exact I|]. cbn [noop_data] in I. destruct (is_zero t s e).
  - right. exact (IH _ I).
  - destruct I as [<-|I]; [left; reflexivity|right; exact (IH _ I)].
Qed.
Lemma pop_same : forall h t t' l s, 0 < tol t -> tol t < h -> 0 < tol t' -> tol t' < h -> on_grid h s -> (forall d, In d l -> exists p, d = LineTo p /\ on_grid h p) -> pop_line t s l = pop_line t' s l.
Proof.
  intros h t t' l s T TH T' TH' S. induction l as [|d l IH]; intros H; [reflexivity|]. destruct (H d (or_introl eq_refl)) as (p & -> & G).
  cbn [pop_line]. rewrite (grid_near_same h t t' p s T TH T' TH' G S), (IH (fun e I => H e (or_intror I))). reflexivity.
Qed.
Definition all_lined (h : Q) (gs : list segment) : Prop := forall g, In g gs -> lined h (s_start g) (s_data g).
Lemma lined_of : forall h gs, gridded h gs -> only_lines gs -> all_lined h gs.
Proof.
  intros h gs G O g I. destruct (G g I) as [S D]. split; [exact S|]. intros d J. destruct (O g d I J) as (p & ->). exists p. split; [reflexivity|]. exact (D _ J).
Qed.
Lemma pop_last_same : forall h t t' gs, 0 < tol t -> tol t < h -> 0 < tol t' -> tol t' < h -> all_lined h gs -> pop_last t gs = pop_last t' gs.
Proof.
  intros h t t' gs T TH T' TH'. induction gs as [|g gs IH]; intros L; [reflexivity|]. cbn [pop_last]. rewrite (IH (fun e I => L e (or_intror I))).
  destruct gs; [|reflexivity]. destruct (s_closed g); [|reflexivity]. destruct (L g (or_introl eq_refl)) as [S H]. unfold with_data. rewrite (pop_same h t t' _ _ T TH T' TH' S H). reflexivity.
Qed.
Lemma noop_all_lined : forall h t gs, all_lined h gs -> all_lined h (map (with_data (noop_data t)) gs).
Proof. intros h t gs L g I. apply in_map_iff in I. destruct I as (x & <- & I). cbn [with_data s_start s_data]. apply noop_lined. exact (L x I). Qed.
Lemma remove_noop_same : forall h t t' gs, 0 < tol t -> tol t < h -> 0 < tol t' -> tol t' < h -> all_lined h gs -> remove_noop_commands t gs = remove_noop_commands t' gs.
Proof.
  intros h t t' gs T TH T' TH' L. unfold remove_noop_commands. rewrite (pop_last_same h t t' _ T TH T' TH' (noop_all_lined h t gs L)). f_equal. apply map_ext_in. intros g I. unfold with_data.
  rewrite (noop_same h t t' _ _ T TH T' TH' (L g I)). reflexivity.
Qed.
Lemma pop_line_in : forall t s l d, In d (pop_line t s l) -> In d l.
Proof.
  intros t s l d I. destruct (pop_line_shape t s l) as [E|(m & p & -> & E & _)]; rewrite E in I; [exact I|]. apply in_or_app. left. exact I.
Qed.
Lemma pop_last_in : forall t gs g, In g (pop_last t gs) -> exists x, In x gs /\ s_start g = s_start x /\ s_closed g = s_closed x /\ (g = x \/ s_closed x = true /\ g = with_data (pop_line t) x).
Proof.
  intros t gs g. induction gs as [|x gs IH]; intros I; [destruct I|]. cbn [pop_last] in I. destruct gs as [|y gs].
  - destruct I as [<-|[]]. exists x. split; [left; reflexivity|]. destruct (s_closed x) eqn:C; cbn; auto.
  - destruct I as [<-|I]; [exists x; split; [left; reflexivity|auto]|]. destruct (IH I) as (z & Z & H). exists z. split; [right; exact Z|exact H].
Qed.
Lemma remove_noop_lined : forall h t gs, all_lined h gs -> all_lined h (remove_noop_commands t gs).
Proof.
  intros h t gs L g I. destruct (pop_last_in t _ g I) as (x & X & E & _ & [->|[_ ->]]).
  - exact (noop_all_lined h t gs L x X).
  - destruct (noop_all_lined h t gs L x X) as [S H]. split; [exact S|]. intros d J. apply H. exact (pop_line_in _ _ _ _ J).
Qed.
Lemma straight_lines : forall t l q k s, (forall d, In d l -> exists p, d = LineTo p) -> straight_data t q k s l = l.
Proof.
  intros t l. induction l as [|d l IH]; intros q k s H; [reflexivity|]. destruct (H d (or_introl eq_refl)) as (p & ->). cbn [straight_data end_point]. rewrite IH; [reflexivity|]. intros e I. apply H. right. exact I.
Qed.
Lemma straight_same : forall t gs, only_lines gs -> SimplifyModel.straight_curves t gs = gs.
Proof.
  intros t gs O. unfold SimplifyModel.straight_curves. transitivity (map (fun g => g) gs); [|apply map_id]. apply map_ext_in. intros [s l z] I. unfold with_data. cbn [s_start s_data s_closed]. f_equal. apply straight_lines. intros d J. exact (O _ d I J).
Qed.
(** The greatest number of commands. *)
Definition most (gs : list segment) : nat := fold_right (fun g n => Nat.max (List.length (s_data g)) n) 0%nat gs.
Lemma most_le : forall gs g, In g gs -> (List.length (s_data g) <= most gs)%nat.
Proof. induction gs as [|x gs IH]; intros g I; [destruct I|]. cbn [most fold_right]. destruct I as [->|I]; [lia|]. specialize (IH g I). unfold most in IH. lia. Qed.
Lemma runs_most : forall t gs, tiny_runs t (most gs) gs.
Proof.
  intros t gs g a b c I E _. assert (M := most_le gs g I).
  assert (P : List.length (parts g) = List.length (s_data g)) by (clear M; unfold parts; generalize (s_start g); induction (s_data g) as [|d l IH]; intros s; [reflexivity|]; cbn [pieces List.length]; rewrite IH; reflexivity).
  rewrite E, !app_length in P. lia.
Qed.
Lemma noop_exact : forall h t r gs, 0 < tol t -> tol t < h -> all_lined h gs -> 0 < r -> alike r (stroked gs) (stroked (remove_noop_commands t gs)).
Proof.
  intros h t r gs T TH L R.
  set (n := inject_Z (Z.of_nat (S (most gs)))). assert (N : 1 <= n) by (unfold n; change 1 with (inject_Z 1); rewrite <- Zle_Qle; lia).
  assert (K : exists k, 0 < k /\ k <= tol t /\ k <= r / n).
  { assert (0 < r / n) by (apply Qlt_shift_div_l; lra). destruct (Qlt_le_dec (r / n) (tol t)); [exists (r / n)|exists (tol t)]; lra. }
  destruct K as (k & K0 & K1 & K2).
  set (t' := Tol (Q2Qc k) 0%nat). assert (E' : tol t' == k) by (unfold tol, t'; cbn [positional]; cbn [this Q2Qc]; apply Qred_correct).
  assert (T' : 0 < tol t') by (rewrite E'; exact K0). assert (TH' : tol t' < h) by (rewrite E'; lra).
  rewrite (remove_noop_same h t t' gs T TH T' TH' L).
  assert (NA : no_arcs gs) by (intros g d I J A; destruct (L g I) as [_ H]; destruct (H d J) as (p & -> & _); exact A).
  apply (alike_mono (inject_Z (Z.of_nat (S (most gs))) * tol t')); [fold n; rewrite E'; nra| |apply remove_noop_alike; [exact T'|exact NA|apply runs_most]].
  fold n. rewrite E'. assert (n * k <= n * (r / n)) by nra. assert (n * (r / n) == r) by (field; lra). lra.
Qed.
(** What goes somewhere keeps a line. *)
Lemma noop_goes : forall h t l s, 0 < tol t -> tol t < h -> lined h s l -> (exists a d, In (a, d) (pieces s l) /\ end_point d <> a) ->
  (exists a d, In (a, d) (pieces s (noop_data t s l)) /\ end_point d <> a).
Proof.
  intros h t l. induction l as [|d l IH]; intros s T TH L (a & e & I & N); [destruct I|]. destruct (lined_tail _ _ _ _ L) as (p & -> & Lp & G). cbn [noop_data is_zero end_point].
  assert (E := grid_near h t p s T TH G (proj1 L)). destruct (SegmentModel.near t p s) eqn:Z.
  - assert (p = s) by (apply E; reflexivity). subst s. apply IH; try assumption. exists a, e. split; [|exact N]. destruct I as [X|I]; [|exact I]. injection X as <- <-. exfalso. apply N. reflexivity.
  - exists s, (LineTo p). split; [left; reflexivity|]. intros X. cbn in X. assert (false = true) by (apply E; exact X). discriminate.
Qed.
Lemma pop_goes : forall h t l s, 0 < tol t -> tol t < h -> lined h s l -> (exists a d, In (a, d) (pieces s l) /\ end_point d <> a) -> pop_line t s l <> [].
Proof.
  intros h t l s T TH L H E. destruct (pop_line_shape t s l) as [X|(m & p & Em & X & N)].
  - rewrite X in E. subst l. destruct H as (a & d & [] & _).
  - rewrite X in E. subst m. cbn [app] in Em. subst l. destruct L as [S G]. destruct (G _ (or_introl eq_refl)) as (q & Q & Gq). injection Q as <-.
    assert (p = s) by (apply (grid_near h t p s T TH Gq S); exact N). subst s. destruct H as (a & d & [Y|[]] & Z). injection Y as <- <-. apply Z. reflexivity.
Qed.
Lemma join_nonempty : forall t ratio l st don, don <> [] -> join_loop t ratio st don l <> [].
Proof.
  intros t ratio l. induction l as [|c l IH]; intros st don N E; cbn [join_loop] in E.
  - apply N. destruct don as [|x don]; [reflexivity|]. cbn in E. destruct (rev don); discriminate.
  - destruct don as [|p before]; [apply N; reflexivity|].
    match type of E with match ?m with Some _ => _ | None => _ end = _ => destruct m end; revert E; apply IH; discriminate.
Qed.
Lemma join_lines_nonempty : forall t ratio l st, l <> [] -> join_loop t ratio st [] l <> [].
Proof. intros t ratio [|c l] st N; [congruence|]. cbn [join_loop]. apply join_nonempty. discriminate. Qed.
Lemma filter_all : forall {A} (f : A -> bool) l, (forall x, In x l -> f x = true) -> filter f l = l.
Proof. intros A f l. induction l as [|x l IH]; intros H; [reflexivity|]. cbn [filter]. rewrite (H x (or_introl eq_refl)), IH; [reflexivity|]. intros y I. apply H. right. exact I. Qed.
Definition filled (gs : list segment) : Prop := forall g, In g gs -> s_data g <> [].
Lemma filled_empty : forall gs, filled gs -> SimplifyModel.remove_empty_segments gs = gs.
Proof. intros gs F. apply filter_all. intros g I. specialize (F g I). destruct (s_data g); [congruence|reflexivity]. Qed.
Lemma noop_filled : forall h t gs, 0 < tol t -> tol t < h -> all_lined h gs -> (forall g, In g gs -> goes g) -> filled (remove_noop_commands t gs).
Proof.
  intros h t gs T TH L G g I. destruct (pop_last_in t _ g I) as (x & X & _ & _ & K). apply in_map_iff in X. destruct X as (y & <- & Y).
  assert (N := noop_goes h t _ _ T TH (L y Y) (G y Y)). assert (L' := noop_lined h t _ _ (L y Y)).
  destruct K as [->|[_ ->]]; cbn [with_data s_start s_data].
  - intros E. rewrite E in N. destruct N as (a & d & [] & _).
  - apply (pop_goes h t _ _ T TH L' N).
Qed.
Lemma join_filled : forall t ratio gs, filled gs -> filled (SimplifyModel.join_nodes t ratio gs).
Proof. intros t ratio gs F g I. apply in_map_iff in I. destruct I as (x & <- & I). cbn [with_data s_start s_data]. apply join_lines_nonempty. exact (F x I). Qed.
Lemma goes_filled : forall gs, (forall g, In g gs -> goes g) -> filled gs.
Proof. intros gs G g I E. destruct (G g I) as (s & d & J & _). unfold parts in J. rewrite E in J. destruct J. Qed.
Lemma lined_gridded : forall h gs, all_lined h gs -> gridded h gs /\ curves_at_most 0 gs /\ only_lines gs.
Proof.
  intros h gs L. split; [|split].
  - intros g I. destruct (L g I) as [S H]. split; [exact S|]. intros d J. destruct (H d J) as (p & -> & G). exact G.
  - intros g I. destruct (L g I) as [_ H]. assert (E : filter is_curve (s_data g) = []).
    { revert H. induction (s_data g) as [|d l IH]; intros H; [reflexivity|]. destruct (H d (or_introl eq_refl)) as (p & -> & _). cbn [filter is_curve]. apply IH. intros e J. apply H. right. exact J. }
    rewrite E. cbn. lia.
  - intros g d I J. destruct (L g I) as [_ H]. destruct (H d J) as (p & -> & _). exists p. reflexivity.
Qed.
Lemma lines_alike : forall h t ratio o r gs, 0 < tol t -> tol t < h -> tol t <= h * h -> sound ratio -> gridded h gs -> only_lines gs -> (forall g, In g gs -> goes g) -> 0 < r ->
  has o RemoveCloseLine = false -> alike r (stroked gs) (stroked (simplify o t ratio gs)).
Proof.
  intros h t ratio o r gs T TH HH SR G O W R NC. assert (L := lined_of h gs G O). unfold simplify. cbv zeta. rewrite NC.
  assert (E1 : (if has o StraightCurves then SimplifyModel.straight_curves t gs else gs) = gs) by (destruct (has o StraightCurves); [apply straight_same; exact O|reflexivity]). rewrite E1. clear E1.
  set (g1 := if has o RemoveNoopCommands then remove_noop_commands t gs else gs).
  assert (A1 : alike r (stroked gs) (stroked g1)) by (unfold g1; destruct (has o RemoveNoopCommands); [apply (noop_exact h); assumption|apply alike_refl]).
  assert (L1 : all_lined h g1) by (unfold g1; destruct (has o RemoveNoopCommands); [apply remove_noop_lined; exact L|exact L]).
  assert (F1 : filled g1) by (unfold g1; destruct (has o RemoveNoopCommands); [apply (noop_filled h); assumption|apply goes_filled; exact W]).
  clearbody g1. set (g2 := if has o JoinNodes then SimplifyModel.join_nodes t ratio g1 else g1).
  assert (A2 : alike 0 (stroked g1) (stroked g2)).
  { unfold g2. destruct (has o JoinNodes); [|apply alike_refl]. destruct (lined_gridded h g1 L1) as (G1 & C1 & _).
    apply alike_Q with (r := inject_Z (Z.of_nat 0) * tol t); [change (inject_Z (Z.of_nat 0)) with 0; ring|]. apply (join_alike h); assumption. }
  assert (F2 : filled g2) by (unfold g2; destruct (has o JoinNodes); [apply join_filled; exact F1|exact F1]). clearbody g2.
  assert (E2 : (if has o RemoveEmptySegments then SimplifyModel.remove_empty_segments g2 else g2) = g2) by (destruct (has o RemoveEmptySegments); [apply filled_empty; exact F2|reflexivity]).
  rewrite E2. apply alike_Q with (r := r + 0); [ring|]. eapply alike_trans; [lra|lra|exact A1|exact A2].
Qed.

(** For the examples. *)
Lemma one_line : forall s e b, stroked [Seg s [LineTo e] false] b -> exists t, 0 <= t <= 1 /\ nigh 0 b (on_line t (xy s) (xy e)).
Proof.
  intros s e b (g & [<-|[]] & [->|[(s' & d & [E|[]] & O)|[C _]]]).
  - exists 0. split; [lra|]. apply nigh_sym, line_start.
  - cbn in E. injection E as <- <-. inversion O as [q t T E|]. subst. exists t. split; [exact T|apply nigh_refl].
  - cbn in C. discriminate.
Qed.
Lemma apart : forall r t a s e b, 0 <= r -> (forall t, 0 <= t <= 1 -> r * r < dist2 a (on_line t s e)) -> 0 <= t <= 1 -> nigh 0 b (on_line t s e) -> ~ nigh r a b.
Proof.
  intros r t a s e b R H T N M. assert (X := nigh_trans r 0 a b _ R ltac:(lra) M N). specialize (H t T). unfold nigh in X. lra.
Qed.
Definition step (i : nat) : point := P (Q2Qc (inject_Z (Z.of_nat i) * (9 # 10000))) 0%Qc.
Definition chain (n : nat) : list sdata := map (fun i => LineTo (step i)) (seq 1 n).
Lemma step_xy : forall i, fst (xy (step i)) == inject_Z (Z.of_nat i) * (9 # 10000) /\ snd (xy (step i)) == 0.
Proof. intros i. unfold step, xy. cbn [px py fst snd]. split; [cbn [this Q2Qc]; apply Qred_correct|reflexivity]. Qed.
Lemma step_near : forall t i, tol t == 1 # 1000 -> SegmentModel.near t (step (S i)) (step i) = true.
Proof.
  intros t i T. apply near_dist. destruct (step_xy i) as [A B]. destruct (step_xy (S i)) as [C D]. unfold dist2. rewrite A, B, C, D, T, Nat2Z.inj_succ. unfold Z.succ. rewrite inject_Z_plus. change (inject_Z 1) with 1.
  assert (E : (((inject_Z (Z.of_nat i) + 1) * (9 # 10000) - inject_Z (Z.of_nat i) * (9 # 10000)) * ((inject_Z (Z.of_nat i) + 1) * (9 # 10000) - inject_Z (Z.of_nat i) * (9 # 10000)) + (0 - 0) * (0 - 0)) == (9 # 10000) * (9 # 10000)) by ring.
  rewrite E. reflexivity.
Qed.
Lemma chain_gone : forall t n i, tol t == 1 # 1000 -> noop_data t (step i) (map (fun i => LineTo (step i)) (seq (S i) n)) = [].
Proof.
  intros t n. induction n as [|n IH]; intros i T; [reflexivity|]. cbn [seq map noop_data is_zero end_point]. rewrite (step_near t i T). apply IH. exact T.
Qed.
Lemma chain_end : forall n z, (0 < n)%nat -> stroked [Seg (step 0) (chain n) z] (on_line 1 (xy (step (n - 1))) (xy (step n))).
Proof.
  intros n z N. exists (Seg (step 0) (chain n) z). split; [left; reflexivity|]. right. left. exists (step (n - 1)), (LineTo (step n)). split; [|constructor; lra].
  unfold parts. cbn [s_start s_data]. unfold chain. assert (G : forall n i, (0 < n)%nat -> In (step (i + n - 1), LineTo (step (i + n))) (pieces (step i) (map (fun i => LineTo (step i)) (seq (S i) n)))).
  { clear. induction n as [|n IH]; intros i N; [lia|]. cbn [seq map pieces end_point]. destruct n as [|n].
    - left. replace (i + 1 - 1)%nat with i by lia. replace (i + 1)%nat with (S i) by lia. reflexivity.
    - right. specialize (IH (S i) ltac:(lia)). replace (S i + S n)%nat with (i + S (S n))%nat in IH by lia. exact IH. }
  exact (G n 0%nat N).
Qed.
Lemma chain_long : forall k, ~ nigh (inject_Z (Z.of_nat k)) (xy (step 0)) (on_line 1 (xy (step (2000 * S k - 1))) (xy (step (2000 * S k)))).
Proof.
  intros k N. unfold nigh, dist2, on_line, line_at in N. cbn [fst snd] in N. destruct (step_xy 0) as [A B]. destruct (step_xy (2000 * S k)) as [C D]. destruct (step_xy (2000 * S k - 1)) as [E F]. rewrite A, B, C, D, E, F in N.
  assert (H : inject_Z (Z.of_nat (2000 * S k)) == 2000 * (inject_Z (Z.of_nat k) + 1)).
  { rewrite Nat2Z.inj_mul, inject_Z_mult, (Nat2Z.inj_succ k). unfold Z.succ. rewrite inject_Z_plus. reflexivity. }
  rewrite H in N. change (inject_Z (Z.of_nat 0)) with 0 in N.
  set (q := inject_Z (Z.of_nat k)) in *. assert (Q0 : 0 <= q) by (unfold q; change 0 with (inject_Z 0); rewrite <- Zle_Qle; lia). set (w := inject_Z (Z.of_nat (2000 * S k - 1))) in *. clearbody q w. assert (V := square_pos q). lra.
Qed.
