(** Proofs about the rounding of values. *)
From Coq Require Import List ZArith QArith Qcanon Bool Arith Lia.
From Verif Require Import SegmentModel SegmentSpec SegmentProofs SegmentProofs2 SegmentProofs4 ValuesModel ValuesSpec.
Import ListNotations.
Local Close Scope Q_scope.
Local Open Scope nat_scope.

Lemma rnd_within : forall p x, within p x (rnd p x).
Proof. intros p x. destruct (rnd_spec p x) as (A & B & _). split; assumption. Qed.
Lemma rnd_on_grid : forall p x, on_grid p (rnd p x).
Proof. intros p x. exists (scale p x). reflexivity. Qed.
Lemma rnd_twice : forall p x, rnd p (rnd p x) = rnd p x.
Proof. intros p x. apply rnd_grid, rnd_on_grid. Qed.
Lemma within_refl : forall p x, within p x x.
Proof.
  intros p x. assert (E : (x - x = 0)%Qc) by ring. unfold within. rewrite E. assert (Z : ((1 + 1) * 0 = 0)%Qc) by ring. rewrite Z.
  assert (N : (0 <= Q2Qc (1 # pow10 p))%Qc) by (unfold Qcle; cbn [this Q2Qc]; rewrite Qred_correct; unfold Qle; cbn; lia). split; exact N.
Qed.
Lemma hundred : Q2Qc 100 <> 0%Qc.
Proof. intros E. apply (f_equal this) in E. vm_compute in E. discriminate. Qed.
Lemma percent_back : forall f n, (percent f n * Q2Qc 100 = f (n * Q2Qc 100))%Qc.
Proof. intros f n. unfold percent. rewrite Qcmult_comm. apply Qcmult_div_r. exact hundred. Qed.
Lemma percent_twice : forall p n, percent (rnd p) (percent (rnd p) n) = percent (rnd p) n.
Proof. intros p n. unfold percent at 1. rewrite percent_back, rnd_twice. reflexivity. Qed.
Lemma percent_close : forall p n, close_percent p n (percent (rnd p) n).
Proof. intros p n. unfold close_percent. rewrite percent_back. apply rnd_within. Qed.

(** * Closeness *)
Lemma size_px : forall s u n m, to_px u n = Some m -> (m = n * size s u)%Qc.
Proof.
  intros s u n m E. destruct u; cbn [to_px size] in *; try discriminate; injection E as <-; try ring; f_equal; apply Qc_is_canon; vm_compute; reflexivity.
Qed.
Lemma close_round : forall s p u n, close_length s p u n u (rnd p n).
Proof. intros s p u n. exists n. split; [reflexivity|apply rnd_within]. Qed.
Lemma close_convert : forall s p u n, close_length s p u n (fst (convert u n)) (rnd p (snd (convert u n))).
Proof.
  intros s p u n. unfold convert. destruct (to_px u n) as [m|] eqn:E; cbn [fst snd]; [|apply close_round].
  exists m. split; [|apply rnd_within]. cbn [size]. rewrite (size_px s u n m E). ring.
Qed.
Definition to (c : bool) : unit_ -> Qc -> unit_ * Qc := if c then convert else (fun u n => (u, n)).
Lemma close_to : forall c s p u n, close_length s p u n (fst (to c u n)) (rnd p (snd (to c u n))).
Proof. intros [|] s p u n; [apply close_convert|apply close_round]. Qed.

(** The job as one step. *)
Definition len (c : bool) (p : nat) (u : unit_) (n : Qc) : unit_ * Qc := (fst (to c u n), rnd p (snd (to c u n))).
Definition leaf (c : bool) (p : nat) (v : value) : value :=
  match v with
  | Len u n => Len (fst (len c p u n)) (snd (len c p u n))
  | _ => float_not_list (rnd p) v
  end.
Fixpoint plain (c : bool) (p : nat) (v : value) : value :=
  match v with
  | Defined w => Defined (plain c p w)
  | Points l => v
  | _ => leaf c p v
  end.
Definition listed (c : bool) (p : nat) (v : value) : value :=
  match v with
  | Dashes l => Dashes (map (fun d => match d with DLength u n => DLength (fst (len c p u n)) (snd (len c p u n)) | DPercent n => DPercent (percent (rnd p) n) end) l)
  | Background (Some (x, y, w, h)) => Background (Some (rnd p x, rnd p y, rnd p w, rnd p h))
  | Control l => Control (map (rnd p) l)
  | ListOf l => ListOf (map (leaf c p) l)
  | Defined w => v
  | Points l => v
  | _ => leaf c p v
  end.
Lemma iter_same : forall (f : value -> value) k v, f v = v -> Nat.iter k f v = v.
Proof. intros f k v E. induction k as [|k IH]; [reflexivity|]. change (f (Nat.iter k f v) = v). rewrite IH. exact E. Qed.
Lemma iter_once : forall (f : value -> value) k v, f (f v) = f v -> Nat.iter (S k) f v = f v.
Proof. intros f k v E. induction k as [|k IH]; [reflexivity|]. change (f (Nat.iter (S k) f v) = f v). rewrite IH. exact E. Qed.
Lemma convert_defined : forall (c : bool) w, (if c then visit_length convert false (Defined w) else Defined w) = Defined (if c then visit_length convert false w else w).
Proof. intros [|] w; reflexivity. Qed.
Lemma numeric_plain : forall (c : bool) p v k, visit_float (rnd p) k false (if c then visit_length convert false v else v) = plain c p v.
Proof.
  intros c p. induction v; intros k.
  all: try (destruct c; cbn [visit_length length_not_list visit_float]; rewrite iter_same by reflexivity; reflexivity).
  - destruct c; cbn [visit_length length_not_list visit_float]; rewrite iter_once by (cbn [visit_length length_not_list fst snd]; rewrite rnd_twice; reflexivity); reflexivity.
  - destruct c; cbn [visit_length length_not_list visit_float]; rewrite iter_same by reflexivity; destruct area as [[[[? ?] ?] ?]|]; reflexivity.
  - rewrite convert_defined. cbn [visit_float plain]. rewrite IHv. reflexivity.
Qed.
Lemma leaf_map : forall c p l, map (float_not_list (rnd p)) (map (length_not_list (fun u n => (u, rnd p n))) (if c : bool then map (length_not_list convert) l else l)) = map (leaf c p) l.
Proof.
  intros c p l. destruct c; rewrite ?map_map; apply map_ext; intros v; destruct v; try reflexivity.
Qed.
Lemma list_listed : forall (c : bool) p v, visit_float (rnd p) 0 true (if c then visit_length convert true v else v) = listed c p v.
Proof.
  intros c p v. destruct v; try (destruct c; reflexivity).
  - cbn [listed]. destruct c; cbn [visit_length visit_float Nat.iter nat_rect]; rewrite ?map_map; f_equal; apply map_ext; intros [u n|n]; reflexivity.
  - destruct area as [[[[? ?] ?] ?]|]; destruct c; reflexivity.
  - cbn [listed]. rewrite <- leaf_map. destruct c; cbn [visit_length visit_float]; reflexivity.
Qed.
Definition whole (c : bool) (p : nat) (follow : bool) (v : value) : value :=
  match v with Points l => Points (map (rnd p) l) | _ => if follow then listed c p v else plain c p v end.
Lemma round_whole : forall p c follow v, round p c follow v = whole c p follow v.
Proof. intros p c follow v. unfold round, whole. destruct v; try reflexivity; destruct follow; (apply list_listed || apply numeric_plain). Qed.

Lemma leaf_close : forall c s p v, close_leaf s p v (leaf c p v).
Proof.
  intros c s p v. destruct v; cbn [leaf float_not_list close_leaf len fst snd]; try reflexivity.
  - apply close_to.
  - apply rnd_within.
  - apply percent_close.
  - refine (conj (rnd_within _ _) _). destruct m; cbn [option_map]; [apply rnd_within|exact Logic.I].
  - refine (conj _ (conj _ (conj _ _))); apply rnd_within.
  - induction l as [|d l IH]; constructor; [|exact IH]. destruct d; cbn [close_dash]; [exists n; split; [reflexivity|apply within_refl]|apply within_refl].
  - destruct area as [[[[? ?] ?] ?]|]; [refine (conj _ (conj _ (conj _ _))); apply within_refl|reflexivity].
  - induction l as [|d l IH]; constructor; [apply within_refl|exact IH].
  - induction l as [|d l IH]; constructor; [apply within_refl|exact IH].
Qed.
Lemma leaf_close_refl : forall s p v, close_leaf s p v v.
Proof.
  intros s p v. destruct v; cbn [close_leaf]; try reflexivity; try apply within_refl.
  - exists n. split; [reflexivity|apply within_refl].
  - split; [apply within_refl|]. destruct m; [apply within_refl|exact Logic.I].
  - refine (conj _ (conj _ (conj _ _))); apply within_refl.
  - induction l as [|d l IH]; constructor; [|exact IH]. destruct d; cbn [close_dash]; [exists n; split; [reflexivity|apply within_refl]|apply within_refl].
  - destruct area as [[[[? ?] ?] ?]|]; [refine (conj _ (conj _ (conj _ _))); apply within_refl|reflexivity].
  - induction l as [|d l IH]; constructor; [apply within_refl|exact IH].
  - induction l as [|d l IH]; constructor; [apply within_refl|exact IH].
Qed.
Lemma close_refl : forall s p v, close s p v v.
Proof.
  intros s p. induction v; try apply leaf_close_refl; [|exact IHv]. cbn [close]. induction l as [|x l IH]; constructor; [apply leaf_close_refl|exact IH].
Qed.
Lemma close_of_leaf : forall s p c v, match v with Defined _ | ListOf _ => False | _ => True end -> close s p v (leaf c p v).
Proof. intros s p c v H. pose proof (leaf_close c s p v) as L. destruct v; try exact L; destruct H. Qed.
Theorem round_close : forall s p c follow v, close s p v (round p c follow v).
Proof.
  intros s p c follow v. rewrite round_whole. unfold whole.
  assert (P : forall v, close s p v (plain c p v)).
  { clear v. induction v; try (apply close_of_leaf; exact Logic.I); [apply leaf_close_refl|apply (close_refl s p (ListOf l))|exact IHv]. }
  assert (L : forall v, close s p v (listed c p v)).
  { clear v. intros v. destruct v; try (apply close_of_leaf; exact Logic.I); cbn [listed].
    - cbn [close close_leaf]. induction l as [|d l IH]; constructor; [|exact IH]. destruct d; cbn [close_dash len fst snd]; [apply close_to|apply percent_close].
    - destruct area as [[[[? ?] ?] ?]|]; [refine (conj _ (conj _ (conj _ _))); apply rnd_within|reflexivity].
    - cbn [close close_leaf]. induction l as [|d l IH]; constructor; [apply rnd_within|exact IH].
    - apply leaf_close_refl.
    - cbn [close]. induction l as [|x l IH]; constructor; [apply leaf_close|exact IH].
    - apply close_refl. }
  destruct v; try (destruct follow; [apply L|apply P]).
  cbn [close close_leaf]. induction l as [|d l IH]; constructor; [apply rnd_within|exact IH].
Qed.

(** * Twice *)
Lemma len_twice : forall c p u n, len c p (fst (len c p u n)) (snd (len c p u n)) = len c p u n.
Proof.
  intros [|] p u n; unfold len, to; cbn [fst snd]; [|rewrite rnd_twice; reflexivity]. unfold convert.
  destruct (to_px u n) as [m|] eqn:E; cbn [fst snd to_px].
  - rewrite rnd_twice. reflexivity.
  - destruct u; cbn [to_px] in *; try discriminate. cbn [fst snd]. rewrite rnd_twice. reflexivity.
Qed.
Lemma leaf_twice : forall c p v, leaf c p (leaf c p v) = leaf c p v.
Proof.
  intros c p v. destruct v; cbn [leaf float_not_list]; rewrite ?rnd_twice, ?percent_twice; try reflexivity.
  - rewrite len_twice. reflexivity.
  - destruct m as [m|]; cbn [option_map]; rewrite ?rnd_twice; reflexivity.
Qed.
Lemma leaf_kind : forall c p v, match v with Defined _ | ListOf _ | Points _ | Dashes _ | Control _ | Background _ => True | _ => match leaf c p v with Defined _ | ListOf _ | Points _ | Dashes _ | Control _ | Background _ => False | _ => True end end.
Proof. intros c p v. destruct v; exact Logic.I. Qed.
Lemma plain_twice : forall c p v, plain c p (plain c p v) = plain c p v.
Proof.
  intros c p. induction v; try reflexivity; try exact (leaf_twice c p _).
  - exact (leaf_twice c p (Len u n)).
  - exact (leaf_twice c p (Num n)).
  - exact (leaf_twice c p (Percent n)).
  - exact (leaf_twice c p (Pair n m)).
  - exact (leaf_twice c p (ViewBox x y w h)).
  - cbn [plain]. rewrite IHv. reflexivity.
Qed.
Theorem round_twice : forall p c follow v, round p c follow (round p c follow v) = round p c follow v.
Proof.
  intros p c follow v. rewrite !round_whole. destruct v; unfold whole at 2 3.
  all: try (destruct follow; cbn [listed plain leaf float_not_list whole]; rewrite ?rnd_twice, ?percent_twice, ?len_twice; reflexivity).
  - destruct follow; cbn [listed plain leaf float_not_list whole]; destruct m as [m|]; cbn [option_map]; rewrite ?rnd_twice; reflexivity.
  - destruct follow; cbn [listed plain leaf float_not_list whole]; [|reflexivity]. f_equal. rewrite map_map. apply map_ext. intros [u n|n]; [rewrite len_twice|rewrite percent_twice]; reflexivity.
  - destruct follow; cbn [listed plain leaf float_not_list whole]; [|reflexivity]. destruct area as [[[[? ?] ?] ?]|]; cbn [listed leaf float_not_list whole]; rewrite ?rnd_twice; reflexivity.
  - destruct follow; cbn [listed plain leaf float_not_list whole]; [|reflexivity]. f_equal. rewrite map_map. apply map_ext. intros n. apply rnd_twice.
  - cbn [whole]. f_equal. rewrite map_map. apply map_ext. intros n. apply rnd_twice.
  - destruct follow; cbn [listed plain leaf float_not_list whole]; [|reflexivity]. f_equal. rewrite map_map. apply map_ext. intros x. apply leaf_twice.
  - destruct follow; cbn [listed plain whole]; [reflexivity|]. f_equal.
    apply plain_twice.
Qed.

(** * What is tidied *)
Lemma len_tidy : forall c p u n, tidy_length p c (fst (len c p u n)) (snd (len c p u n)).
Proof.
  intros c p u n. split; [apply rnd_on_grid|]. intros ->. unfold len, to, convert. cbn [fst]. destruct u; cbn; exact Logic.I.
Qed.
Lemma leaf_tidy : forall c p v, match v with Points _ => True | _ => tidy_single p c (leaf c p v) end.
Proof.
  intros c p v. destruct v; try exact Logic.I; cbn [leaf float_not_list tidy_single]; try apply rnd_on_grid.
  - apply len_tidy.
  - rewrite percent_back. apply rnd_on_grid.
  - split; [apply rnd_on_grid|]. destruct m; cbn [option_map]; [apply rnd_on_grid|exact Logic.I].
  - refine (conj _ (conj _ (conj _ _))); apply rnd_on_grid.
Qed.
Lemma inner_plain : forall c p v, inner (plain c p v) = plain c p (inner v).
Proof. intros c p. induction v; try reflexivity. exact IHv. Qed.
(** Points within what may be [inherit] do not occur. *)
Theorem numeric_tidy : forall p c v, (forall l, inner v = Points l -> v = Points l) -> tidy_single p c (inner (round p c false v)).
Proof.
  intros p c v H. rewrite round_whole. unfold whole. destruct v; try exact Logic.I.
  - exact (leaf_tidy c p (Len u n)).
  - exact (leaf_tidy c p (Num n)).
  - exact (leaf_tidy c p (Percent n)).
  - exact (leaf_tidy c p (Pair n m)).
  - exact (leaf_tidy c p (ViewBox x y w h)).
  - cbn [inner tidy_single]. apply Forall_forall. intros x Hx. apply in_map_iff in Hx. destruct Hx as [y [<- _]]. apply rnd_on_grid.
  - rewrite inner_plain. destruct (inner (Defined v)) eqn:E; try exact Logic.I.
    + exact (leaf_tidy c p (Len u n)).
    + exact (leaf_tidy c p (Num n)).
    + exact (leaf_tidy c p (Percent n)).
    + exact (leaf_tidy c p (Pair n m)).
    + exact (leaf_tidy c p (ViewBox x y w h)).
    + specialize (H l eq_refl). discriminate.
Qed.
Theorem listed_tidy : forall p c v, (forall w, v <> Defined w) -> (forall l, v = ListOf l -> Forall (fun x => forall m, x <> Points m) l) -> tidy_list p c (inner (round p c true v)).
Proof.
  intros p c v H HL. rewrite round_whole. unfold whole. destruct v; try exact Logic.I; [| | | | | | | | | |destruct (H v eq_refl)]; cbn [listed inner tidy_list].
  - exact (leaf_tidy c p (Len u n)).
  - exact (leaf_tidy c p (Num n)).
  - exact (leaf_tidy c p (Percent n)).
  - exact (leaf_tidy c p (Pair n m)).
  - exact (leaf_tidy c p (ViewBox x y w h)).
  - apply Forall_forall. intros d Hd. apply in_map_iff in Hd. destruct Hd as [x [<- _]]. destruct x; [apply len_tidy|]. rewrite percent_back. apply rnd_on_grid.
  - destruct area as [[[[? ?] ?] ?]|]; cbn; [refine (conj _ (conj _ (conj _ _))); apply rnd_on_grid|exact Logic.I].
  - apply Forall_forall. intros d Hd. apply in_map_iff in Hd. destruct Hd as [x [<- _]]. apply rnd_on_grid.
  - cbn [tidy_single]. apply Forall_forall. intros d Hd. apply in_map_iff in Hd. destruct Hd as [x [<- _]]. apply rnd_on_grid.
  - specialize (HL l eq_refl). apply Forall_forall. intros d Hd. apply in_map_iff in Hd. destruct Hd as [x [<- Hx]]. rewrite Forall_forall in HL. specialize (HL x Hx).
    pose proof (leaf_tidy c p x) as T. destruct x; try exact T. destruct (HL l0 eq_refl).
Qed.

Lemma leaf_units : forall p v, units (leaf false p v) = units v.
Proof. intros p v. destruct v; reflexivity. Qed.
Theorem round_units : forall p follow v, units (round p false follow v) = units v.
Proof.
  intros p follow v. rewrite round_whole. unfold whole.
  assert (P : forall v, units (plain false p v) = units v) by (clear v; induction v; try reflexivity; exact IHv).
  assert (L : forall v, units (listed false p v) = units v).
  { clear v. intros v. destruct v; try reflexivity.
    - cbn [listed units]. induction l as [|d l IH]; [reflexivity|]. destruct d; cbn [map flat_map]; rewrite IH; reflexivity.
    - destruct area as [[[[? ?] ?] ?]|]; reflexivity.
    - cbn [listed units]. induction l as [|d l IH]; [reflexivity|]. cbn [map flat_map]. rewrite IH. f_equal. destruct d; reflexivity. }
  destruct v; try reflexivity; destruct follow; (apply L || apply P).
Qed.

(** * The jobs *)
Lemma job_round : forall follow o v w, job follow o v = Some w -> w = round (float_precision o) (convert_to_px o) follow v.
Proof. intros follow o v w E. unfold job in E. destruct (5 <? float_precision o); congruence. Qed.
Theorem job_close : forall follow o v w, job follow o v = Some w -> forall s, close s (float_precision o) v w.
Proof. intros follow o v w E s. rewrite (job_round follow o v w E). apply round_close. Qed.
Theorem job_twice : forall follow o v w, job follow o v = Some w -> job follow o w = Some w.
Proof.
  intros follow o v w E. rewrite (job_round follow o v w E). unfold job in *. destruct (5 <? float_precision o); [discriminate|]. rewrite round_twice. reflexivity.
Qed.
Theorem job_numeric : forall o v w,
  job false o v = Some w -> (forall l, inner v = Points l -> v = Points l) -> tidy_single (float_precision o) (convert_to_px o) (inner w).
Proof. intros o v w E H. rewrite (job_round false o v w E). apply numeric_tidy, H. Qed.
Theorem job_listed : forall o v w,
  job true o v = Some w -> (forall x, v <> Defined x) -> (forall l, v = ListOf l -> Forall (fun x => forall m, x <> Points m) l) -> tidy_list (float_precision o) (convert_to_px o) (inner w).
Proof. intros o v w E H HL. rewrite (job_round true o v w E). apply listed_tidy; assumption. Qed.
Theorem job_error : forall follow o v, job follow o v = None <-> 5 < float_precision o.
Proof. intros follow o v. unfold job. destruct (Nat.ltb_spec 5 (float_precision o)); split; intros; try discriminate; try reflexivity; lia. Qed.
Theorem job_units : forall follow o v w, job follow o v = Some w -> convert_to_px o = false -> units w = units v.
Proof. intros follow o v w E H. rewrite (job_round follow o v w E), H. apply round_units. Qed.
Theorem written_read : forall u, unit_read (written u) = u.
Proof. intros []; reflexivity. Qed.
