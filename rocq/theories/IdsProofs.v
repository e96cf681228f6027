(** Proofs about the id generator, breadth-first order, and percent-coding. *)
From Coq Require Import String List NArith Bool Arith Lia Permutation.
Import ListNotations.
From Verif Require Import Chars IdsModel IdsSpec.

Lemma mem_text_spec t l : mem_text t l = true <-> In t l.
Proof.
  unfold mem_text. rewrite existsb_exists. split.
  - intros (x & H & E). apply text_eqb_spec in E. now subst.
  - intros H. exists t. split; [exact H|apply text_eqb_refl].
Qed.
Lemma mem_text_false t l : mem_text t l = false <-> ~ In t l.
Proof. rewrite <- mem_text_spec. destruct (mem_text t l); split; congruence. Qed.

(** * The generator *)

Lemma bump_false r : Forall letter r -> bump false r = (r, false).
Proof.
  induction 1 as [|c r Hc H IH]; [reflexivity|]. simpl.
  assert ((90 <? c)%N && (c <? 97)%N = false) as ->.
  { destruct Hc; apply andb_false_iff; [left; apply N.ltb_ge; lia|right; apply N.ltb_ge; lia]. }
  assert ((122 <? c)%N = false) as -> by (apply N.ltb_ge; destruct Hc; lia).
  now rewrite IH.
Qed.

Lemma bump_true r : Forall letter r -> forall r' k, bump true r = (r', k) ->
  Forall letter r' /\ rval (if k then r' ++ [97%N] else r') = (rval r + 1)%N.
Proof.
  induction 1 as [|c r Hc H IH]; intros r' k E.
  - simpl in E. inversion E; subst. split; [constructor|reflexivity].
  - cbn [bump] in E.
    destruct ((90 <? c + 1)%N && (c + 1 <? 97)%N) eqn:Z.
    + destruct (bump true r) as [r1 k1] eqn:E1. inversion E; subst.
      destruct (IH _ _ eq_refl) as [L V].
      apply andb_true_iff in Z. destruct Z as [Z1 Z2]. apply N.ltb_lt in Z1, Z2.
      assert (c = 90%N) as -> by (destruct Hc; lia).
      split; [constructor; [right; lia|exact L]|].
      destruct k; cbn [app rval]; rewrite V; change (digit 97) with 1%N; change (digit 90) with 52%N; lia.
    + rewrite bump_false in E by exact H. inversion E; subst. clear E.
      apply andb_false_iff in Z.
      assert (c <> 90)%N as N90. { intros ->. destruct Z as [Z|Z]; discriminate Z. }
      destruct (122 <? c + 1)%N eqn:Q.
      * apply N.ltb_lt in Q. assert (c = 122%N) as -> by (destruct Hc; lia).
        split; [constructor; [left; lia|exact H]|].
        cbn [rval]. change (digit 65) with 27%N. change (digit 122) with 26%N. lia.
      * apply N.ltb_ge in Q.
        split; [constructor; [destruct Hc; [left|right]; lia|exact H]|].
        cbn [rval]. unfold digit.
        destruct (c + 1 <=? 90)%N eqn:A, (c <=? 90)%N eqn:B;
          rewrite ?N.leb_le, ?N.leb_gt in *; destruct Hc; lia.
Qed.

Lemma next_raw_spec t : letters t -> letters (next_raw t) /\ val (next_raw t) = (val t + 1)%N.
Proof.
  intros [NE L]. unfold next_raw.
  destruct (bump true (rev t)) as [r k] eqn:E.
  assert (Forall letter (rev t)) as LR by (apply Forall_rev; exact L).
  destruct (bump_true _ LR _ _ E) as [Lr V]. unfold val. rewrite <- V.
  destruct k.
  - simpl rev. rewrite rev_involutive. split; [|reflexivity].
    split; [discriminate|]. constructor; [right; lia|now apply Forall_rev].
  - rewrite rev_involutive. split; [|reflexivity]. split; [|now apply Forall_rev].
    intros E0. destruct r as [|c r]; [|simpl in E0; now destruct (rev r)].
    destruct t as [|c t]; [congruence|]. simpl in E. destruct (rev t ++ [c]) as [|x l] eqn:E1.
    + now destruct (rev t).
    + cbn [bump] in E. destruct ((90 <? x + 1)%N && (x + 1 <? 97)%N).
      * destruct (bump true l); discriminate.
      * destruct (bump false l); discriminate.
Qed.

(** Iterated raw steps. *)
Fixpoint steps (n : nat) (t : text) : text := match n with O => t | S n => steps n (next_raw t) end.
Lemma steps_spec n : forall t, letters t -> letters (steps n t) /\ val (steps n t) = (val t + N.of_nat n)%N.
Proof.
  induction n as [|n IH]; intros t L; cbn [steps].
  - split; [exact L|lia].
  - destruct (next_raw_spec t L) as [L1 V1]. destruct (IH _ L1) as [L2 V2].
    split; [exact L2|]. rewrite V2, V1. lia.
Qed.

Lemma pigeon (l : list text) (f : nat -> text) n : (forall i j, i < n -> j < n -> f i = f j -> i = j) ->
  length l < n -> exists i, i < n /\ ~ In (f i) l.
Proof.
  intros Inj Len.
  assert (forall i, {~ In (f i) l} + {~ ~ In (f i) l}) as Dec.
  { intros i. destruct (in_dec text_eq_dec (f i) l); [right; auto|left; auto]. }
  destruct (Exists_dec (fun i => ~ In (f i) l) (seq 0 n) Dec) as [H|H].
  - apply Exists_exists in H. destruct H as (i & Hi & HH). exists i. split; [|exact HH].
    apply in_seq in Hi. lia.
  - exfalso. assert (incl (map f (seq 0 n)) l) as I.
    { intros x Hx. apply in_map_iff in Hx. destruct Hx as (i & <- & Hi).
      destruct (in_dec text_eq_dec (f i) l) as [Y|Y]; auto. exfalso. apply H.
      apply Exists_exists. exists i. split; auto. }
    assert (NoDup (map f (seq 0 n))) as ND.
    { assert (forall k m, m + k <= n -> NoDup (map f (seq m k))) as G.
      { induction k as [|k IH]; intros m Hm; simpl; [constructor|]. constructor.
        - intros Hin. apply in_map_iff in Hin. destruct Hin as (j & E & Hj). apply in_seq in Hj.
          apply Inj in E; lia.
        - apply IH. lia. }
      apply G. lia. }
    pose proof (NoDup_incl_length ND I) as LL. rewrite map_length, seq_length in LL. lia.
Qed.

Definition gen_ok (g : gen) : Prop := letters (current g) /\ ~ In (current g) (prevent g).

Lemma next_fuel_spec fuel : forall cur P, letters cur ->
  (exists i, 1 <= i <= S fuel /\ ~ In (steps i cur) P) ->
  exists g', next_fuel fuel (Gen cur P) = Some g' /\ letters (current g') /\
    ~ In (current g') P /\ prevent g' = P /\ (val cur < val (current g'))%N.
Proof.
  induction fuel as [|fuel IH]; intros cur P L (i & Hi & HN);
    destruct (next_raw_spec cur L) as [L1 V1]; cbn [next_fuel current prevent].
  - assert (i = 1) as -> by lia. cbn [steps] in HN. apply mem_text_false in HN. rewrite HN.
    exists (Gen (next_raw cur) P). cbn [current prevent]. apply mem_text_false in HN. repeat split; auto; try apply L1; lia.
  - destruct (mem_text (next_raw cur) P) eqn:M.
    + apply mem_text_spec in M.
      destruct (IH (next_raw cur) P L1) as (g' & E & A & B & C & D).
      { destruct i as [|i]; [lia|]. cbn [steps] in HN.
        destruct i as [|i]; [cbn [steps] in HN; contradiction|]. exists (S i). split; [lia|exact HN]. }
      exists g'. rewrite E. repeat split; auto; try apply A. lia.
    + exists (Gen (next_raw cur) P). cbn [current prevent]. apply mem_text_false in M. repeat split; auto; try apply L1. lia.
Qed.

Lemma next_spec g : letters (current g) -> exists g', next g = Some g' /\ gen_ok g' /\
  prevent g' = prevent g /\ (val (current g) < val (current g'))%N.
Proof.
  destruct g as [cur P]. intros L. unfold next. cbn [prevent current] in *.
  destruct (pigeon P (fun i => steps (S i) cur) (S (length P))) as (i & Hi & HN).
  - intros a b _ _ E. destruct (steps_spec (S a) cur L) as [_ Va]. destruct (steps_spec (S b) cur L) as [_ Vb].
    rewrite E in Va. lia.
  - lia.
  - destruct (next_fuel_spec (length P) cur P L) as (g' & E & A & B & C & D).
    { exists (S i). split; [lia|exact HN]. }
    exists g'. split; [exact E|]. unfold gen_ok. rewrite C. repeat split; auto; apply A.
Qed.

Lemma set_prevent_spec g l : letters (current g) -> exists g', set_prevent g l = Some g' /\ gen_ok g' /\ prevent g' = l.
Proof.
  intros L. unfold set_prevent. cbn [current prevent].
  destruct (mem_text (current g) l) eqn:M.
  - destruct (next_spec (Gen (current g) l) L) as (g' & E & A & B & C). exists g'. auto.
  - exists (Gen (current g) l). apply mem_text_false in M. repeat split; auto; apply L.
Qed.
Lemma insert_prevent_spec g x : letters (current g) ->
  exists g', insert_prevent g x = Some g' /\ gen_ok g' /\ prevent g' = x :: prevent g.
Proof. intros L. apply (set_prevent_spec g (x :: prevent g) L). Qed.

Lemma default_ok : gen_ok gen_default.
Proof.
  split; [split; [discriminate|]|intros []]. cbv [gen_default current lit map]. simpl.
  constructor; [right; lia|constructor].
Qed.

Lemma reachable_ok g : reachable g -> gen_ok g.
Proof.
  induction 1 as [|g l g' _ [L N] E|g x g' _ [L N] E|g g' _ [L N] E].
  - apply default_ok.
  - destruct (set_prevent_spec g l L) as (? & E' & O & _). congruence.
  - destruct (insert_prevent_spec g x L) as (? & E' & O & _). congruence.
  - destruct (next_spec g L) as (? & E' & O & _). congruence.
Qed.

Lemma hand_out_spec n : forall g, gen_ok g -> exists l, hand_out n g = Some l /\ length l = n /\
  Forall (fun t => letters t /\ ~ In t (prevent g) /\ (val (current g) <= val t)%N) l /\ NoDup l.
Proof.
  induction n as [|n IH]; intros g [L N]; cbn [hand_out].
  - exists []. repeat split; constructor.
  - destruct (next_spec g L) as (g' & E & O & P & V). rewrite E.
    destruct (IH g' O) as (l & E2 & Len & F & ND). rewrite E2.
    exists (current g :: l). split; [reflexivity|]. split; [simpl; now rewrite Len|]. split.
    + constructor; [repeat split; auto; try apply L; lia|].
      eapply Forall_impl; [|exact F]. cbn beta. rewrite P. intros t (A & B & C). repeat split; auto; try apply A. lia.
    + constructor; [|exact ND]. intros Hin. rewrite Forall_forall in F. apply F in Hin. lia.
Qed.

Lemma ids_fresh g : reachable g -> forall n, exists l, hand_out n g = Some l /\ length l = n /\
  NoDup l /\ forall t, In t l -> letters t /\ ~ In t (prevent g).
Proof.
  intros R n. destruct (hand_out_spec n g (reachable_ok g R)) as (l & E & Len & F & ND).
  exists l. repeat split; auto; rewrite Forall_forall in F; apply F in H; apply H.
Qed.

Lemma ids_total g : reachable g ->
  (exists g', next g = Some g') /\ (forall l, exists g', set_prevent g l = Some g' /\ prevent g' = l) /\
  (forall x, exists g', insert_prevent g x = Some g' /\ prevent g' = x :: prevent g).
Proof.
  intros R. destruct (reachable_ok g R) as [L _]. split; [|split].
  - destruct (next_spec g L) as (g' & E & _). eauto.
  - intros l. destruct (set_prevent_spec g l L) as (g' & E & _ & P). eauto.
  - intros x. destruct (insert_prevent_spec g x L) as (g' & E & _ & P). eauto.
Qed.

(** Every letter string is reached by counting from "a": nothing shorter is skipped. *)
Lemma rval_inj a : forall b, Forall letter a -> Forall letter b -> rval a = rval b -> a = b.
Proof.
  assert (forall c, letter c -> (1 <= digit c <= 52)%N) as D.
  { intros c H. unfold digit. destruct (N.leb_spec c 90); destruct H; lia. }
  induction a as [|x a IH]; intros [|y b] HA HB E; cbn [rval] in E; auto.
  - inversion HB; subst. specialize (D y H1). lia.
  - inversion HA; subst. specialize (D x H1). lia.
  - inversion HA; inversion HB; subst. pose proof (D x H1). pose proof (D y H5).
    assert (digit x = digit y /\ rval a = rval b) as [E1 E2] by lia.
    f_equal; [|now apply IH].
    unfold digit in E1. destruct (N.leb_spec x 90), (N.leb_spec y 90); destruct H1, H5; lia.
Qed.
Lemma val_inj a b : letters a -> letters b -> val a = val b -> a = b.
Proof.
  intros [_ A] [_ B] E. apply rval_inj in E; try (apply Forall_rev; assumption).
  rewrite <- (rev_involutive a), <- (rev_involutive b). now f_equal.
Qed.

(** * foldM *)
Lemma foldM_app {S A} (f : S -> A -> option S) l1 : forall l2 s,
  foldM f s (l1 ++ l2) = match foldM f s l1 with Some s => foldM f s l2 | None => None end.
Proof. induction l1 as [|x l1 IH]; intros; simpl; auto. destruct (f s x); auto. Qed.
Lemma foldM_flat {S A B} (f : S -> B -> option S) (g : A -> list B) l : forall s,
  foldM (fun s a => foldM f s (g a)) s l = foldM f s (flat_map g l).
Proof.
  induction l as [|x l IH]; intros s; simpl; auto. rewrite foldM_app.
  destruct (foldM f s (g x)); auto.
Qed.
Lemma foldM_ext {S A} (f g : S -> A -> option S) l : forall s, (forall s x, f s x = g s x) -> foldM f s l = foldM g s l.
Proof. induction l as [|x l IH]; intros s H; simpl; auto. rewrite H. destruct (g s x); auto. Qed.

(** * Breadth-first order *)
Lemma size_node e k : size (Node e k) = S (size_forest k).
Proof. simpl. f_equal. induction k as [|t k IH]; [reflexivity|]. simpl. rewrite IH. reflexivity. Qed.
Lemma preorder_node e k : preorder (Node e k) = e :: preorder_forest k.
Proof. reflexivity. Qed.
Lemma size_forest_app a b : size_forest (a ++ b) = size_forest a + size_forest b.
Proof. unfold size_forest. now rewrite map_app, list_sum_app. Qed.

Lemma bfs_spec fuel : forall q, size_forest q <= fuel ->
  exists l, bfs fuel q = Some l /\ Permutation l (preorder_forest q).
Proof.
  induction fuel as [|fuel IH]; intros [|[e k] q] H; cbn [bfs].
  - exists []. split; [reflexivity|constructor].
  - unfold size_forest in H. cbn [map list_sum fold_right] in H. rewrite size_node in H. simpl in H. lia.
  - exists []. split; [reflexivity|constructor].
  - destruct (IH (q ++ t_kids (Node e k))) as (l & E & P).
    { unfold size_forest in H. cbn [map list_sum fold_right] in H. rewrite size_node in H.
      change (fold_right Nat.add 0 (map size q)) with (size_forest q) in H.
      rewrite size_forest_app. cbn [t_kids]. lia. }
    rewrite E. exists (e :: l). split; auto.
    unfold preorder_forest in *. cbn [flat_map]. rewrite preorder_node. cbn [app]. constructor.
    rewrite P, flat_map_app. cbn [t_kids]. apply Permutation_app_comm.
Qed.
Lemma breadth_first_spec f : exists l, breadth_first f = Some l /\ Permutation l (preorder_forest f).
Proof. apply bfs_spec. apply Nat.le_refl. Qed.

(** * Percent-coding *)
Lemma encode_changed t : url_encode t <> t -> has_percent (url_encode t) = true.
Proof.
  induction t as [|c t IH]; simpl; [congruence|]. unfold encode_byte.
  destruct (unreserved c) eqn:U.
  - cbn [app]. intros H. cbn [has_percent existsb].
    unfold has_percent in IH. rewrite IH; [apply orb_true_r|congruence].
  - intros _. reflexivity.
Qed.
Lemma decode_plain t : has_percent t = false -> url_decode t = Some t.
Proof. unfold url_decode. now intros ->. Qed.
Lemma letters_no_percent t : letters t -> has_percent t = false.
Proof.
  intros [_ L]. induction L as [|c t H L IH]; auto.
  cbn [has_percent existsb]. unfold has_percent in IH. rewrite IH, orb_false_r.
  apply N.eqb_neq. intros <-. destruct H; lia.
Qed.
