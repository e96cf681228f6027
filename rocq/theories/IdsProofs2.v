(** Proofs about [cleanup_ids]. *)
From Coq Require Import String List NArith Bool Arith Lia Permutation.
Import ListNotations.
From Verif Require Import Chars IdsModel IdsSpec IdsProofs.

Lemma hash_case (u : text) : (exists f, u = 35%N :: f) \/
  (forall A (x : text -> A) (y : A), match u with 35%N :: f => x f | _ => y end = y).
Proof.
  destruct u as [|c f]; [right; reflexivity|].
  destruct c as [|p]; [right; reflexivity|].
  do 6 (destruct p as [p|p|]; try (right; reflexivity)). left. eexists; reflexivity.
Qed.

(** * What a piece refers to, as a function *)
Definition tracked (p : piece) : option text :=
  match p with
  | Url (35%N :: f) => Some (match url_decode f with Some d => d | None => f end)
  | IdRef t => Some t
  | _ => None end.

Lemma names_tracked p t : names p t <-> tracked p = Some t.
Proof.
  destruct p as [u|x|x|x]; simpl; try (split; [intros []|discriminate]).
  - destruct (hash_case u) as [(f & ->)|H].
    + destruct (url_decode f); split; intros E; [now subst|now inversion E|now subst|now inversion E].
    + rewrite !H. split; [intros []|discriminate].
  - split; [intros ->; auto|intros E; now inversion E].
Qed.

Definition refs (a : attr) : list text := url_refs (apieces a) ++ id_refs (apieces a).
Lemma refs_spec a t : In t (refs a) <-> exists p, In p (apieces a) /\ tracked p = Some t.
Proof.
  unfold refs, url_refs, id_refs. rewrite in_app_iff, !in_flat_map. split.
  - intros [(p & Hp & H)|(p & Hp & H)]; exists p; (split; [exact Hp|]); destruct p as [u|x|x|x]; try destruct H.
    + destruct (hash_case u) as [(f & ->)|E].
      * destruct H as [<-|[]]. reflexivity.
      * rewrite E in H. destruct H.
    + subst. reflexivity.
    + contradiction.
  - intros (p & Hp & H). destruct p as [u|x|x|x]; try discriminate H.
    + left. exists (Url u). split; [exact Hp|]. destruct (hash_case u) as [(f & ->)|E].
      * simpl in H. inversion H. left. reflexivity.
      * simpl in H. rewrite E in H. discriminate.
    + right. exists (IdRef x). split; [exact Hp|]. simpl in *. inversion H. auto.
Qed.

Lemma as_id_spec a t : as_id a = Some t <-> aname a = 0 /\ apieces a = [IdRef t].
Proof.
  unfold as_id. destruct (Nat.eqb_spec (aname a) 0) as [E|E]; split.
  - intros H. split; auto. destruct (apieces a) as [|[u|x|x|x] [|q l]]; inversion H; auto.
  - intros [_ ->]. reflexivity.
  - discriminate.
  - intros [H _]. congruence.
Qed.
Lemma has_id_as st e t : has_id st e t <-> exists a, In a (st e) /\ as_id a = Some t.
Proof.
  split; intros (a & H & H2); exists a; split; auto; apply as_id_spec; auto.
Qed.

(** * Preparation *)
Section Prepare.
Variable numeric : text -> bool.
Variable o : options.

Lemma prepare_none l : forall p, (forall a, In a l -> as_id a = None) -> prepare_attrs numeric o p l = (l, p).
Proof.
  induction l as [|a l IH]; intros p H; simpl; auto.
  unfold prepare_attr. rewrite (H a) by (left; auto). rewrite IH; auto. intros; apply H; right; auto.
Qed.

Record prep_step (p p' : prep) (l : list attr) : Prop := {
  ps_repl : forall t, In t (replaceable p) -> In t (replaceable p');
  ps_pres : forall t, In t (preserved p) -> In t (preserved p');
  ps_from : forall t, In t (replaceable p') -> In t (replaceable p) \/ has_percent t = true \/
              exists a, In a l /\ as_id a = Some t /\ is_preserved o t = false;
  ps_to : forall a t, In a l -> as_id a = Some t ->
              if is_preserved o t then In t (preserved p') else In t (replaceable p') }.

Lemma prepare_attrs_spec l : forall p, NoDup (map aname l) ->
  (forall a t, In a l -> as_id a = Some t -> ~ In t (replaceable p) /\ numeric t = false) ->
  exists p', prepare_attrs numeric o p l = (l, p') /\ prep_step p p' l.
Proof.
  induction l as [|a l IH]; intros p ND H.
  - exists p. split; auto. constructor; auto. intros ? ? [].
  - cbn [prepare_attrs]. unfold prepare_attr. inversion ND; subst.
    destruct (as_id a) as [t|] eqn:E.
    + destruct (H a t) as [H1 H2']; [left; auto|auto|]. apply mem_text_false in H1. rewrite H1, H2'. cbn [orb].
      assert (forall b, In b l -> as_id b = None) as HN.
      { intros b Hb. destruct (as_id b) as [u|] eqn:Eb; auto. exfalso.
        apply as_id_spec in E, Eb. destruct E as [E _], Eb as [Eb _]. apply H2.
        rewrite E, <- Eb. now apply in_map. }
      destruct (is_preserved o t) eqn:Pt.
      * rewrite prepare_none by exact HN. eexists. split; [reflexivity|].
        constructor; cbn [replaceable preserved]; auto.
        { intros u Hu; right; auto. }
        { intros b u [<-|Hb] Eu; [|rewrite HN in Eu by auto; discriminate].
          rewrite E in Eu. inversion Eu; subst. rewrite Pt. left; auto. }
      * rewrite prepare_none by exact HN. eexists. split; [reflexivity|].
        constructor; cbn [replaceable preserved]; auto.
        { intros u Hu. right. destruct (text_eqb (url_encode t) t); [auto|right; auto]. }
        { intros u [<-|Hu].
          - right. right. exists a. repeat split; auto. left; auto.
          - destruct (text_eqb (url_encode t) t) eqn:En; auto.
            destruct Hu as [<-|Hu]; auto. right. left. apply encode_changed. now apply text_eqb_neq. }
        { intros b u [<-|Hb] Eu; [|rewrite HN in Eu by auto; discriminate].
          rewrite E in Eu. inversion Eu; subst. rewrite Pt. left; auto. }
    + destruct (IH p H3) as (p' & E1 & [A B C D]). { intros; apply (H a0); auto. right; auto. }
      rewrite E1. exists p'. split; auto. constructor; auto.
      * intros t Ht. destruct (C t Ht) as [?|[?|(b & Hb & ?)]]; auto. right; right. exists b. split; auto. right; auto.
      * intros b t [<-|Hb] Eb; [congruence|]. apply (D b t); auto.
Qed.

Variable st : store.
Record prep_inv (seen : list nat) (p : prep) : Prop := {
  pi_from : forall t, In t (replaceable p) -> has_percent t = true \/
              exists e, In e seen /\ has_id st e t /\ is_preserved o t = false;
  pi_to : forall e t, In e seen -> has_id st e t ->
              if is_preserved o t then In t (preserved p) else In t (replaceable p) }.

Lemma prepare_spec order : forall seen p st1, NoDup (seen ++ order) ->
  (forall e, st1 e = st e) -> prep_inv seen p ->
  (forall e, In e order -> NoDup (map aname (st e))) ->
  (forall e t, In e (seen ++ order) -> has_id st e t -> numeric t = false /\ has_percent t = false) ->
  (forall e1 e2 t, In e1 (seen ++ order) -> In e2 (seen ++ order) -> has_id st e1 t -> has_id st e2 t -> e1 = e2) ->
  exists st2 p', fold_left (prepare_element numeric o) order (st1, p) = (st2, p') /\
    (forall e, st2 e = st e) /\ prep_inv (seen ++ order) p'.
Proof.
  induction order as [|e order IH]; intros seen p st1 ND Eq Inv Names Ids Uniq.
  - rewrite app_nil_r in *. exists st1, p. auto.
  - cbn [fold_left]. unfold prepare_element at 2. rewrite Eq.
    assert (In e (seen ++ e :: order)) as He by (apply in_or_app; right; left; auto).
    destruct (prepare_attrs_spec (st e) p) as (p' & E & [A B C D]).
    { apply Names. left; auto. }
    { intros a t Ha Ea. assert (has_id st e t) as HI by (apply has_id_as; eauto).
      destruct (Ids e t He HI) as [Hn Hp]. split; auto.
      intros Hr. destruct (pi_from _ _ Inv t Hr) as [H|(e' & He' & HI' & _)]; [congruence|].
      assert (e' = e) as ->. { apply (Uniq e' e t); auto. apply in_or_app; auto. }
      apply NoDup_remove_2 in ND. apply ND. apply in_or_app; auto. }
    rewrite E.
    assert (seen ++ e :: order = (seen ++ [e]) ++ order) as EQ by (rewrite <- app_assoc; reflexivity).
    rewrite EQ in *. apply IH; auto.
    + intros x. unfold upd. destruct (Nat.eqb_spec x e); subst; auto.
    + constructor.
      * intros t Ht. destruct (C t Ht) as [H|[H|(a & Ha & Ea & Hp)]]; auto.
        -- destruct (pi_from _ _ Inv t H) as [?|(x & Hx & HI & Hp)]; auto.
           right. exists x. split; [apply in_or_app; auto|auto].
        -- right. exists e. split; [apply in_or_app; right; left; auto|]. split; auto. apply has_id_as. eauto.
      * intros x t Hx HI. apply in_app_or in Hx. destruct Hx as [Hx|[<-|[]]].
        -- pose proof (pi_to _ _ Inv x t Hx HI) as H. destruct (is_preserved o t); auto.
        -- apply has_id_as in HI. destruct HI as (a & Ha & Ea). exact (D a t Ha Ea).
    + intros x Hx. apply Names. right; auto.
Qed.
End Prepare.

(** * Tracking *)
Definition all_refs (st : store) (es : list nat) : list rename :=
  flat_map (fun e => flat_map (fun a => map (Rename e (aname a)) (refs a)) (st e)) es.
Definition track1 (repl : list text) (s : list rename * gen) (r : rename) :=
  track repl (r_elem r) (r_name r) s (r_id r).

Lemma foldM_map {S A B} (f : S -> B -> option S) (g : A -> B) l : forall s,
  foldM f s (map g l) = foldM (fun s x => f s (g x)) s l.
Proof. induction l as [|x l IH]; intros; simpl; auto. destruct (f s (g x)); auto. Qed.

Lemma track_flat repl st st1 es s : (forall e, st1 e = st e) ->
  foldM (track_element repl st1) s es = foldM (track1 repl) s (all_refs st es).
Proof.
  intros Eq. unfold all_refs. rewrite <- foldM_flat. apply foldM_ext. intros s0 e.
  unfold track_element. rewrite Eq, <- foldM_flat. apply foldM_ext. intros s1 a.
  unfold track_attr. fold (refs a). rewrite foldM_map. reflexivity.
Qed.

Lemma track_spec repl L : forall rs g, gen_ok g -> exists g',
  foldM (track1 repl) (rs, g) L = Some (rs ++ filter (fun r => mem_text (r_id r) repl) L, g') /\ gen_ok g' /\
  (forall t, In t (prevent g) -> In t (prevent g')) /\
  (forall r, In r L -> mem_text (r_id r) repl = false -> In (r_id r) (prevent g')).
Proof.
  induction L as [|r L IH]; intros rs g O.
  - exists g. simpl. rewrite app_nil_r. repeat split; auto; try apply O. intros r [].
  - cbn [foldM filter]. unfold track1 at 1, track. destruct (mem_text (r_id r) repl) eqn:M.
    + destruct (IH (rs ++ [Rename (r_elem r) (r_name r) (r_id r)]) g O) as (g' & E & O' & I & N).
      exists g'. rewrite E. rewrite <- app_assoc. destruct r as [e n t]. split; [reflexivity|]. split; auto. split; auto.
      intros x [<-|Hx] Hm; auto. cbn [r_id] in *. congruence.
    + destruct (insert_prevent_spec g (r_id r)) as (g1 & E1 & O1 & P1); [apply O|]. rewrite E1.
      destruct (IH rs g1 O1) as (g' & E & O' & I & N). exists g'. split; auto. split; auto.
      rewrite P1 in I. split; [intros; apply I; right; auto|].
      intros x [<-|Hx] Hm; auto. apply I. left; auto.
Qed.

(** * Renaming *)
Definition sok (s : renaming) : Prop :=
  gen_ok (ids s) /\
  (forall k v, lookup k (minified s) = Some v ->
     letters v /\ ~ In v (prevent (ids s)) /\ (val v < val (current (ids s)))%N) /\
  (forall k1 k2 v, lookup k1 (minified s) = Some v -> lookup k2 (minified s) = Some v -> k1 = k2).

Record ext (n : nat) (r : text) (s s' : renaming) : Prop := {
  x_ok : sok s';
  x_prev : prevent (ids s') = prevent (ids s);
  x_other : forall k, k <> r -> lookup k (minified s') = lookup k (minified s);
  x_new : exists v, lookup r (minified s') = Some v /\ (n <> 0 -> In v (used s'));
  x_old : forall w, lookup r (minified s) = Some w -> lookup r (minified s') = Some w;
  x_used : forall u, In u (used s) -> In u (used s');
  x_from : forall u, In u (used s') -> In u (used s) \/ (n <> 0 /\ lookup r (minified s') = Some u) }.

Lemma ext_trans n r s1 s2 s3 : ext n r s1 s2 -> ext n r s2 s3 -> ext n r s1 s3.
Proof.
  intros A B. constructor.
  - apply B.
  - rewrite (x_prev _ _ _ _ B). apply A.
  - intros k H. rewrite (x_other _ _ _ _ B), (x_other _ _ _ _ A); auto.
  - apply B.
  - intros w H. apply B, A, H.
  - intros u H. apply B, A, H.
  - intros u H. destruct (x_from _ _ _ _ B u H) as [H1|H1]; auto.
    destruct (x_from _ _ _ _ A u H1) as [H2|[H2 H3]]; auto. right. split; auto. now apply B.
Qed.

Lemma lookup_cons k k0 v m : lookup k ((k0, v) :: m) = if text_eqb k0 k then Some v else lookup k m.
Proof. unfold lookup. simpl. destruct (text_eqb k0 k); reflexivity. Qed.

Lemma assign_spec n r s : sok s -> exists v s', assign n r s = Some (v, s') /\ ext n r s s' /\
  lookup r (minified s') = Some v.
Proof.
  intros (G & Vs & Inj). unfold assign. destruct (lookup r (minified s)) as [w|] eqn:L.
  - eexists w, _. split; [reflexivity|]. split; [|exact L]. constructor; cbn [minified used ids]; auto.
    + split; [exact G|split; [exact Vs|exact Inj]].
    + exists w. split; auto. intros H. apply Nat.eqb_neq in H. rewrite H. left; auto.
    + intros u H. destruct (Nat.eqb n 0); auto. right; auto.
    + intros u. destruct (Nat.eqb_spec n 0); auto. intros [<-|H]; auto.
  - destruct (next_spec (ids s)) as (g & E & O & P & V); [apply G|]. rewrite E.
    eexists _, _. split; [reflexivity|]. cbn [minified used ids]. split.
    2:{ rewrite lookup_cons, text_eqb_refl. reflexivity. }
    constructor; cbn [minified used ids]; auto.
    + split; [exact O|]. cbn [minified used ids]. split.
      * intros k v. rewrite lookup_cons, P. destruct (text_eqb r k).
        -- intros Q; inversion Q; subst. destruct G as [G1 G2]. repeat split; auto; apply G1.
        -- intros Q. destruct (Vs k v Q) as (A & B & C). repeat split; auto; try apply A. lia.
      * intros k1 k2 v. rewrite !lookup_cons.
        destruct (text_eqb r k1) eqn:E1, (text_eqb r k2) eqn:E2; intros Q1 Q2.
        -- apply text_eqb_spec in E1, E2. congruence.
        -- inversion Q1; subst. destruct (Vs _ _ Q2) as (_ & _ & C). lia.
        -- inversion Q2; subst. destruct (Vs _ _ Q1) as (_ & _ & C). lia.
        -- apply (Inj _ _ v); auto.
    + intros k H. rewrite lookup_cons. destruct (text_eqb r k) eqn:E1; auto. apply text_eqb_spec in E1. congruence.
    + exists (current (ids s)). rewrite lookup_cons, text_eqb_refl. split; auto.
      intros H. apply Nat.eqb_neq in H. rewrite H. left; auto.
    + intros w Q. congruence.
    + intros u H. destruct (Nat.eqb n 0); auto. right; auto.
    + intros u. destruct (Nat.eqb_spec n 0); auto. intros [<-|H]; auto.
      right. split; auto. rewrite lookup_cons, text_eqb_refl. reflexivity.
Qed.

Definition put (set : text -> piece -> piece) (hit : piece -> bool) (r : text) (s : renaming) (p : piece) : piece :=
  if hit p then match lookup r (minified s) with Some v => set v p | None => p end else p.

Lemma visit_spec hit set n r l : forall s, sok s -> exists s',
  visit true hit set n r l s = Some (map (put set hit r s') l, s') /\
  (existsb hit l = false -> s' = s) /\ (existsb hit l = true -> ext n r s s').
Proof.
  induction l as [|p l IH]; intros s S.
  - exists s. split; [reflexivity|]. split; [auto|discriminate].
  - cbn [visit existsb map]. destruct (hit p) eqn:Hp.
    + destruct (assign_spec n r s S) as (v & s1 & E & X & L). rewrite E.
      destruct (IH s1 (x_ok _ _ _ _ X)) as (s' & E2 & A & B). rewrite E2.
      assert (ext n r s s') as X'.
      { destruct (existsb hit l); [eapply ext_trans; eauto|rewrite A; auto]. }
      exists s'. split; [|split; [discriminate|auto]].
      assert (lookup r (minified s') = Some v) as L'.
      { destruct (existsb hit l) eqn:EX; [apply (x_old _ _ _ _ (B eq_refl)); auto|rewrite A; auto]. }
      unfold put at 2. rewrite Hp, L'. reflexivity.
    + destruct (IH s S) as (s' & E2 & A & B). rewrite E2. exists s'. split; [|split; auto].
      unfold put at 2. rewrite Hp. reflexivity.
Qed.

Lemma visit_false_spec hit set n r l : forall s, sok s -> exists s',
  visit false hit set n r l s = Some (l, s') /\ sok s'.
Proof.
  induction l as [|p l IH]; intros s S; [exists s; auto|]. cbn [visit]. destruct (hit p).
  - destruct (assign_spec n r s S) as (v & s1 & E & X & L). rewrite E.
    destruct (IH s1 (x_ok _ _ _ _ X)) as (s' & E2 & A). rewrite E2. eauto.
  - destruct (IH s S) as (s' & E2 & A). rewrite E2. eauto.
Qed.

(** The new text of a piece. *)
Definition set_name (v : text) (p : piece) : piece :=
  match p with Url _ => Url (35%N :: v) | IdRef _ => IdRef v | _ => p end.
Definition hit (r : text) (p : piece) : bool := hit_url r p || hit_id r p.

Lemma rename_value_spec n r l s : sok s -> exists s',
  rename_value true n r l s = Some (map (put set_name (hit r) r s') l, s') /\
  (existsb (hit r) l = false -> s' = s) /\ (existsb (hit r) l = true -> ext n r s s').
Proof.
  intros S. unfold rename_value.
  destruct (visit_spec (hit_url r) set_url n r l s S) as (s1 & E1 & A1 & B1). rewrite E1.
  assert (sok s1) as S1.
  { destruct (existsb (hit_url r) l) eqn:X; [apply (B1 eq_refl)|rewrite A1; auto]. }
  destruct (visit_spec (hit_id r) set_id n r (map (put set_url (hit_url r) r s1) l) s1 S1) as (s' & E2 & A2 & B2).
  rewrite E2.
  assert (existsb (hit_id r) (map (put set_url (hit_url r) r s1) l) = existsb (hit_id r) l) as HX.
  { clear. induction l as [|p l IH]; auto. cbn [map existsb]. rewrite IH. f_equal.
    unfold put. destruct (hit_url r p) eqn:H; auto. destruct p as [u|x|x|x]; try discriminate H.
    destruct (lookup r (minified s1)); reflexivity. }
  rewrite HX in *. exists s'.
  assert (existsb (hit r) l = existsb (hit_url r) l || existsb (hit_id r) l) as HH.
  { clear. induction l as [|p l IH]; auto. cbn [existsb]. rewrite IH. unfold hit.
    destruct (hit_url r p), (hit_id r p); cbn [orb]; auto; now rewrite orb_true_r. }
  split; [|split].
  - f_equal. f_equal. rewrite map_map. apply map_ext_in. intros p Hp. unfold put at 2. unfold put, hit.
    destruct (hit_url r p) eqn:H; cbn [orb].
    + assert (existsb (hit_url r) l = true) as T by (apply existsb_exists; eauto).
      destruct (x_new _ _ _ _ (B1 T)) as (v & L & _). rewrite L.
      assert (lookup r (minified s') = Some v) as L'.
      { destruct (existsb (hit_id r) l) eqn:X; [apply (x_old _ _ _ _ (B2 eq_refl)); auto|rewrite A2; auto]. }
      rewrite L'. destruct p as [u|x|x|x]; try discriminate H. reflexivity.
    + destruct (hit_id r p) eqn:H2; auto. destruct p as [u|x|x|x]; try discriminate H2. reflexivity.
  - rewrite HH. intros H. apply orb_false_iff in H. destruct H as [H1 H2]. rewrite (A2 H2). exact (A1 H1).
  - rewrite HH. intros H. destruct (existsb (hit_url r) l) eqn:X1.
    + destruct (existsb (hit_id r) l) eqn:X2; [eapply ext_trans; eauto|rewrite A2; auto].
    + cbn [orb] in H. rewrite <- (A1 eq_refl). auto.
Qed.

(** * The loop *)
Definition done_has (done : list rename) (e n : nat) (t : text) : bool :=
  existsb (fun r => Nat.eqb (r_elem r) e && Nat.eqb (r_name r) n && text_eqb (r_id r) t) done.
Lemma done_has_spec done e n t : done_has done e n t = true <-> In (Rename e n t) done.
Proof.
  unfold done_has. rewrite existsb_exists. split.
  - intros ([e' n' t'] & H & E). cbn in E. rewrite !andb_true_iff, !Nat.eqb_eq, text_eqb_spec in E.
    destruct E as [[-> ->] ->]. exact H.
  - intros H. eexists. split; [exact H|]. cbn. rewrite !Nat.eqb_refl, text_eqb_refl. reflexivity.
Qed.
Definition ren_piece (D : text -> bool) (m : list (text * text)) (p : piece) : piece :=
  match tracked p with
  | Some t => if D t then match lookup t m with Some v => set_name v p | None => p end else p
  | None => p end.
Definition ren (e : nat) (done : list rename) (m : list (text * text)) (a : attr) : attr :=
  Attr (aname a) (map (ren_piece (done_has done e (aname a)) m) (apieces a)).

Lemma hit_tracked r p : hit r p = true <->
  (match p with Url (35%N :: f) => f = r | _ => False end) \/ (tracked p = Some r).
Proof.
  unfold hit. destruct p as [u|x|x|x]; simpl.
  - rewrite orb_false_r. destruct (hash_case u) as [(f & ->)|H].
    + destruct (url_decode f) as [d|].
      * rewrite orb_true_iff, !text_eqb_spec. split; intros [E|E]; auto; [subst; auto|inversion E; auto].
      * rewrite orb_false_r, text_eqb_spec. split; [auto|intros [E|E]; [auto|now inversion E]].
    + rewrite !H. split; [discriminate|intros [[]|Q]; discriminate Q].
  - rewrite text_eqb_spec. split; [intros ->; auto|intros [[]|E]; now inversion E].
  - split; [discriminate|intros [[]|Q]; discriminate Q].
  - split; [discriminate|intros [[]|Q]; discriminate Q].
Qed.

Lemma set_name_tracked v p t : letters v -> tracked p = Some t -> tracked (set_name v p) = Some v.
Proof.
  intros L H. destruct p as [u|x|x|x]; try discriminate H; simpl; auto.
  rewrite decode_plain; auto. now apply letters_no_percent.
Qed.
Lemma set_name_hit v p t r : letters v -> tracked p = Some t -> hit r (set_name v p) = true -> v = r.
Proof.
  intros L T H. apply hit_tracked in H. destruct H as [H|H].
  - destruct p; simpl in *; contradiction || auto.
  - rewrite (set_name_tracked v p t L T) in H. now inversion H.
Qed.
Lemma set_name_twice v w p : set_name v (set_name w p) = set_name v p.
Proof. destruct p; reflexivity. Qed.

(** One rename applied to one attribute. *)
Lemma rename_attr_step n t (D : text -> bool) pieces s :
  sok s ->
  unmixed (Attr n pieces) ->
  (forall u, D u = true -> exists v, lookup u (minified s) = Some v /\ (n <> 0 -> In v (used s))) ->
  (exists p, In p pieces /\ tracked p = Some t) ->
  exists s', rename_value true n t (map (ren_piece D (minified s)) pieces) s =
               Some (map (ren_piece (fun u => D u || text_eqb t u) (minified s')) pieces, s')
    /\ sok s' /\ prevent (ids s') = prevent (ids s)
    /\ (forall k w, lookup k (minified s) = Some w -> lookup k (minified s') = Some w)
    /\ (exists v, lookup t (minified s') = Some v /\ (n <> 0 -> In v (used s')))
    /\ (forall u, In u (used s) -> In u (used s'))
    /\ (forall u, In u (used s') -> In u (used s) \/ (n <> 0 /\ lookup t (minified s') = Some u)).
Proof.
  intros S UM HD (p0 & Hp0 & T0).
  destruct (rename_value_spec n t (map (ren_piece D (minified s)) pieces) s S) as (s' & E & A & B).
  exists s'. rewrite E.
  set (q := map (ren_piece D (minified s)) pieces) in *.
  assert (sok s' /\ prevent (ids s') = prevent (ids s)
    /\ (forall k w, lookup k (minified s) = Some w -> lookup k (minified s') = Some w)
    /\ (forall u, In u (used s) -> In u (used s'))
    /\ (forall u, In u (used s') -> In u (used s) \/ (n <> 0 /\ lookup t (minified s') = Some u))
    /\ (forall k, k <> t -> lookup k (minified s') = lookup k (minified s))) as (S' & P' & M' & U1 & U2 & O').
  { destruct (existsb (hit t) q) eqn:X.
    - destruct (B eq_refl) as [X1 X2 X3 X4 X5 X6 X7]. refine (conj X1 (conj X2 (conj _ (conj X6 (conj X7 X3))))).
      intros k w H. destruct (text_eq_dec k t) as [->|Dk]; auto. rewrite X3; auto.
    - rewrite (A eq_refl). split; [exact S|]. split; [reflexivity|]. split; [auto|]. split; [auto|]. split; auto. }
  assert (exists v, lookup t (minified s') = Some v /\ (n <> 0 -> In v (used s'))) as Hnew.
  { destruct (D t) eqn:Dt.
    - destruct (HD t Dt) as (v & L & U). exists v. split; auto.
    - assert (existsb (hit t) q = true) as X.
      { apply existsb_exists. exists (ren_piece D (minified s) p0). split; [apply in_map; auto|].
        unfold ren_piece. rewrite T0, Dt. apply hit_tracked. auto. }
      apply (x_new _ _ _ _ (B X)). }
  split; [|split; [exact S'|split; [exact P'|split; [exact M'|split; [exact Hnew|split; [exact U1|exact U2]]]]]].
  f_equal. f_equal. unfold q. rewrite map_map. apply map_ext_in. intros p Hp.
  destruct Hnew as (vt & Lt & _).
  unfold put. rewrite Lt. symmetry. unfold ren_piece at 1. symmetry.
  destruct (tracked p) as [u|] eqn:Tp.
  2:{ assert (ren_piece D (minified s) p = p) as EQ by (unfold ren_piece; now rewrite Tp). rewrite EQ.
      destruct (hit t p) eqn:H; auto. apply hit_tracked in H. destruct H as [H|H]; [|congruence].
      destruct p as [x|x|x|x]; try contradiction. destruct (hash_case x) as [(f & ->)|Q]; [discriminate Tp|].
      rewrite Q in H. destruct H. }
  destruct (text_eq_dec u t) as [->|NE].
  - rewrite text_eqb_refl, orb_true_r, Lt. unfold ren_piece. rewrite Tp. destruct (D t) eqn:Dt.
    + destruct (HD t Dt) as (w & Lw & _). rewrite Lw. pose proof (M' _ _ Lw) as Q. rewrite Lt in Q. inversion Q; subst w.
      rewrite set_name_twice. now destruct (hit t (set_name vt p)).
    + assert (hit t p = true) as -> by (apply hit_tracked; auto). reflexivity.
  - assert (text_eqb t u = false) as TE by (apply text_eqb_neq; congruence). rewrite TE, orb_false_r.
    destruct UM as [UM|UM].
    { exfalso. apply NE. apply (UM p p0); auto; apply names_tracked; auto. }
    destruct (UM p0 t Hp0) as [NLt _]; [now apply names_tracked|].
    destruct (UM p u Hp) as [_ NP]; [now apply names_tracked|].
    unfold ren_piece. rewrite Tp. destruct (D u) eqn:Du.
    + destruct (HD u Du) as (w & Lw & _). rewrite Lw. rewrite (O' u NE), Lw.
      destruct S as (_ & Vs & _). destruct (Vs _ _ Lw) as (LW & _ & _).
      destruct (hit t (set_name w p)) eqn:H; auto.
      apply (set_name_hit w p u t LW Tp) in H. subst. contradiction.
    + destruct (hit t p) eqn:H; auto. exfalso. apply hit_tracked in H. destruct H as [H|H]; [|congruence].
      destruct p as [x|x|x|x]; try contradiction. destruct (hash_case x) as [(f & ->)|Q].
      * subst f. simpl in Tp. rewrite (decode_plain t) in Tp by (apply NP; auto). congruence.
      * rewrite Q in H. destruct H.
Qed.

Lemma rename_attrs_spec mn n r (g h : attr -> attr) l a0 v s s' :
  (forall a, aname (g a) = aname a) -> NoDup (map aname l) -> In a0 l -> aname a0 = n ->
  rename_value mn n r (apieces (g a0)) s = Some (v, s') ->
  h a0 = Attr n v -> (forall a, In a l -> aname a <> n -> h a = g a) ->
  rename_attrs mn n r (map g l) s = Some (map h l, s').
Proof.
  intros Hg. induction l as [|a l IH]; intros ND Hin Hn E H0 HH; [destruct Hin|].
  cbn [map rename_attrs]. rewrite Hg. inversion ND as [|? ? H1 H2]; subst.
  destruct Hin as [->|Hin].
  - rewrite Nat.eqb_refl, E, H0. f_equal. f_equal. f_equal.
    apply map_ext_in. intros b Hb. symmetry. apply HH; [right; auto|].
    intros Q. apply H1. rewrite <- Q. now apply in_map.
  - destruct (Nat.eqb_spec (aname a) (aname a0)) as [Q|Q].
    + exfalso. apply H1. rewrite Q. now apply in_map.
    + rewrite IH; auto. * rewrite (HH a); [reflexivity|left; auto|auto]. * intros b Hb. apply HH. right; auto.
Qed.

Section Loop.
Variable st : store.
Variable es : list nat.
Variable repl : list text.
Hypothesis ND : forall e, In e es -> NoDup (map aname (st e)).
Hypothesis UM : forall e a, In e es -> In a (st e) -> unmixed a.
Variable P : list text.

Record loop_inv (done : list rename) (st' : store) (s : renaming) : Prop := {
  li_ok : sok s;
  li_prev : prevent (ids s) = P;
  li_done : forall r, In r done -> exists v, lookup (r_id r) (minified s) = Some v /\ (r_name r <> 0 -> In v (used s));
  li_used : forall u, In u (used s) -> exists r, In r done /\ r_name r <> 0 /\ lookup (r_id r) (minified s) = Some u;
  li_store : forall e, st' e = map (ren e done (minified s)) (st e) }.

Definition good (r : rename) : Prop :=
  In (r_elem r) es /\ mem_text (r_id r) repl = true /\
  exists a p, In a (st (r_elem r)) /\ aname a = r_name r /\ In p (apieces a) /\ tracked p = Some (r_id r).

Lemma loop_step done st1 s r : good r -> loop_inv done st1 s ->
  exists st2 s2, rename_step true repl (st1, s) r = Some (st2, s2) /\ loop_inv (done ++ [r]) st2 s2.
Proof.
  intros (He & Hm & a & p & Ha & Hn & Hp & Tp) [OK PV DN US ST].
  destruct r as [e n t]. cbn [r_elem r_name r_id] in *.
  unfold rename_step. cbn [r_elem r_name r_id]. rewrite Hm. cbn [negb]. rewrite ST.
  destruct (rename_attr_step n t (done_has done e n) (apieces a) s) as (s' & E & S' & P' & M' & N' & U1 & U2); auto.
  { replace (Attr n (apieces a)) with a by (destruct a; cbn in *; congruence). apply (UM e); auto. }
  { intros u Du. apply done_has_spec in Du. destruct (DN _ Du) as (v & L & U). exists v. split; auto. }
  { exists p; auto. }
  assert (forall b, map (ren_piece (done_has done e (aname b)) (minified s)) (apieces b) =
                    map (ren_piece (done_has done e (aname b)) (minified s')) (apieces b)) as Stab.
  { intros b. apply map_ext. intros x. unfold ren_piece. destruct (tracked x) as [u|]; auto.
    destruct (done_has done e (aname b) u) eqn:Du; auto. apply done_has_spec in Du.
    destruct (DN _ Du) as (v & L & _). cbn [r_id] in L. rewrite L, (M' _ _ L). reflexivity. }
  assert (forall x m u, done_has (done ++ [Rename e n t]) x m u =
                        done_has done x m u || (Nat.eqb e x && Nat.eqb n m && text_eqb t u)) as DH.
  { intros x m u. unfold done_has. rewrite existsb_app. cbn [existsb r_elem r_name r_id]. now rewrite orb_false_r. }
  rewrite (rename_attrs_spec true n t (ren e done (minified s)) (ren e (done ++ [Rename e n t]) (minified s'))
             (st e) a (map (ren_piece (fun u => done_has done e n u || text_eqb t u) (minified s')) (apieces a)) s s');
    auto.
  - eexists _, _. split; [reflexivity|]. constructor; auto.
    + congruence.
    + intros r Hr. apply in_app_or in Hr. destruct Hr as [Hr|[<-|[]]].
      * destruct (DN _ Hr) as (v & L & U). exists v. split; auto.
      * exact N'.
    + intros u Hu. destruct (U2 u Hu) as [H|[H1 H2]].
      * destruct (US u H) as (r & Hr & Hnr & L). exists r. split; [apply in_or_app; auto|]. split; auto.
      * exists (Rename e n t). split; [apply in_or_app; right; left; auto|]. split; auto.
    + intros x. unfold upd. destruct (Nat.eqb_spec x e) as [->|NE].
      * reflexivity.
      * rewrite ST. apply map_ext. intros b. unfold ren. f_equal. apply map_ext. intros y. unfold ren_piece.
        destruct (tracked y) as [u|]; auto. rewrite DH.
        assert (Nat.eqb e x = false) as -> by (apply Nat.eqb_neq; auto). cbn [andb]. rewrite orb_false_r.
        destruct (done_has done x (aname b) u) eqn:Du; auto. apply done_has_spec in Du.
        destruct (DN _ Du) as (v & L & _). cbn [r_id] in L. rewrite L, (M' _ _ L). reflexivity.
  - cbn [ren apieces]. rewrite Hn. exact E.
  - unfold ren. rewrite Hn. f_equal. apply map_ext. intros y. unfold ren_piece.
    destruct (tracked y) as [u|]; auto. rewrite DH, !Nat.eqb_refl. cbn [andb]. reflexivity.
  - intros b Hb Hbn. unfold ren. f_equal. rewrite Stab. apply map_ext. intros y. unfold ren_piece.
    destruct (tracked y) as [u|]; auto. rewrite DH, Nat.eqb_refl.
    assert (Nat.eqb n (aname b) = false) as -> by (apply Nat.eqb_neq; auto). cbn [andb]. now rewrite orb_false_r.
Qed.

Lemma loop_spec rs : forall done st1 s, Forall good rs -> loop_inv done st1 s ->
  exists st2 s2, foldM (rename_step true repl) (st1, s) rs = Some (st2, s2) /\ loop_inv (done ++ rs) st2 s2.
Proof.
  induction rs as [|r rs IH]; intros done st1 s F I.
  - exists st1, s. rewrite app_nil_r. auto.
  - inversion F; subst. destruct (loop_step done st1 s r H1 I) as (st2 & s2 & E & I2).
    destruct (IH _ _ _ H2 I2) as (st3 & s3 & E3 & I3). cbn [foldM]. rewrite E.
    exists st3, s3. rewrite <- app_assoc in I3. auto.
Qed.
End Loop.

(** Renaming switched off: the values stay. *)
Lemma rename_attrs_false n r l : forall s, sok s -> exists s', rename_attrs false n r l s = Some (l, s') /\ sok s'.
Proof.
  induction l as [|a l IH]; intros s S; cbn [rename_attrs]; [eauto|].
  destruct (Nat.eqb (aname a) n).
  - unfold rename_value. destruct (visit_false_spec (hit_url r) set_url n r (apieces a) s S) as (s1 & E1 & S1). rewrite E1.
    destruct (visit_false_spec (hit_id r) set_id n r (apieces a) s1 S1) as (s2 & E2 & S2). rewrite E2.
    exists s2. destruct a. auto.
  - destruct (IH s S) as (s' & E & S'). rewrite E. eauto.
Qed.
Lemma loop_false repl (st : store) rs : forall (st1 : store) s, sok s -> (forall e, st1 e = st e) ->
  exists (st2 : store) s2, foldM (rename_step false repl) (st1, s) rs = Some (st2, s2) /\ (forall e, st2 e = st e).
Proof.
  induction rs as [|r rs IH]; intros st1 s S Eq; cbn [foldM]; [eauto|].
  unfold rename_step at 1. destruct (negb (mem_text (r_id r) repl)); auto.
  destruct (rename_attrs_false (r_name r) (r_id r) (st1 (r_elem r)) s S) as (s' & E & S'). rewrite E.
  apply IH; auto. intros e. unfold upd. destruct (Nat.eqb_spec e (r_elem r)); subst; auto.
Qed.

(** * Removal *)
Lemma remove_spec us pv es : forall st e, fold_left (remove_ids us pv) es st e =
  if existsb (Nat.eqb e) es then filter (keep_id us pv) (st e) else st e.
Proof.
  induction es as [|x es IH]; intros st e; cbn [fold_left existsb]; auto.
  rewrite IH. unfold remove_ids, upd. destruct (Nat.eqb_spec e x) as [->|NE]; cbn [orb].
  - destruct (existsb (Nat.eqb x) es); auto.
    induction (st x) as [|a l IHl]; auto. cbn [filter]. destruct (keep_id us pv a) eqn:K; auto.
    cbn [filter]. rewrite K. now f_equal.
  - reflexivity.
Qed.
