(** Proofs about collapsing groups. *)
From Coq Require Import String List NArith ZArith Bool Arith Lia.
From Verif Require Import Chars GroupModel GroupSpec GroupProofs GroupProofs2.
Import ListNotations.

(** ** The loop without animations *)
Lemma remove_front d : forall rest, remove_all (map name_of d) (d ++ rest) = rest.
Proof.
  induction d as [|a d IH]; intros rest; [reflexivity|]. unfold remove_all. cbn [map fold_left app remove_attr]. rewrite name_eqb_refl. apply IH.
Qed.
Lemma remove_front' d : remove_all (map name_of d) d = [].
Proof. rewrite <- (app_nil_r d) at 2. apply remove_front. Qed.
(** What the child becomes with one more attribute; [None] ends the loop. *)
Definition absorb (a : gattr) (c : list gattr) : option (list gattr) :=
  match get_attr (name_of a) c with
  | None => Some (set_attr a c)
  | Some b =>
      match a with
      | ATransform l => match b with ATransform cl => Some (set_attr (ATransform (l ++ cl)) c) | _ => Some c end
      | _ => match how_inheritable b with
             | HInherit => Some (set_attr a c)
             | HDefined => Some c
             | HNot => if gattr_dec a b then Some c else None
             end
      end
  end.
Fixpoint absorb_all (todo c : list gattr) : list gattr * list gattr :=
  match todo with
  | [] => ([], c)
  | a :: rest => match absorb a c with Some c => absorb_all rest c | None => (todo, c) end
  end.

Section Names.
Variable local_name : aname -> text.

Lemma loop_absorb cname ckids : is_anim cname = false -> (forall n, existsb (any_elem (animates local_name n)) ckids = false) ->
  forall todo d c, move_loop local_name cname ckids todo d (map name_of d) c = Moved (fst (absorb_all todo c)) (snd (absorb_all todo c)).
Proof.
  intros HA HK. induction todo as [|a todo IH]; intros d c.
  - cbn [move_loop absorb_all fst snd]. rewrite remove_front'. reflexivity.
  - cbn [move_loop absorb_all]. rewrite HA, HK. cbn [andb]. replace (animates local_name (name_of a) cname c) with false by (destruct cname; auto; discriminate HA).
    cbn [orb].
    assert (S : forall b, name_of b = name_of a -> map name_of d ++ [name_of a] = map name_of (d ++ [b])).
    { intros b E. rewrite map_app. cbn [map]. rewrite E. reflexivity. }
    unfold absorb. destruct (get_attr (name_of a) c) as [b|] eqn:G.
    + pose proof (get_name _ _ _ G) as [_ NB].
      destruct a as [l| | | | | |]; cbn [name_of] in *;
      [destruct b; try discriminate NB; [rewrite (S (ATransform [])) by reflexivity|rewrite (S (ATransform l)) by reflexivity|rewrite (S (ATransform l)) by reflexivity]; apply IH|..];
      (match goal with |- context [d ++ [?x]] => rewrite (S x) by reflexivity end;
       destruct (how_inheritable b); try apply IH;
       match goal with |- context [gattr_dec ?x ?y] => destruct (gattr_dec x y) end; try apply IH;
       cbn [fst snd]; rewrite remove_front; reflexivity).
    + rewrite (S a) by reflexivity. apply IH.
Qed.

(** ** One attribute *)
Definition okc (name : ename) (attrs : list gattr) : Prop := okt name attrs /\ simple_element name attrs.
Definition apart (g c : list gattr) : Prop := forall k, ~ (gives (Non k) g /\ gives (Non k) c).

Lemma gives_get p l : gives p l <-> get_attr (NProp p) l <> None.
Proof.
  split.
  - intros (v & H) E. apply get_none in E. apply E. change (NProp p) with (name_of (AProp p v)). apply in_map. exact H.
  - intros H. destruct (get_attr (NProp p) l) as [a|] eqn:E; [|destruct (H eq_refl)]. apply get_name in E. destruct E as [Ha N].
    destruct a as [| | | |q v| |]; try discriminate N. injection N as ->. exists v. exact Ha.
Qed.
Lemma okc_tail a l : okc EG (a :: l) -> okc EG l.
Proof.
  intros [[H1 H2] (H3 & H4 & H5)]. split; [split|].
  - unfold each_once in *. cbn [map] in H1. inversion H1; assumption.
  - intros b Hb. apply H2. right; exact Hb.
  - split; [exact H3|]. split; [exact H4|]. intros b Hb. apply H5. right; exact Hb.
Qed.
Lemma okc_set cn a c g : okc EG g -> In a g -> okc cn c -> okc cn (set_attr a c).
Proof.
  intros [[_ G2] (_ & _ & G5)] Ha [[H1 H2] (H3 & H4 & H5)]. split; [split|].
  - apply set_once, H1.
  - intros b Hb. apply in_set_attr in Hb. destruct Hb as [->|Hb]; [apply G2; exact Ha|apply H2; exact Hb].
  - split; [exact H3|]. split; [exact H4|]. intros b Hb. apply in_set_attr in Hb. destruct Hb as [->|Hb]; [apply G5; exact Ha|apply H5; exact Hb].
Qed.
Lemma okc_set_transform cn l c : okc cn c -> okc cn (set_attr (ATransform l) c).
Proof.
  intros [H (H3 & H4 & H5)]. split; [apply okt_set; exact H|]. split; [exact H3|]. split; [exact H4|].
  intros b Hb. apply in_set_attr in Hb. destruct Hb as [->|Hb]; [exact Logic.I|apply H5; exact Hb].
Qed.
(** Names that get a new value on the child are those of the attribute. *)
Lemma absorb_get a c c' n : absorb a c = Some c' -> n <> name_of a -> get_attr n c' = get_attr n c.
Proof.
  intros H D. assert (S : forall x, name_of x = name_of a -> get_attr n (set_attr x c) = get_attr n c).
  { intros x E. rewrite get_set, E, name_eqb_neq by congruence. reflexivity. }
  revert H. unfold absorb. destruct (get_attr (name_of a) c) as [b|].
  - destruct a; try (destruct (how_inheritable b); [|intros [= <-]; reflexivity|match goal with |- context [gattr_dec ?x ?y] => destruct (gattr_dec x y) end; [intros [= <-]; reflexivity|discriminate]];
      intros [= <-]; apply S; reflexivity).
    destruct b; intros [= <-]; try reflexivity. apply S. reflexivity.
  - intros [= <-]. apply S. reflexivity.
Qed.
Lemma absorb_ok cn a l c c' : okc EG (a :: l) -> okc cn c -> absorb a c = Some c' -> okc cn c'.
Proof.
  intros HG HC. assert (HS : okc cn (set_attr a c)) by (apply (okc_set cn a c (a :: l)); auto; left; reflexivity).
  unfold absorb. destruct (get_attr (name_of a) c) as [b|].
  - destruct a; try (destruct (how_inheritable b); [intros [= <-]; exact HS|intros [= <-]; exact HC|
      match goal with |- context [gattr_dec ?x ?y] => destruct (gattr_dec x y) end; [intros [= <-]; exact HC|discriminate]]).
    destruct b; intros [= <-]; try exact HC. apply okc_set_transform. exact HC.
  - intros [= <-]. exact HS.
Qed.
Lemma get_tail n a l : each_once (a :: l) -> get_attr n l = if name_eqb (name_of a) n then None else get_attr n (a :: l).
Proof.
  unfold each_once. cbn [map]. intros H. inversion H; subst. rewrite get_cons. destruct (name_eqb (name_of a) n) eqn:E; [|reflexivity].
  apply name_eqb_spec in E. subst. apply get_none. assumption.
Qed.
Lemma absorb_gives a l c c' k : each_once (a :: l) -> apart (a :: l) c -> absorb a c = Some c' ->
  (gives (Non k) l -> gives (Non k) (a :: l)) /\ (gives (Non k) c' -> gives (Non k) c \/ gives (Non k) (a :: l)) /\ ~ (gives (Non k) l /\ gives (Non k) c').
Proof.
  intros N A H. rewrite !gives_get. specialize (A k). rewrite !gives_get in A. rewrite (get_tail _ a l N).
  destruct (name_eqb (name_of a) (NProp (Non k))) eqn:E.
  - apply name_eqb_spec in E. split; [congruence|]. split; [|intros [D _]; congruence].
    intros _. right. rewrite get_cons, E, name_eqb_refl. discriminate.
  - rewrite (absorb_get a c c') by (auto; intros D; rewrite D, name_eqb_refl in E; discriminate). tauto.
Qed.

(** Each of the three quantities is the same with the attribute on the group or absorbed. *)
Lemma absorb_tr cn a l c c' : okc EG (a :: l) -> okc cn c -> absorb a c = Some c' -> tr l ++ tr c' = tr (a :: l) ++ tr c.
Proof.
  intros [[G1 G2] _] [[C1 C2] _] H. unfold tr. rewrite (get_tail _ a l G1). destruct (name_eqb (name_of a) NTransform) eqn:E.
  - apply name_eqb_spec in E. pose proof (G2 a (or_introl eq_refl)) as PA. destruct a; try discriminate E; try contradiction. rewrite get_cons. cbn [name_of]. rewrite name_eqb_refl. cbn [app].
    revert H. unfold absorb. cbn [name_of]. destruct (get_attr NTransform c) as [b|] eqn:B.
    + destruct (get_name _ _ _ B) as [Hb Nb]. pose proof (C2 b Hb) as PB. destruct b; try discriminate Nb; try contradiction.
      intros [= <-]. rewrite get_set. cbn [name_of]. rewrite name_eqb_refl. reflexivity.
    + intros [= <-]. rewrite get_set. cbn [name_of]. rewrite name_eqb_refl, app_nil_r. reflexivity.
  - rewrite (absorb_get a c c') by (auto; intros D; rewrite D, name_eqb_refl in E; discriminate). reflexivity.
Qed.
Definition inh (k : nat) (env : option text) (l : list gattr) : option text :=
  match match get_attr (NProp (Inh k)) l with Some a => attr_prop (Inh k) env a | None => None end with Some v => v | None => env end.
Lemma step_inh k name env l : okc name l -> step_inherited k name env l = inh k env l.
Proof.
  intros [[H1 _] (_ & _ & H5)]. rewrite inherited_get by exact H1. destruct (get_attr NStyle l) as [a|] eqn:E; [|reflexivity].
  destruct (get_name _ _ _ E) as [Ha N]. specialize (H5 a Ha). destruct a; try discriminate N. destruct H5.
Qed.
Lemma absorb_inh k env a l c c' : each_once (a :: l) -> absorb a c = Some c' -> inh k (inh k env l) c' = inh k (inh k env (a :: l)) c.
Proof.
  intros G1 H. assert (PD : prop_dec (Inh k) (Inh k) = left eq_refl) by (destruct (prop_dec (Inh k) (Inh k)) as [e|D]; [f_equal; apply Eqdep_dec.UIP_dec; apply prop_dec|destruct (D eq_refl)]).
  unfold inh. rewrite (get_tail _ a l G1). destruct (name_eqb (name_of a) (NProp (Inh k))) eqn:E.
  - apply name_eqb_spec in E. destruct a as [| | | |p v| |]; try discriminate E. cbn [name_of] in E. injection E as ->. rewrite get_cons. cbn [name_of]. rewrite name_eqb_refl.
    revert H. unfold absorb. cbn [name_of]. destruct (get_attr (NProp (Inh k)) c) as [b|] eqn:B.
    + destruct (get_name _ _ _ B) as [Hb Nb]. destruct b as [| | | |q w| |]; try discriminate Nb. cbn [name_of] in Nb. injection Nb as ->.
      cbn [how_inheritable]. destruct w as [w| |t].
      * intros [= <-]. rewrite B. cbn [attr_prop]. rewrite PD. reflexivity.
      * intros [= <-]. rewrite get_set. cbn [name_of]. rewrite name_eqb_refl. cbn [attr_prop]. rewrite PD. destruct v; reflexivity.
      * destruct (gattr_dec (AProp (Inh k) v) (AProp (Inh k) (PUnparsed t))) as [D|D]; [|discriminate]. injection D as ->.
        intros [= <-]. rewrite B. cbn [attr_prop]. rewrite PD. reflexivity.
    + intros [= <-]. rewrite get_set. cbn [name_of]. rewrite name_eqb_refl. destruct (attr_prop (Inh k) env (AProp (Inh k) v)); reflexivity.
  - rewrite (absorb_get a c c') by (auto; intros D; rewrite D, name_eqb_refl in E; discriminate). reflexivity.
Qed.
Definition effl (k : nat) (l : list gattr) : list text :=
  match get_attr (NProp (Non k)) l with Some a => match attr_prop (Non k) None a with Some (Some v) => [v] | _ => [] end | None => [] end.
Lemma step_eff k name env l : okc name l -> fst (step_effects k name env l) = fst env ++ effl k l.
Proof.
  intros [[H1 _] (_ & _ & H5)]. unfold step_effects, effl. cbn [fst]. f_equal.
  rewrite (pick_none (style_prop (Non k))).
  2:{ intros a Ha. specialize (H5 a Ha). destruct a; try reflexivity. destruct H5. }
  rewrite (pick_get (attr_prop (Non k) (snd env)) (NProp (Non k))).
  - destruct (get_attr (NProp (Non k)) l) as [a|] eqn:E; [|reflexivity]. destruct (get_name _ _ _ E) as [Ha N]. specialize (H5 a Ha).
    destruct a as [| | | |p v| |]; try discriminate N. injection N as ->. destruct H5 as (w & ->). cbn [attr_prop].
    destruct (prop_dec (Non k) (Non k)); reflexivity.
  - exact H1.
  - intros [] D; try reflexivity. cbn [attr_prop]. destruct (prop_dec p (Non k)); [subst; destruct (D eq_refl)|reflexivity].
Qed.
Lemma absorb_eff k a l c c' : each_once (a :: l) -> apart (a :: l) c -> absorb a c = Some c' -> effl k l ++ effl k c' = effl k (a :: l) ++ effl k c.
Proof.
  intros G1 A H. unfold effl. rewrite (get_tail _ a l G1). destruct (name_eqb (name_of a) (NProp (Non k))) eqn:E.
  - apply name_eqb_spec in E. specialize (A k). rewrite !gives_get, get_cons, E, name_eqb_refl in A.
    destruct (get_attr (NProp (Non k)) c) as [b|] eqn:B; [destruct A; split; discriminate|].
    revert H. unfold absorb. rewrite E, B. intros [= <-]. rewrite get_set, get_cons, E, name_eqb_refl, app_nil_r. reflexivity.
  - rewrite (absorb_get a c c') by (auto; intros D; rewrite D, name_eqb_refl in E; discriminate). reflexivity.
Qed.

(** ** All attributes *)
Lemma absorb_all_keeps cn : forall g c, okc EG g -> okc cn c -> apart g c ->
  let g' := fst (absorb_all g c) in let c' := snd (absorb_all g c) in
  okc EG g' /\ okc cn c' /\ apart g' c' /\
  (forall k, (gives (Non k) g' -> gives (Non k) g) /\ (gives (Non k) c' -> gives (Non k) c \/ gives (Non k) g)) /\
  tr g' ++ tr c' = tr g ++ tr c /\
  (forall k env, inh k (inh k env g') c' = inh k (inh k env g) c) /\
  (forall k, effl k g' ++ effl k c' = effl k g ++ effl k c).
Proof.
  induction g as [|a g IH]; intros c HG HC A; cbv zeta; cbn [absorb_all].
  - cbn [fst snd]. repeat (split; [first [assumption|tauto|reflexivity]|]). reflexivity.
  - destruct (absorb a c) as [c'|] eqn:H.
    + pose proof (proj1 (proj1 HG)) as G1.
      destruct (IH c' (okc_tail a g HG) (absorb_ok cn a g c c' HG HC H)) as (I1 & I2 & I3 & I4 & I5 & I6 & I7).
      { intros k. destruct (absorb_gives a g c c' k G1 A H) as (_ & _ & R). exact R. }
      split; [exact I1|]. split; [exact I2|]. split; [exact I3|]. split.
      { intros k. destruct (absorb_gives a g c c' k G1 A H) as (R1 & R2 & _). destruct (I4 k) as [J1 J2]. tauto. }
      split; [rewrite I5; apply (absorb_tr cn a g c c'); assumption|]. split; [intros k env; rewrite I6; apply (absorb_inh k env a g c c'); assumption|].
      intros k. rewrite I7. apply (absorb_eff k a g c c'); assumption.
    + cbn [fst snd]. repeat (split; [first [assumption|tauto|reflexivity]|]). reflexivity.
Qed.

(** ** A group and its children *)
Lemma once_kids k above name attrs kids :
  once_per_branch k above (GE name attrs kids) <-> ~ (above /\ gives (Non k) attrs) /\ Forall (once_per_branch k (above \/ gives (Non k) attrs)) kids.
Proof.
  cbn [once_per_branch]. split; intros [H1 H2]; (split; [exact H1|]).
  - induction kids as [|x kids IH]; [constructor|]. destruct H2. constructor; auto.
  - induction kids as [|x kids IH]; [exact Logic.I|]. inversion H2; subst. split; [assumption|]. apply IH. assumption.
Qed.
Lemma once_mono k n : forall A B : Prop, (B -> A) -> once_per_branch k A n -> once_per_branch k B n.
Proof.
  induction n as [t|name attrs kids IH] using node_ind'; intros A B H; [auto|]. rewrite !once_kids. intros [H1 H2]. split; [tauto|].
  rewrite Forall_forall in *. intros x Hx. apply (IH x Hx (A \/ gives (Non k) attrs)); [tauto|]. auto.
Qed.
Lemma seen_elems {E} (st : ename -> E -> list gattr -> E) env kids : flat_map (seen st env) kids = flat_map (seen st env) (filter is_elem kids).
Proof. induction kids as [|[]]; [reflexivity| |exact IHkids]. cbn [flat_map filter is_elem]. rewrite IHkids. reflexivity. Qed.
Lemma filter_set_child c kids : filter is_elem (map (set_child c) kids) = map (set_child c) (filter is_elem kids).
Proof. induction kids as [|[]]; cbn [map filter is_elem set_child]; [reflexivity| |exact IHkids]. rewrite IHkids. reflexivity. Qed.
Lemma no_anim_kids n : every okc n -> any_elem (fun name _ => is_anim name) n = false.
Proof.
  induction n as [t|name attrs kids IH] using node_ind'; [reflexivity|]. rewrite every_kids. intros [[_ (H & _)] H2]. cbn [any_elem].
  replace (is_anim name) with false by (destruct name; auto; congruence). cbn [orb].
  clear H. induction kids as [|x kids IHk]; [reflexivity|]. inversion IH; inversion H2; subst. cbn [existsb]. rewrite H1 by assumption. cbn [orb]. auto.
Qed.
Lemma no_animates n a : any_elem (fun name _ => is_anim name) n = false -> any_elem (animates local_name a) n = false.
Proof.
  induction n as [t|name attrs kids IH] using node_ind'; [reflexivity|]. cbn [any_elem]. intros H. apply orb_false_iff in H. destruct H as [H1 H2].
  apply orb_false_iff. split; [destruct name; auto; discriminate|].
  induction kids as [|x kids IHk]; [reflexivity|]. inversion IH; subst. cbn [existsb] in *. apply orb_false_iff in H2. destruct H2.
  apply orb_false_iff. split; auto.
Qed.
Lemma no_anim_list kids : Forall (every okc) kids -> existsb (any_elem (fun name _ => is_anim name)) kids = false.
Proof. induction 1 as [|x kids H HF IH]; [reflexivity|]. cbn [existsb]. rewrite no_anim_kids, IH by assumption. reflexivity. Qed.
Lemma no_animates_list kids a : Forall (every okc) kids -> existsb (any_elem (animates local_name a)) kids = false.
Proof. induction 1 as [|x kids H HF IH]; [reflexivity|]. cbn [existsb]. rewrite no_animates by (apply no_anim_kids; assumption). exact IH. Qed.

(** What a walk may ask: the new pair of attribute lists gives the same result on the child. *)
Definition good_walk {E} (st : ename -> E -> list gattr -> E) : Prop :=
  (forall env, st EG env [] = env) /\
  forall cn g c env, okc EG g -> okc cn c -> apart g c -> is_position_visually_unstable g cn c = false -> is_node_with_filter g = false ->
  st cn (st EG env (fst (absorb_all g c))) (snd (absorb_all g c)) = st cn (st EG env g) c.
Definition fine (above : nat -> Prop) (n : gnode) : Prop := every okc n /\ forall k, once_per_branch k (above k) n.

Lemma move_keeps g kids above : fine above (GE EG g kids) ->
  exists g' kids', move_attributes local_name g kids = Some (g', kids') /\ fine above (GE EG g' kids') /\
  forall E (st : ename -> E -> list gattr -> E), good_walk st -> forall env, flat_map (seen st (st EG env g')) kids' = flat_map (seen st (st EG env g)) kids.
Proof.
  intros F. unfold move_attributes. destruct (filter is_elem kids) as [|[cn c ck|t] [|y r]] eqn:FE; try (exists g, kids; auto; fail).
  assert (HC : In (GE cn c ck) kids) by (apply (proj1 (filter_In is_elem _ kids)); rewrite FE; left; reflexivity).
  destruct g as [|a0 g0] eqn:EG0; [exists [], kids; auto|]. rewrite <- EG0 in *. clear EG0 a0 g0.
  destruct (is_group_identifiable g c || is_position_visually_unstable g cn c || is_node_with_filter g) eqn:GD; [exists g, kids; auto|].
  apply orb_false_iff in GD. destruct GD as [GD GF]. apply orb_false_iff in GD. destruct GD as [_ GP].
  destruct F as [F1 F2]. pose proof F1 as F1'. apply every_kids in F1'. destruct F1' as [OG OK].
  pose proof OK as OK'. rewrite Forall_forall in OK'. pose proof (OK' _ HC) as OC. apply every_kids in OC. destruct OC as [OC OCK].
  assert (AP : apart g c).
  { intros k. specialize (F2 k). apply once_kids in F2. destruct F2 as [_ F2]. rewrite Forall_forall in F2. specialize (F2 _ HC).
    apply once_kids in F2. tauto. }
  rewrite (loop_absorb cn ck) with (d := []).
  2:{ destruct OC as [_ (H & _)]. destruct cn; auto; congruence. }
  2:{ intros n. apply no_animates_list. exact OCK. }
  destruct (absorb_all_keeps cn g c OG OC AP) as (K1 & K2 & K3 & K4 & _). cbv zeta in *.
  set (g' := fst (absorb_all g c)) in *. set (c' := snd (absorb_all g c)) in *.
  exists g', (map (set_child c') kids). split; [reflexivity|].
  assert (KE : forall x, In x kids -> set_child c' x = x \/ (x = GE cn c ck /\ set_child c' x = GE cn c' ck)).
  { intros [xn xa xk|t] Hx; [|left; reflexivity]. right. assert (In (GE xn xa xk) (filter is_elem kids)) as Hf by (apply filter_In; auto).
    rewrite FE in Hf. destruct Hf as [Hf|[]]. injection Hf as -> -> ->. auto. }
  split; [split|].
  - apply every_kids. split; [exact K1|]. apply Forall_map. apply Forall_forall. intros x Hx. destruct (KE x Hx) as [->|[-> ->]]; [auto|].
    apply every_kids. auto.
  - intros k. specialize (F2 k). specialize (K4 k). specialize (K3 k). specialize (AP k). apply once_kids in F2. destruct F2 as [F2 F3]. apply once_kids. split; [tauto|].
    apply Forall_map. rewrite Forall_forall in *. intros x Hx. destruct (KE x Hx) as [->|[-> ->]].
    + apply (once_mono k x (above k \/ gives (Non k) g)); [tauto|auto].
    + specialize (F3 _ Hx). apply once_kids in F3. destruct F3 as [F3 F4]. apply once_kids. split; [tauto|].
      rewrite Forall_forall in *. intros y Hy. apply (once_mono k y ((above k \/ gives (Non k) g) \/ gives (Non k) c)); [tauto|auto].
  - intros E st [_ HW] env. rewrite (seen_elems st _ kids), (seen_elems st _ (map (set_child c') kids)), filter_set_child, FE. cbn [map set_child flat_map].
    rewrite !app_nil_r. cbn [seen]. subst g' c'. rewrite HW by assumption. reflexivity.
Qed.

Definition fine_list (above : nat -> Prop) (l : list gnode) : Prop := Forall (fine above) l.
Lemma exit_keeps free name attrs kids above : fine above (GE name attrs kids) ->
  exists l, exit_group local_name free name attrs kids = Some l /\ fine_list above l /\ (free = false -> exists a, l = [GE name a kids]) /\
  forall E (st : ename -> E -> list gattr -> E), good_walk st -> forall env, flat_map (seen st env) l = seen st env (GE name attrs kids).
Proof.
  intros F. unfold exit_group. destruct (negb free || negb (is_g name) || negb (existsb is_elem kids)) eqn:G.
  - exists [GE name attrs kids]. split; [reflexivity|]. split; [constructor; [exact F|constructor]|]. split; [eauto|]. intros E st _ env. cbn [flat_map]. apply app_nil_r.
  - apply orb_false_iff in G. destruct G as [G _]. apply orb_false_iff in G. destruct G as [G1 G2]. destruct name; try discriminate G2.
    destruct (move_keeps attrs kids above F) as (g' & kids' & -> & F' & HS). exists (flatten_group g' kids'). split; [reflexivity|].
    assert (FK : existsb (any_elem (fun name _ => is_anim name)) kids' = false).
    { apply no_anim_list. destruct F' as [F' _]. apply every_kids in F'. tauto. }
    split; [|split; [destruct free; discriminate|]].
    + unfold flatten_group. destruct g' as [|a g']; [|constructor; [exact F'|constructor]]. rewrite FK. destruct F' as [F1 F2].
      apply Forall_forall. intros x Hx. split.
      * apply every_kids in F1. destruct F1 as [_ F1]. rewrite Forall_forall in F1. auto.
      * intros k. specialize (F2 k). apply once_kids in F2. destruct F2 as [_ F2]. rewrite Forall_forall in F2.
        apply (once_mono k x (above k \/ gives (Non k) [])); [tauto|auto].
    + intros E st W env. specialize (HS E st W env). cbn [seen is_g app]. rewrite <- HS. unfold flatten_group. destruct g' as [|a g'].
      * rewrite FK. destruct W as [W _]. rewrite W. reflexivity.
      * cbn [flat_map seen is_g app]. apply app_nil_r.
Qed.
(** The local loop of [collapse]. *)
Fixpoint collapse_kids (b : bool) (l : list gnode) : option (list gnode) :=
  match l with
  | [] => Some []
  | k :: l => match collapse local_name b k, collapse_kids b l with
              | Some a, Some b => Some (a ++ b)
              | _, _ => None
              end
  end.
Lemma collapse_eq free name attrs kids : collapse local_name free (GE name attrs kids) =
  match collapse_kids (negb (is_switch name)) kids with None => None | Some kids => exit_group local_name free name attrs kids end.
Proof.
  cbn [collapse]. match goal with |- match ?f kids with _ => _ end = _ => assert (H : forall l, f l = collapse_kids (negb (is_switch name)) l) end.
  { induction l as [|x l IH]; [reflexivity|]. cbn [collapse_kids]. rewrite <- IH. reflexivity. }
  rewrite H. reflexivity.
Qed.
Lemma collapse_keeps n : forall free above, fine above n ->
  exists l, collapse local_name free n = Some l /\ fine_list above l /\
  (free = false -> exists x, l = [x]) /\
  forall E (st : ename -> E -> list gattr -> E), good_walk st -> forall env, flat_map (seen st env) l = seen st env n.
Proof.
  induction n as [t|name attrs kids IH] using node_ind'; intros free above F.
  - exists [GT t]. split; [reflexivity|]. split; [constructor; [exact F|constructor]|]. split; [eauto|]. reflexivity.
  - rewrite collapse_eq. destruct F as [F1 F2]. pose proof F1 as F1'. apply every_kids in F1'. destruct F1' as [OG OK].
    set (ab := fun k => above k \/ gives (Non k) attrs).
    assert (FK : Forall (fine ab) kids).
    { apply Forall_forall. intros x Hx. split; [rewrite Forall_forall in OK; auto|]. intros k. specialize (F2 k). apply once_kids in F2. destruct F2 as [_ F2].
      rewrite Forall_forall in F2. apply F2. exact Hx. }
    assert (exists kids', collapse_kids (negb (is_switch name)) kids = Some kids' /\ fine_list ab kids' /\
      forall E (st : ename -> E -> list gattr -> E), good_walk st -> forall env, flat_map (seen st env) kids' = flat_map (seen st env) kids) as (kids' & -> & FK' & HS).
    { clear - IH FK. induction kids as [|x kids IHk]; [exists []; repeat split; constructor|].
      inversion IH; inversion FK; subst. destruct (IHk H2 H6) as (l2 & E2 & G2 & S2). destruct (H1 (negb (is_switch name)) ab H5) as (l1 & E1 & G1 & _ & S1).
      exists (l1 ++ l2). cbn [collapse_kids]. rewrite E1, E2. split; [reflexivity|]. split; [apply Forall_app; split; assumption|].
      intros E st W env. rewrite flat_map_app. cbn [flat_map]. rewrite S1, S2 by assumption. reflexivity. }
    assert (FN : fine above (GE name attrs kids')).
    { split.
      - apply every_kids. split; [exact OG|]. eapply Forall_impl; [|exact FK']. intros x []; assumption.
      - intros k. specialize (F2 k). apply once_kids in F2. apply once_kids. split; [tauto|]. eapply Forall_impl; [|exact FK']. intros x [_ H]. apply H. }
    destruct (exit_keeps free name attrs kids' above FN) as (l & -> & FL & HF & HL). exists l. split; [reflexivity|]. split; [exact FL|]. split.
    + intros E. destruct (HF E) as (a & ->). eauto.
    + intros E st W env. rewrite HL by exact W. cbn [seen]. f_equal. apply HS. exact W.
Qed.

(** The three walks. *)
Definition step_e (k : nat) (_ : ename) (env : list text) (l : list gattr) : list text := env ++ effl k l.
Definition step_i (k : nat) (_ : ename) (env : option text) (l : list gattr) : option text := inh k env l.
Definition step_r (_ : ename) (env : list tf) (l : list gattr) : list tf := env ++ tr l.
Lemma good_r : good_walk step_r.
Proof.
  split; [intros env; unfold step_r; apply app_nil_r|]. intros cn g c env HG HC A _ _. destruct (absorb_all_keeps cn g c HG HC A) as (_ & _ & _ & _ & H & _).
  cbv zeta in H. unfold step_r. rewrite <- !app_assoc, H. reflexivity.
Qed.
Lemma good_i k : good_walk (step_i k).
Proof.
  split; [reflexivity|]. intros cn g c env HG HC A _ _. destruct (absorb_all_keeps cn g c HG HC A) as (_ & _ & _ & _ & _ & H & _). apply H.
Qed.
Lemma good_e k : good_walk (step_e k).
Proof.
  split; [intros env; unfold step_e; apply app_nil_r|]. intros cn g c env HG HC A _ _. destruct (absorb_all_keeps cn g c HG HC A) as (_ & _ & _ & _ & _ & _ & H).
  cbv zeta in H. unfold step_e. rewrite <- !app_assoc, H. reflexivity.
Qed.
Lemma totals_r n : every okc n -> totals n = seen step_r [] n.
Proof.
  intros H. unfold totals. rewrite (seen_proj step_total step_r fst okc); [reflexivity| |exact H].
  intros name env attrs [HT (_ & HR & _)]. rewrite step_total_plain by exact HT. unfold step_t, step_r. destruct name; try reflexivity. congruence.
Qed.
Lemma inherited_i k n : every okc n -> inherited k n = seen (step_i k) None n.
Proof.
  intros H. unfold inherited. rewrite <- (seen_proj (step_inherited k) (step_i k) (fun x => x) okc) by (auto; intros; apply step_inh; assumption).
  rewrite <- (map_id (seen (step_inherited k) None n)) at 1. apply map_ext. intros []; reflexivity.
Qed.
Lemma effects_e k n : every okc n -> effects k n = seen (step_e k) [] n.
Proof.
  intros H. unfold effects. rewrite (seen_proj (step_effects k) (step_e k) fst okc); [reflexivity| |exact H].
  intros name env attrs HO. rewrite step_eff by exact HO. reflexivity.
Qed.
Theorem collapse_preserves n : every (fun _ => each_once) n -> every plain_transforms n -> every simple_element n -> (forall k, once_per_branch k False n) ->
  exists n', collapse local_name false n = Some [n'] /\ totals n' = totals n /\ (forall k, inherited k n' = inherited k n) /\ forall k, effects k n' = effects k n.
Proof.
  intros H1 H2 H3 H4. pose proof (every_and _ _ _ (okt_both n H1 H2) H3) as H. change (every okc n) in H.
  destruct (collapse_keeps n false (fun _ => False)) as (l & E & F & S & W); [split; [exact H|exact H4]|]. destruct (S eq_refl) as (n' & ->).
  exists n'. split; [exact E|]. inversion F; subst. destruct H6 as [HN _].
  assert (W' : forall E (st : ename -> E -> list gattr -> E), good_walk st -> forall env, seen st env n' = seen st env n).
  { intros E0 st G env. rewrite <- (W E0 st G env). cbn [flat_map]. rewrite app_nil_r. reflexivity. }
  rewrite !totals_r by assumption. split; [apply W', good_r|]. split.
  - intros k. rewrite !inherited_i by assumption. apply W', good_i.
  - intros k. rewrite !effects_e by assumption. apply W', good_e.
Qed.

(** Effects with the coordinates they are in: a group that has one keeps its attributes. *)
Lemma absorb_all_other n : forall g c, ~ In n (map name_of g) -> get_attr n (snd (absorb_all g c)) = get_attr n c /\ get_attr n (fst (absorb_all g c)) = None.
Proof.
  induction g as [|a g IH]; intros c H; cbn [absorb_all]; [split; reflexivity|]. cbn [map In] in H. destruct (absorb a c) as [c'|] eqn:E.
  - destruct (IH c') as [I1 I2]; [tauto|]. split; [|exact I2]. rewrite I1. apply (absorb_get a c c' n E). intros D. apply H. left. congruence.
  - split; [reflexivity|]. apply get_none. exact H.
Qed.
Definition step_q (k : nat) (_ : ename) (env : list tf * list (text * list tf)) (l : list gattr) : list tf * list (text * list tf) :=
  (fst env ++ tr l, snd env ++ map (fun v => (v, fst env ++ tr l)) (effl k l)).
Lemma good_q k : k <= 2 -> good_walk (step_q k).
Proof.
  intros K. split; [intros []; unfold step_q; cbn [fst snd]; f_equal; apply app_nil_r|]. intros cn g c env HG HC A GP GF.
  destruct (absorb_all_keeps cn g c HG HC A) as (_ & _ & _ & _ & H & _). cbv zeta in H.
  assert (N : get_attr (NProp (Non k)) g = None).
  { unfold is_position_visually_unstable in GP. apply orb_false_iff in GP. destruct GP as [GP _]. apply orb_false_iff in GP. destruct GP as [P0 P1].
    unfold is_node_with_filter in GF. apply orb_false_iff in GF. destruct GF as [P2 _]. unfold p_filter, p_clip_path, p_mask, has_attr in *.
    destruct k as [|[|[|k]]]; [| | |lia];
    repeat match goal with H : match get_attr ?n g with _ => _ end = false |- _ => destruct (get_attr n g); [discriminate H|clear H] end; reflexivity. }
  destruct (absorb_all_other (NProp (Non k)) g c (proj1 (get_none _ _) N)) as [I1 I2].
  unfold step_q. cbn [fst snd]. unfold effl. rewrite I1, I2, N. cbn [map]. rewrite !app_nil_r, <- !app_assoc, H. reflexivity.
Qed.
Lemma effl_eff k name l : okc name l -> eff k l = effl k l.
Proof.
  intros [[H1 _] (_ & _ & H5)]. unfold eff, effl. rewrite (pick_none (style_prop (Non k))).
  2:{ intros a Ha. specialize (H5 a Ha). destruct a; try reflexivity. destruct H5. }
  rewrite (pick_get (attr_prop (Non k) None) (NProp (Non k))); [destruct (get_attr (NProp (Non k)) l); reflexivity|exact H1|].
  intros [] D; try reflexivity. cbn [attr_prop]. destruct (prop_dec p (Non k)); [subst; destruct (D eq_refl)|reflexivity].
Qed.
Lemma placed_q k n : every okc n -> placed_effects k n = map (fun x => (fst x, snd (snd x))) (seen (step_q k) ([], []) n).
Proof.
  intros H. rewrite placed_p by (eapply every_impl; [|exact H]; intros ? ? []; assumption).
  rewrite <- (seen_proj (step_p k) (step_q k) (fun e => e) okc) with (env := ([], [])); [rewrite map_map; reflexivity| |exact H].
  intros name env attrs HO. unfold step_p, step_q. rewrite (effl_eff k name) by exact HO. unfold step_t. destruct HO as [_ (_ & HR & _)].
  replace (base name (fst env)) with (fst env) by (destruct name; try reflexivity; congruence). reflexivity.
Qed.
Theorem collapse_placed n : every (fun _ => each_once) n -> every plain_transforms n -> every simple_element n -> (forall k, once_per_branch k False n) ->
  exists n', collapse local_name false n = Some [n'] /\ forall k, k <= 2 -> placed_effects k n' = placed_effects k n.
Proof.
  intros H1 H2 H3 H4. pose proof (every_and _ _ _ (okt_both n H1 H2) H3) as H. change (every okc n) in H.
  destruct (collapse_keeps n false (fun _ => False)) as (l & E & F & S & W); [split; [exact H|exact H4]|]. destruct (S eq_refl) as (n' & ->).
  exists n'. split; [exact E|]. inversion F; subst. destruct H6 as [HN _]. intros k K. rewrite !placed_q by assumption. f_equal.
  rewrite <- (W _ (step_q k) (good_q k K) ([], [])). cbn [flat_map]. rewrite app_nil_r. reflexivity.
Qed.

(** No element other than groups, and no text, is lost or moved, for every tree. *)
Lemma content_set_child c kids : flat_map content (map (set_child c) kids) = flat_map content kids.
Proof. rewrite flat_map_map'. apply flat_map_ext_Forall. apply Forall_forall. intros [] _; reflexivity. Qed.
Lemma exit_content free name attrs kids l : exit_group local_name free name attrs kids = Some l -> flat_map content l = content (GE name attrs kids).
Proof.
  unfold exit_group. destruct (negb free || negb (is_g name) || negb (existsb is_elem kids)) eqn:G.
  - intros [= <-]. cbn [flat_map]. apply app_nil_r.
  - apply orb_false_iff in G. destruct G as [G _]. apply orb_false_iff in G. destruct G as [_ G]. destruct name; try discriminate G.
    assert (FG : forall g ks, flat_map content (flatten_group g ks) = flat_map content ks).
    { intros g ks. unfold flatten_group. destruct g; [destruct (existsb _ ks); [|reflexivity]|]; cbn [flat_map content is_g app]; apply app_nil_r. }
    assert (MV : forall g' ks, move_attributes local_name attrs kids = Some (g', ks) -> flat_map content ks = flat_map content kids).
    { intros g' ks. unfold move_attributes. destruct (filter is_elem kids) as [|[cn c ck|t] [|y r]]; try (intros [= <- <-]; reflexivity).
      destruct attrs as [|a0 g0]; [intros [= <- <-]; reflexivity|].
      destruct (_ || _ || _); [intros [= <- <-]; reflexivity|]. destruct (move_loop _ _ _ _ _ _ _); [discriminate|]. intros [= <- <-]. apply content_set_child. }
    destruct (move_attributes local_name attrs kids) as [[g' ks]|]; [|discriminate]. intros [= <-]. rewrite FG. cbn [content is_g app]. apply (MV g' ks eq_refl).
Qed.
Theorem collapse_content n : forall free l, collapse local_name free n = Some l -> flat_map content l = content n.
Proof.
  induction n as [t|name attrs kids IH] using node_ind'; intros free l; [intros [= <-]; reflexivity|]. rewrite collapse_eq.
  destruct (collapse_kids (negb (is_switch name)) kids) as [kids'|] eqn:E; [|discriminate]. intros H. rewrite (exit_content _ _ _ _ _ H). cbn [content]. f_equal.
  clear H. revert kids' E. induction kids as [|x kids IHk]; intros kids'; cbn [collapse_kids]; [intros [= <-]; reflexivity|].
  inversion IH; subst. destruct (collapse local_name (negb (is_switch name)) x) as [l1|] eqn:E1; [|discriminate].
  destruct (collapse_kids (negb (is_switch name)) kids) as [l2|]; [|discriminate]. intros [= <-]. rewrite flat_map_app. cbn [flat_map].
  rewrite (H1 _ _ E1), (IHk H2 l2 eq_refl). reflexivity.
Qed.
End Names.
