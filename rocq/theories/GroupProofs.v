(** Proofs about moving attributes between groups and children: lookups and pushing transforms down. *)
From Coq Require Import String List NArith ZArith Bool Arith Lia.
From Verif Require Import Chars GroupModel GroupSpec.
Import ListNotations.

(** ** Lookups *)
Lemma name_eqb_spec a b : name_eqb a b = true <-> a = b.
Proof. unfold name_eqb. destruct (aname_dec a b); split; auto; discriminate. Qed.
Lemma name_eqb_refl a : name_eqb a a = true.
Proof. apply name_eqb_spec. reflexivity. Qed.
Lemma name_eqb_neq a b : a <> b -> name_eqb a b = false.
Proof. intros D. destruct (name_eqb a b) eqn:E; auto. apply name_eqb_spec in E. contradiction. Qed.

Lemma get_cons n a l : get_attr n (a :: l) = if name_eqb (name_of a) n then Some a else get_attr n l.
Proof. reflexivity. Qed.
Lemma get_name n l a : get_attr n l = Some a -> In a l /\ name_of a = n.
Proof.
  intros H. apply find_some in H. destruct H as [H E]. apply name_eqb_spec in E. auto.
Qed.
Lemma get_none n l : get_attr n l = None <-> ~ In n (map name_of l).
Proof.
  induction l as [|a l IH]; [split; auto|]. rewrite get_cons. cbn [map In].
  destruct (name_eqb (name_of a) n) eqn:E.
  - apply name_eqb_spec in E. split; [discriminate|]. intros H. destruct H. auto.
  - rewrite IH. split; [|intuition]. intros H [D|D]; [|auto]. subst. rewrite name_eqb_refl in E. discriminate.
Qed.
Lemma get_in l a : each_once l -> In a l -> get_attr (name_of a) l = Some a.
Proof.
  unfold each_once. induction l as [|b l IH]; [intros _ []|]. intros N [->|H]; rewrite get_cons.
  - rewrite name_eqb_refl. reflexivity.
  - cbn [map] in N. inversion N; subst. destruct (name_eqb (name_of b) (name_of a)) eqn:E; [|auto].
    apply name_eqb_spec in E. destruct H2. rewrite E. apply in_map. exact H.
Qed.
Lemma get_set n x l : get_attr n (set_attr x l) = if name_eqb (name_of x) n then Some x else get_attr n l.
Proof.
  induction l as [|a l IH]; [reflexivity|]. cbn [set_attr]. destruct (name_eqb (name_of a) (name_of x)) eqn:E.
  - apply name_eqb_spec in E. rewrite !get_cons, E. destruct (name_eqb (name_of x) n); reflexivity.
  - rewrite !get_cons, IH. destruct (name_eqb (name_of a) n) eqn:F; [|reflexivity].
    apply name_eqb_spec in F. destruct (name_eqb (name_of x) n) eqn:G; [|reflexivity]. apply name_eqb_spec in G.
    rewrite F, G, name_eqb_refl in E. discriminate.
Qed.
Lemma in_remove_attr n l a : In a (remove_attr n l) -> In a l.
Proof.
  induction l as [|b l IH]; [auto|]. cbn [remove_attr]. destruct (name_eqb (name_of b) n); [right; auto|].
  intros [->|H]; [left; auto|right; auto].
Qed.
Lemma get_remove n m l : each_once l -> get_attr n (remove_attr m l) = if name_eqb m n then None else get_attr n l.
Proof.
  unfold each_once. induction l as [|a l IH]; [destruct (name_eqb m n); reflexivity|].
  cbn [map remove_attr]. intros N. inversion N; subst. destruct (name_eqb (name_of a) m) eqn:E.
  - apply name_eqb_spec in E. subst m. rewrite get_cons. destruct (name_eqb (name_of a) n) eqn:F; [|reflexivity].
    apply name_eqb_spec in F. subst n. apply get_none. assumption.
  - rewrite !get_cons, IH by assumption. destruct (name_eqb (name_of a) n) eqn:F; [|reflexivity].
    apply name_eqb_spec in F. destruct (name_eqb m n) eqn:G; [|reflexivity]. apply name_eqb_spec in G.
    rewrite F, G, name_eqb_refl in E. discriminate.
Qed.
Lemma in_set_attr x l a : In a (set_attr x l) -> a = x \/ In a l.
Proof.
  induction l as [|b l IH]; cbn [set_attr].
  - intros [->|[]]; auto.
  - destruct (name_eqb (name_of b) (name_of x)); intros [->|H]; [auto|right; right; auto|right; left; auto|].
    destruct (IH H); [auto|right; right; auto].
Qed.
Lemma set_names x l m : In m (map name_of (set_attr x l)) <-> m = name_of x \/ In m (map name_of l).
Proof.
  induction l as [|b l IH]; cbn [set_attr map In].
  - intuition.
  - destruct (name_eqb (name_of b) (name_of x)) eqn:E; cbn [map In].
    + apply name_eqb_spec in E. rewrite E. intuition.
    + rewrite IH. intuition.
Qed.
Lemma set_once x l : each_once l -> each_once (set_attr x l).
Proof.
  unfold each_once. induction l as [|b l IH]; intros N; cbn [set_attr].
  - constructor; [intros []|constructor].
  - cbn [map] in N. inversion N; subst. destruct (name_eqb (name_of b) (name_of x)) eqn:E; cbn [map].
    + apply name_eqb_spec in E. rewrite <- E. exact N.
    + constructor; [|auto]. rewrite set_names. intros [D|D]; [|contradiction].
      rewrite D, name_eqb_refl in E. discriminate.
Qed.
Lemma remove_names n l m : In m (map name_of (remove_attr n l)) -> In m (map name_of l).
Proof.
  intros H. apply in_map_iff in H. destruct H as (a & <- & H). apply in_map. exact (in_remove_attr _ _ _ H).
Qed.
Lemma remove_once n l : each_once l -> each_once (remove_attr n l).
Proof.
  unfold each_once. induction l as [|b l IH]; intros N; [exact N|]. cbn [map] in N. inversion N; subst. cbn [remove_attr].
  destruct (name_eqb (name_of b) n); [assumption|]. cbn [map]. constructor; [|auto].
  intros H. apply remove_names in H. contradiction.
Qed.
Lemma pick_get {A} (f : gattr -> option A) n l : each_once l -> (forall a, name_of a <> n -> f a = None) ->
  pick f l = match get_attr n l with Some a => f a | None => None end.
Proof.
  unfold each_once. intros N F. induction l as [|a l IH]; [reflexivity|]. cbn [map] in N. inversion N; subst.
  cbn [pick]. rewrite get_cons, IH by assumption. destruct (name_eqb (name_of a) n) eqn:E.
  - apply name_eqb_spec in E. subst n. destruct (f a); [reflexivity|]. replace (get_attr (name_of a) l) with (@None gattr); [reflexivity|].
    symmetry. apply get_none. assumption.
  - rewrite F; [reflexivity|]. intros D. rewrite D, name_eqb_refl in E. discriminate.
Qed.
Lemma pick_none {A} (f : gattr -> option A) l : (forall a, In a l -> f a = None) -> pick f l = None.
Proof. induction l as [|a l IH]; intros H; [reflexivity|]. cbn [pick]. rewrite H by (left; auto). apply IH. intros b Hb. apply H. right; auto. Qed.
Lemma has_get n l : has_attr n l = true <-> get_attr n l <> None.
Proof. unfold has_attr. destruct (get_attr n l); split; congruence. Qed.

(** ** Trees *)
Lemma every_kids P name attrs kids : every P (GE name attrs kids) <-> P name attrs /\ Forall (every P) kids.
Proof.
  cbn [every]. split; intros [H1 H2]; (split; [exact H1|]).
  - induction kids as [|k kids IH]; [constructor|]. destruct H2. constructor; auto.
  - induction kids as [|k kids IH]; [exact Logic.I|]. inversion H2; subst. split; [assumption|]. apply IH. assumption.
Qed.
Lemma node_ind' (Q : gnode -> Prop) :
  (forall t, Q (GT t)) -> (forall name attrs kids, Forall Q kids -> Q (GE name attrs kids)) -> forall n, Q n.
Proof.
  intros HT HE. fix IH 1. intros [name attrs kids|t]; [|apply HT]. apply HE.
  induction kids as [|k kids IHk]; constructor; [apply IH|exact IHk].
Qed.
Lemma every_impl (P Q : ename -> list gattr -> Prop) n : (forall name attrs, P name attrs -> Q name attrs) -> every P n -> every Q n.
Proof.
  intros H. induction n as [t|name attrs kids IH] using node_ind'; [auto|]. rewrite !every_kids. intros [H1 H2]. split; [auto|].
  induction kids as [|k kids IHk]; [constructor|]. inversion IH; inversion H2; subst. constructor; auto.
Qed.
Lemma every_and P Q n : every P n -> every Q n -> every (fun name attrs => P name attrs /\ Q name attrs) n.
Proof.
  induction n as [t|name attrs kids IH] using node_ind'; [auto|]. rewrite !every_kids. intros [H1 H2] [H3 H4]. split; [auto|].
  induction kids as [|k kids IHk]; [constructor|]. inversion IH; inversion H2; inversion H4; subst. constructor; auto.
Qed.
Lemma flat_map_ext_Forall {A B} (f g : A -> list B) l : Forall (fun x => f x = g x) l -> flat_map f l = flat_map g l.
Proof. induction 1 as [|x l H HF IH]; [reflexivity|]. cbn [flat_map]. rewrite H, IH. reflexivity. Qed.
Lemma flat_map_map' {A B C} (f : B -> list C) (g : A -> B) l : flat_map f (map g l) = flat_map (fun x => f (g x)) l.
Proof. induction l as [|x l IH]; [reflexivity|]. cbn [map flat_map]. rewrite IH. reflexivity. Qed.
Lemma map_flat_map' {A B C} (f : B -> C) (g : A -> list B) l : map f (flat_map g l) = flat_map (fun x => map f (g x)) l.
Proof. induction l as [|x l IH]; [reflexivity|]. cbn [flat_map]. rewrite map_app, IH. reflexivity. Qed.

(** A walk seen through a projection that its steps respect. *)
Lemma seen_proj {E F} (s1 : ename -> E -> list gattr -> E) (s2 : ename -> F -> list gattr -> F) (pr : E -> F) (P : ename -> list gattr -> Prop) :
  (forall name env attrs, P name attrs -> pr (s1 name env attrs) = s2 name (pr env) attrs) ->
  forall n env, every P n -> map (fun x => (fst x, pr (snd x))) (seen s1 env n) = seen s2 (pr env) n.
Proof.
  intros H. induction n as [t|name attrs kids IH] using node_ind'; intros env; [reflexivity|]. rewrite every_kids. intros [H1 H2].
  cbn [seen]. rewrite map_app, map_flat_map', <- (H name env attrs H1). f_equal.
  - destruct (is_g name); reflexivity.
  - apply flat_map_ext_Forall. rewrite Forall_forall in *. intros k Hk. apply IH; auto.
Qed.

(** ** Transforms *)
Definition tr (attrs : list gattr) : list tf :=
  match get_attr NTransform attrs with Some (ATransform l) => l | _ => [] end.
Definition base (name : ename) (total : list tf) : list tf := match name with EResource => [] | _ => total end.
Definition step_t (name : ename) (total : list tf) (attrs : list gattr) : list tf := base name total ++ tr attrs.

Definition okt (name : ename) (attrs : list gattr) : Prop := each_once attrs /\ plain_transforms name attrs.

Lemma last_some_none {A B} (f : B -> option A) l : (forall x, In x l -> f x = None) -> last_some f l = None.
Proof.
  unfold last_some. intros H. assert (G : forall r, fold_left (fun r d => orelse (f d) r) l r = r).
  { induction l as [|x l IH]; intros r; [reflexivity|]. cbn [fold_left]. rewrite (H x) by (left; auto). cbn [orelse].
    apply IH. intros y Hy. apply H. right; auto. }
  apply G.
Qed.
Lemma step_total_plain name env attrs : okt name attrs -> fst (step_total name env attrs) = step_t name (fst env) attrs.
Proof.
  intros [H1 H2]. unfold step_total. destruct env as [total parent].
  rewrite (pick_none style_transform).
  2:{ intros a Ha. specialize (H2 a Ha). destruct a; try reflexivity. cbn [style_transform]. apply last_some_none.
      intros [p v|l] Hd; [reflexivity|]. destruct (H2 l Hd). }
  rewrite (pick_none origin_of).
  2:{ intros a Ha. specialize (H2 a Ha). destruct a; try reflexivity. destruct H2. }
  rewrite (pick_get (attr_transform parent) NTransform) by (auto; intros []; cbn; congruence).
  unfold step_t, base, tr. cbn [orelse fst]. destruct (get_attr NTransform attrs) as [a|] eqn:E.
  - apply get_name in E. destruct E as [E N]. specialize (H2 a E). destruct a; try discriminate N; try contradiction.
    cbn [attr_transform orelse]. destruct l; reflexivity.
  - reflexivity.
Qed.
Lemma totals_t n : every okt n -> totals n = seen step_t [] n.
Proof.
  intros H. unfold totals. rewrite (seen_proj step_total step_t fst okt) by (auto using step_total_plain). reflexivity.
Qed.

Definition opt (o : option (list tf)) : list tf := match o with Some l => l | None => [] end.
Lemma tr_set_transform l attrs : tr (set_attr (ATransform l) attrs) = l.
Proof. unfold tr. rewrite get_set. reflexivity. Qed.
Lemma tr_given name o attrs : okt name attrs -> tr (given o attrs) = opt o ++ tr attrs.
Proof.
  intros [H1 H2]. destruct o as [l|]; [|reflexivity]. cbn [given opt]. unfold give_transform. unfold tr at 2.
  destruct (get_attr NTransform attrs) as [a|] eqn:E.
  - pose proof (get_name _ _ _ E) as [E1 N]. specialize (H2 a E1). destruct a; try discriminate N; try contradiction.
    apply tr_set_transform.
  - rewrite tr_set_transform, app_nil_r. reflexivity.
Qed.
Lemma okt_set name l attrs : okt name attrs -> okt name (set_attr (ATransform l) attrs).
Proof.
  intros [H1 H2]. split; [apply set_once; exact H1|]. intros a Ha. apply in_set_attr in Ha. destruct Ha as [->|Ha]; [exact Logic.I|apply H2; exact Ha].
Qed.
Lemma okt_given name o attrs : okt name attrs -> okt name (given o attrs).
Proof.
  intros H. destruct o as [l|]; [|exact H]. cbn [given]. unfold give_transform.
  destruct (get_attr NTransform attrs) as [[]|]; apply okt_set; exact H.
Qed.
(** What a visit takes from an element it hands to the children; only groups are changed. *)
Lemma take_cases name attrs kids :
  (take_transform name attrs kids = (attrs, None)) \/
  (exists t, name = EG /\ get_attr NTransform attrs = Some t /\ existsb attr_refs attrs = false /\ forallb takes_transform kids = true /\
     take_transform name attrs kids =
     (match t with ATransformInherit => set_attr t (remove_attr NTransform attrs) | _ => remove_attr NTransform attrs end,
      match t with ATransform l => Some l | _ => None end)).
Proof.
  unfold take_transform. destruct name; cbn [is_g negb]; auto. destruct (is_empty kids); auto.
  destruct (get_attr NTransform attrs) as [t|] eqn:E; auto. destruct (existsb attr_refs attrs) eqn:F; auto.
  destruct (forallb takes_transform kids) eqn:G; cbn [negb]; auto. right. exists t. apply get_name in E. destruct E as [_ N].
  destruct t; try discriminate N; auto 10.
Qed.
Definition can_take (o : option (list tf)) (n : gnode) : Prop := o <> None -> match n with GE name _ _ => name <> EResource | GT _ => True end.
Lemma takes_can kids o : forallb takes_transform kids = true -> Forall (can_take o) kids.
Proof.
  intros H. rewrite forallb_forall in H. apply Forall_forall. intros k Hk. specialize (H k Hk). intros _.
  destruct k as [[] attrs ks|t]; cbn in H; try exact Logic.I; discriminate.
Qed.
Lemma tr_remove attrs : each_once attrs -> tr (remove_attr NTransform attrs) = [].
Proof. intros H. unfold tr. rewrite get_remove by exact H. reflexivity. Qed.
Lemma push_seen n : forall o total, every okt n -> can_take o n ->
  seen step_t total (push_down o n) = seen step_t (total ++ opt o) n.
Proof.
  induction n as [t|name attrs kids IH] using node_ind'; intros o total; [reflexivity|]. rewrite every_kids. intros [H1 H2] C.
  cbn [push_down]. pose proof (okt_given name o attrs H1) as G1. pose proof (tr_given name o attrs H1) as T1.
  assert (B : step_t name total (given o attrs) = step_t name (total ++ opt o) attrs).
  { unfold step_t. rewrite T1, app_assoc. f_equal. destruct o as [l|]; [|cbn [opt]; rewrite !app_nil_r; reflexivity].
    destruct name; try reflexivity. destruct (C ltac:(discriminate)). reflexivity. }
  destruct (take_cases name (given o attrs) kids) as [->|(t & -> & Et & _ & Ht & ->)].
  - cbn [seen]. rewrite B. f_equal. rewrite flat_map_map'. apply flat_map_ext_Forall. rewrite Forall_forall in *.
    intros k Hk. rewrite IH by (auto; intros D; destruct (D eq_refl)). cbn [opt]. rewrite app_nil_r. reflexivity.
  - pose proof (get_name _ _ _ Et) as [E1 N]. pose proof (proj2 G1 t E1) as PL.
    destruct t; try discriminate N; try contradiction. cbn [seen is_g app]. rewrite flat_map_map'. apply flat_map_ext_Forall.
    pose proof (takes_can kids (Some l) Ht) as CT. rewrite Forall_forall in *.
    intros k Hk. rewrite IH by auto. f_equal. cbn [opt]. rewrite <- B. unfold step_t. rewrite tr_remove by apply G1.
    rewrite app_nil_r. cbn [base]. f_equal. unfold tr. rewrite Et. reflexivity.
Qed.
Lemma push_okt n : forall o, every okt n -> every okt (push_down o n).
Proof.
  induction n as [t|name attrs kids IH] using node_ind'; intros o; [auto|]. rewrite every_kids. intros [H1 H2].
  cbn [push_down]. pose proof (okt_given name o attrs H1) as G1.
  destruct (take_cases name (given o attrs) kids) as [->|(t & -> & Et & _ & Ht & ->)]; rewrite every_kids.
  - split; [exact G1|]. apply Forall_map. rewrite Forall_forall in *. auto.
  - split; [|apply Forall_map; rewrite Forall_forall in *; auto].
    pose proof (get_name _ _ _ Et) as [E1 N]. pose proof (proj2 G1 t E1) as PL.
    destruct t; try discriminate N; try contradiction. split; [apply remove_once; apply G1|].
    intros a Ha. apply in_remove_attr in Ha. apply G1. exact Ha.
Qed.
Lemma okt_both n : every (fun _ => each_once) n -> every plain_transforms n -> every okt n.
Proof. apply every_and. Qed.
Theorem push_totals n : every (fun _ => each_once) n -> every plain_transforms n -> totals (push_down None n) = totals n.
Proof.
  intros H1 H2. pose proof (okt_both n H1 H2) as H. rewrite !totals_t by auto using push_okt.
  rewrite push_seen by (auto; intros D; destruct (D eq_refl)). reflexivity.
Qed.

(** Nothing else changes, for every tree. *)
Notation notr := (fun a => match a with ATransform _ | ATransformInherit | ATransformUnparsed _ => false | _ => true end).
Lemma filter_set x l : notr x = false -> filter notr (set_attr x l) = filter notr l.
Proof.
  intros Hx. induction l as [|a l IH]; cbn [set_attr].
  - cbn [filter]. rewrite Hx. reflexivity.
  - destruct (name_eqb (name_of a) (name_of x)) eqn:E.
    + apply name_eqb_spec in E. cbn [filter]. rewrite Hx. destruct a; try reflexivity; destruct x; try discriminate Hx; discriminate E.
    + cbn [filter]. rewrite IH. reflexivity.
Qed.
Lemma filter_remove l : filter notr (remove_attr NTransform l) = filter notr l.
Proof.
  induction l as [|a l IH]; [reflexivity|]. cbn [remove_attr]. destruct (name_eqb (name_of a) NTransform) eqn:E.
  - apply name_eqb_spec in E. destruct a; try discriminate E; reflexivity.
  - cbn [filter]. rewrite IH. reflexivity.
Qed.
Theorem push_rest n : forall o, without_transforms (push_down o n) = without_transforms n.
Proof.
  induction n as [t|name attrs kids IH] using node_ind'; intros o; [reflexivity|]. cbn [push_down].
  assert (G : filter notr (given o attrs) = filter notr attrs).
  { destruct o as [l|]; [|reflexivity]. cbn [given]. unfold give_transform. destruct (get_attr NTransform attrs) as [[]|]; apply filter_set; reflexivity. }
  assert (K : forall o, map without_transforms (map (push_down o) kids) = map without_transforms kids).
  { intros o'. rewrite map_map. apply map_ext_in. rewrite Forall_forall in IH. intros k Hk. apply IH. exact Hk. }
  destruct (take_cases name (given o attrs) kids) as [->|(t & -> & Et & _ & Ht & ->)]; cbn [without_transforms]; rewrite K, <- G; f_equal.
  destruct t; rewrite ?filter_set by reflexivity; apply filter_remove.
Qed.

(** ** Effects and their coordinates *)
Definition eff (k : nat) (attrs : list gattr) : list text :=
  match pick (style_prop (Non k)) attrs with
  | Some v => [v]
  | None => match pick (attr_prop (Non k) None) attrs with Some (Some v) => [v] | _ => [] end
  end.
Definition step_p (k : nat) (name : ename) (env : list tf * list (text * list tf)) (attrs : list gattr) : list tf * list (text * list tf) :=
  let total := step_t name (fst env) attrs in (total, snd env ++ map (fun v => (v, total)) (eff k attrs)).
Lemma placed_p k n : every okt n -> placed_effects k n = map (fun x => (fst x, snd (snd x))) (seen (step_p k) ([], []) n).
Proof.
  intros H. unfold placed_effects.
  rewrite <- (seen_proj (step_placed k) (step_p k) (fun e => (fst (fst e), snd e)) okt) with (env := (([], []), [])); [|clear H; intros name [tenv placed] attrs H|exact H].
  - rewrite map_map. reflexivity.
  - unfold step_placed, step_p. cbn [fst snd]. rewrite (step_total_plain name tenv attrs H). f_equal. f_equal. unfold eff.
    destruct (pick (style_prop (Non k)) attrs); [reflexivity|]. destruct (pick (attr_prop (Non k) None) attrs) as [[v|]|]; reflexivity.
Qed.
Lemma eff_no_refs k attrs : effects_are_references k EG attrs -> existsb attr_refs attrs = false -> eff k attrs = [].
Proof.
  intros H F. assert (FF : forall a, In a attrs -> attr_refs a = false).
  { intros a Ha. destruct (attr_refs a) eqn:E; [|reflexivity]. rewrite <- F. symmetry. apply existsb_exists. eauto. }
  specialize (H eq_refl). unfold eff. rewrite (pick_none (style_prop (Non k))).
  - rewrite (pick_none (attr_prop (Non k) None)); [reflexivity|]. intros a Ha. specialize (H a Ha). specialize (FF a Ha). destruct a; try reflexivity.
    cbn [attr_prop]. destruct (prop_dec p (Non k)) as [->|D]; [|reflexivity]. destruct (H eq_refl) as (w & -> & R). cbn [attr_refs] in FF. congruence.
  - intros a Ha. specialize (H a Ha). destruct a; try reflexivity. destruct H.
Qed.
Lemma eff_ext k l1 l2 : filter notr l1 = filter notr l2 -> eff k l1 = eff k l2.
Proof.
  intros H. assert (P : forall A (f : gattr -> option A), (forall a, notr a = false -> f a = None) -> forall l, pick f l = pick f (filter notr l)).
  { intros A f Hf. induction l as [|a l IH]; [reflexivity|]. cbn [filter]. destruct (notr a) eqn:E; cbn [pick].
    - rewrite IH. reflexivity.
    - rewrite (Hf a E). exact IH. }
  unfold eff. rewrite (P _ (style_prop (Non k))) with (l := l1), (P _ (style_prop (Non k))) with (l := l2) by (intros []; cbn; congruence).
  rewrite (P _ (attr_prop (Non k) None)) with (l := l1), (P _ (attr_prop (Non k) None)) with (l := l2) by (intros []; cbn; congruence).
  rewrite H. reflexivity.
Qed.
Lemma given_rest o attrs : filter notr (given o attrs) = filter notr attrs.
Proof.
  destruct o as [l|]; [|reflexivity]. cbn [given]. unfold give_transform. destruct (get_attr NTransform attrs) as [[]|]; apply filter_set; reflexivity.
Qed.
Lemma refs_rest l1 l2 k : filter notr l1 = filter notr l2 -> effects_are_references k EG l1 -> effects_are_references k EG l2.
Proof.
  intros H R _ a Ha. destruct (notr a) eqn:E.
  - assert (In a (filter notr l1)) as Hi by (rewrite H; apply filter_In; auto). apply filter_In in Hi. destruct Hi as [Hi _]. exact (R eq_refl a Hi).
  - destruct a; try discriminate E; exact Logic.I.
Qed.
Lemma push_placed k n : forall o total pl, every okt n -> every (effects_are_references k) n -> can_take o n ->
  seen (step_p k) (total, pl) (push_down o n) = seen (step_p k) (total ++ opt o, pl) n.
Proof.
  induction n as [t|name attrs kids IH] using node_ind'; intros o total pl; [reflexivity|]. rewrite !every_kids. intros [H1 H2] [R1 R2] C.
  cbn [push_down]. pose proof (okt_given name o attrs H1) as G1. pose proof (tr_given name o attrs H1) as T1.
  assert (B : step_t name total (given o attrs) = step_t name (total ++ opt o) attrs).
  { unfold step_t. rewrite T1, app_assoc. f_equal. destruct o as [l|]; [|cbn [opt]; rewrite !app_nil_r; reflexivity].
    destruct name; try reflexivity. destruct (C ltac:(discriminate)). reflexivity. }
  assert (S : step_p k name (total, pl) (given o attrs) = step_p k name (total ++ opt o, pl) attrs).
  { unfold step_p. cbn [fst snd]. rewrite B, (eff_ext k (given o attrs) attrs) by apply given_rest. reflexivity. }
  destruct (take_cases name (given o attrs) kids) as [->|(t & -> & Et & Er & Ht & ->)].
  - cbn [seen]. rewrite S. f_equal. rewrite flat_map_map'. apply flat_map_ext_Forall. rewrite Forall_forall in *.
    intros x Hx. destruct (step_p k name (total ++ opt o, pl) attrs) as [tot pl2]. rewrite IH by (auto; intros D; destruct (D eq_refl)). cbn [opt]. rewrite app_nil_r. reflexivity.
  - pose proof (get_name _ _ _ Et) as [E1 N]. pose proof (proj2 G1 t E1) as PL.
    destruct t; try discriminate N; try contradiction. cbn [seen is_g app]. rewrite flat_map_map'. apply flat_map_ext_Forall.
    pose proof (takes_can kids (Some l) Ht) as CT. rewrite Forall_forall in *.
    intros x Hx. rewrite <- S. unfold step_p. cbn [fst snd].
    assert (Z1 : eff k (given o attrs) = []).
    { apply eff_no_refs; [|exact Er]. apply (refs_rest attrs); [symmetry; apply given_rest|exact R1]. }
    rewrite (eff_ext k (remove_attr NTransform (given o attrs)) (given o attrs)) by apply filter_remove. rewrite Z1. cbn [map].
    rewrite IH by auto. do 2 f_equal. cbn [opt]. unfold step_t. rewrite tr_remove by apply G1.
    rewrite app_nil_r. cbn [base]. f_equal. unfold tr. rewrite Et. reflexivity.
Qed.
Theorem push_placed_effects k n : every (fun _ => each_once) n -> every plain_transforms n -> every (effects_are_references k) n ->
  placed_effects k (push_down None n) = placed_effects k n.
Proof.
  intros H1 H2 H3. pose proof (okt_both n H1 H2) as H. rewrite !placed_p by auto using push_okt.
  rewrite push_placed by (auto; intros D; destruct (D eq_refl)). reflexivity.
Qed.
