From Coq Require Import String List NArith ZArith Bool Arith Lia.
From Verif Require Import Chars ActionModel EnactModel EnactSpec.
Import ListNotations.

Lemma eqb_same a b : text_eqb a b = true <-> a = b.
Proof. apply text_eqb_spec. Qed.
Lemma eqb_other a b : text_eqb a b = false <-> a <> b.
Proof. split; intros H. - intros ->. rewrite (proj2 (eqb_same b b) eq_refl) in H. discriminate. - destruct (text_eqb a b) eqn:E; [|reflexivity]. apply eqb_same in E. contradiction. Qed.

(** The nodes that ids name, in order. *)
Definition picks (table : list nat) (ids : list Z) : list nat :=
  flat_map (fun id => if (id <? 0)%Z then [] else match nth_error table (Z.to_nat id) with Some i => [i] | None => [] end) ids.
Lemma picks_app t a b : picks t (a ++ b) = picks t a ++ picks t b.
Proof. apply flat_map_app. Qed.
Lemma picks_one t id n : In n (picks t [id]) <-> names t id n.
Proof.
  unfold picks, names. cbn [flat_map]. rewrite app_nil_r. destruct (id <? 0)%Z eqn:E.
  - apply Z.ltb_lt in E. split; [intros []|lia].
  - apply Z.ltb_ge in E. destruct (nth_error t (Z.to_nat id)) as [i|]; cbn [In]; split.
    + intros [-> | []]. split; [exact E|reflexivity].
    + intros [_ H]. injection H as ->. auto.
    + intros [].
    + intros [_ H]. discriminate.
Qed.
Lemma picks_named t ids n : In n (picks t ids) <-> named t ids n.
Proof.
  unfold named. induction ids as [|id ids IH]; [split; [intros []|intros (? & [] & _)]|].
  change (id :: ids) with ([id] ++ ids). rewrite picks_app, in_app_iff, picks_one, IH. split.
  - intros [H|(j & J & H)]; [exists id|exists j]; (split; [|exact H]); apply in_app_iff; [left; left; reflexivity|right; exact J].
  - intros (j & J & H). apply in_app_iff in J. destruct J as [[-> | []]|J]; [left; exact H|right; exists j; auto].
Qed.
Lemma picks_single t id n : names t id n -> picks t [id] = [n].
Proof. intros [H N]. unfold picks. cbn [flat_map]. rewrite (proj2 (Z.ltb_ge id 0) H), N. reflexivity. Qed.
Lemma once_count t ids n : named_once t ids n -> count_occ Nat.eq_dec (picks t ids) n = 1.
Proof.
  intros (a & id & b & -> & N & O). change (id :: b) with ([id] ++ b). rewrite !picks_app, !count_occ_app, (picks_single _ _ _ N). cbn [count_occ].
  destruct (Nat.eq_dec n n) as [_|X]; [|destruct (X eq_refl)].
  assert (H : ~ In n (picks t (a ++ b))) by (rewrite picks_named; exact O). rewrite picks_app in H.
  rewrite (proj1 (count_occ_not_In Nat.eq_dec (picks t a) n)), (proj1 (count_occ_not_In Nat.eq_dec (picks t b) n)); [reflexivity|..]; intros X; apply H, in_app_iff; auto.
Qed.
Lemma once_named t ids n : named_once t ids n -> named t ids n.
Proof. intros (a & id & b & -> & N & _). exists id. split; [apply in_app_iff; right; left; reflexivity|exact N]. Qed.

Section P.
  Context {num decl path : Type}.
  Notation node := (@node num decl path).
  Notation value := (@value num decl path).
  Implicit Types (d : list node) (l : list (text * value)).

  Lemma change_length i f d : List.length (change i f d) = List.length d.
  Proof. revert i. induction d as [|x d IH]; intros [|i]; cbn [change List.length]; auto. Qed.
  Lemma change_nth i f d n : nth_error (change i f d) n = if n =? i then option_map f (nth_error d n) else nth_error d n.
  Proof.
    revert i n. induction d as [|x d IH]; intros [|i] [|n]; cbn [change nth_error Nat.eqb option_map]; try reflexivity.
    - destruct (n =? i); reflexivity.
    - apply IH.
  Qed.
  Lemma change_same i f d : (forall m, nth_error d i = Some m -> f m = m) -> change i f d = d.
  Proof. revert i. induction d as [|x d IH]; intros [|i] H; cbn [change]; try reflexivity; f_equal; [apply H; reflexivity|apply IH; exact H]. Qed.
  Lemma change_ext i f g d : (forall m, nth_error d i = Some m -> f m = g m) -> change i f d = change i g d.
  Proof. revert i. induction d as [|x d IH]; intros [|i] H; cbn [change]; try reflexivity; f_equal; [apply H; reflexivity|apply IH; exact H]. Qed.

  (** One change of each element that is named. *)
  Definition at_elem (g : ename -> list (text * value) -> list (text * value)) (m : node) : node :=
    match n_name m with Some e => with_attrs (g e) m | None => m end.
  Lemma at_elem_name g m : n_name (at_elem g m) = n_name m /\ n_kids (at_elem g m) = n_kids m.
  Proof. unfold at_elem. destruct (n_name m) eqn:E; [cbn [with_attrs n_name n_kids]; auto|auto]. Qed.

  Lemma element_pick t d id : match element_of t d id with
    | Some (i, e) => picks t [id] = [i] /\ exists m, nth_error d i = Some m /\ n_name m = Some e
    | None => forall g, fold_left (fun d i => change i (at_elem g) d) (picks t [id]) d = d end.
  Proof.
    unfold element_of, picks. cbn [flat_map]. rewrite app_nil_r. destruct (id <? 0)%Z; [reflexivity|]. destruct (nth_error t (Z.to_nat id)) as [i|]; [|reflexivity].
    destruct (nth_error d i) as [m|] eqn:E.
    - destruct (n_name m) as [e|] eqn:N; [split; [reflexivity|exists m; auto]|]. intros g. cbn [fold_left]. apply change_same. intros m' E'. rewrite E in E'. injection E' as <-. unfold at_elem. rewrite N. reflexivity.
    - intros g. cbn [fold_left]. apply change_same. intros m' E'. rewrite E in E'. discriminate.
  Qed.
  Lemma each_pure t (f : nat -> ename -> list node -> outcome) g ids d :
    (forall i e d m, nth_error d i = Some m -> n_name m = Some e -> f i e d = Done (change i (with_attrs (g e)) d)) ->
    each t f ids d = Done (fold_left (fun d i => change i (at_elem g) d) (picks t ids) d).
  Proof.
    intros F. revert d. induction ids as [|id ids IH]; intros d; [reflexivity|]. cbn [each]. change (id :: ids) with ([id] ++ ids). rewrite picks_app, fold_left_app.
    pose proof (element_pick t d id) as H. destruct (element_of t d id) as [[i e]|].
    - destruct H as [-> (m & M & N)]. rewrite (F i e d m M N), IH. cbn [fold_left]. f_equal. f_equal. apply change_ext. intros m' M'. rewrite M in M'. injection M' as <-. unfold at_elem. rewrite N. reflexivity.
    - rewrite (H g). apply IH.
  Qed.
  Lemma fold_length g L d : List.length (fold_left (fun d i => change i (at_elem g) d) L d) = List.length d.
  Proof. revert d. induction L as [|i L IH]; intros d; [reflexivity|]. cbn [fold_left]. rewrite IH. apply change_length. Qed.
  Lemma iter_S {A} k (f : A -> A) x : Nat.iter (S k) f x = f (Nat.iter k f x).
  Proof. reflexivity. Qed.
  Lemma iter_swap {A} k (f : A -> A) x : Nat.iter k f (f x) = f (Nat.iter k f x).
  Proof. induction k as [|k IH]; [reflexivity|]. rewrite !iter_S. f_equal. exact IH. Qed.
  Lemma fold_nth g L d n : nth_error (fold_left (fun d i => change i (at_elem g) d) L d) n = option_map (Nat.iter (count_occ Nat.eq_dec L n) (at_elem g)) (nth_error d n).
  Proof.
    revert d. induction L as [|i L IH]; intros d; [cbn; destruct (nth_error d n); reflexivity|]. cbn [fold_left count_occ]. rewrite IH, change_nth.
    destruct (Nat.eq_dec i n) as [-> | E].
    - rewrite Nat.eqb_refl. destruct (nth_error d n) as [m|]; [|reflexivity]. cbn [option_map]. f_equal. rewrite iter_swap. reflexivity.
    - rewrite (proj2 (Nat.eqb_neq n i) (fun H => E (eq_sym H))). reflexivity.
  Qed.
  (** What a run comes to at each node. *)
  Lemma run_nth t f g ids d d' n m :
    (forall i e d m, nth_error d i = Some m -> n_name m = Some e -> f i e d = Done (change i (with_attrs (g e)) d)) ->
    each t f ids d = Done d' -> nth_error d n = Some m -> nth_error d' n = Some (Nat.iter (count_occ Nat.eq_dec (picks t ids) n) (at_elem g) m).
  Proof. intros F R M. rewrite (each_pure t f g ids d F) in R. injection R as <-. rewrite fold_nth, M. reflexivity. Qed.
  Lemma run_length t f g ids d d' :
    (forall i e d m, nth_error d i = Some m -> n_name m = Some e -> f i e d = Done (change i (with_attrs (g e)) d)) ->
    each t f ids d = Done d' -> List.length d' = List.length d.
  Proof. intros F R. rewrite (each_pure t f g ids d F) in R. injection R as <-. apply fold_length. Qed.

  Lemma iter_name g k m : n_name (Nat.iter k (at_elem g) m) = n_name m /\ n_kids (Nat.iter k (at_elem g) m) = n_kids m.
  Proof. induction k as [|k IH]; [auto|]. rewrite iter_S. destruct (at_elem_name g (Nat.iter k (at_elem g) m)) as [-> ->]. exact IH. Qed.
  Lemma iter_inv (P : list (text * value) -> Prop) g k m : (forall e l, n_name m = Some e -> P l -> P (g e l)) -> P (n_attrs m) -> P (n_attrs (Nat.iter k (at_elem g) m)).
  Proof.
    intros G H. induction k as [|k IH]; [exact H|]. rewrite iter_S. unfold at_elem at 1. destruct (iter_name g k m) as [N _].
    rewrite N. destruct (n_name m) as [e|] eqn:E; [|exact IH]. cbn [with_attrs n_attrs]. apply G; [reflexivity|exact IH].
  Qed.
  Lemma iter_none g k m : n_name m = None -> Nat.iter k (at_elem g) m = m.
  Proof. intros N. induction k as [|k IH]; [reflexivity|]. rewrite iter_S, IH. unfold at_elem. rewrite N. reflexivity. Qed.

  (** A change of the attribute [x] alone. *)
  Definition keeps (x : text) (h : list (text * value) -> list (text * value)) : Prop :=
    forall l, NoDup (map fst l) -> (forall y c, In (y, Classes c) l -> y = lit "class") ->
      NoDup (map fst (h l)) /\ (forall y c, In (y, Classes c) (h l) -> y = lit "class") /\ forall y v, y <> x -> (In (y, v) (h l) <-> In (y, v) l).
  Lemma run_only t f g ids d d' x :
    (forall i e d m, nth_error d i = Some m -> n_name m = Some e -> f i e d = Done (change i (with_attrs (g e)) d)) ->
    (forall e, keeps x (g e)) -> well d -> each t f ids d = Done d' -> only x (named t ids) d d'.
  Proof.
    intros F K W R. split; [exact (run_length t f g ids d d' F R)|]. intros n m M. rewrite (run_nth t f g ids d d' n m F R M).
    eexists. split; [reflexivity|]. destruct (iter_name g (count_occ Nat.eq_dec (picks t ids) n) m) as [N1 N2]. split; [exact N1|]. split; [exact N2|]. split.
    - intros X. destruct (n_name m) as [e|] eqn:E; [|apply iter_none; exact E].
      rewrite (proj1 (count_occ_not_In Nat.eq_dec (picks t ids) n)); [reflexivity|]. intros Y. apply X. split; [apply picks_named; exact Y|]. unfold is_element. rewrite E. discriminate.
    - assert (WM := proj1 (Forall_forall _ _) W m (nth_error_In _ _ M)). cbn beta in WM. destruct WM as [W1 W2].
      refine ((fun H => conj (proj1 H) (proj2 (proj2 H))) _). apply (iter_inv (fun l => NoDup (map fst l) /\ (forall y c, In (y, Classes c) l -> y = lit "class") /\ forall y v, y <> x -> (In (y, v) l <-> In (y, v) (n_attrs m))) g _ m).
      + intros e l _ (A & B & C). destruct (K e l A B) as (A' & B' & C'). split; [exact A'|]. split; [exact B'|]. intros y v Y. rewrite (C' y v Y). apply C. exact Y.
      + split; [exact W1|]. split; [exact W2|]. intros y v _. reflexivity.
  Qed.

  (** The attribute lists. *)
  Lemma set_names x v l : map fst (set_attr x v l) = if existsb (text_eqb x) (map fst l) then map fst l else map fst l ++ [x].
  Proof.
    induction l as [|[y w] l IH]; [reflexivity|]. cbn [set_attr map fst existsb]. destruct (text_eqb y x) eqn:E.
    - apply eqb_same in E. subst y. rewrite (proj2 (eqb_same x x) eq_refl). reflexivity.
    - assert (E' : text_eqb x y = false) by (apply eqb_other; intros ->; rewrite (proj2 (eqb_same y y) eq_refl) in E; discriminate). rewrite E'. cbn [map fst orb]. rewrite IH. destruct (existsb (text_eqb x) (map fst l)); reflexivity.
  Qed.
  Lemma exists_name x (l : list text) : existsb (text_eqb x) l = true <-> In x l.
  Proof. rewrite existsb_exists. split; [intros (y & Y & E); apply eqb_same in E; subst; exact Y|intros H; exists x; split; [exact H|apply eqb_same; reflexivity]]. Qed.
  Lemma nodup_snoc {A} (x : A) (l : list A) : NoDup l -> ~ In x l -> NoDup (l ++ [x]).
  Proof. intros N H. apply NoDup_rev in N. rewrite <- (rev_involutive (l ++ [x])). apply NoDup_rev. rewrite rev_app_distr. cbn [rev app]. constructor; [rewrite <- in_rev; exact H|exact N]. Qed.
  Lemma set_nodup x v l : NoDup (map fst l) -> NoDup (map fst (set_attr x v l)).
  Proof.
    intros N. rewrite set_names. destruct (existsb (text_eqb x) (map fst l)) eqn:E; [exact N|]. apply nodup_snoc; [exact N|]. intros H. apply exists_name in H. congruence.
  Qed.
  Lemma set_in x v l : In (x, v) (set_attr x v l).
  Proof. induction l as [|[y w] l IH]; [left; reflexivity|]. cbn [set_attr fst]. destruct (text_eqb y x); [left; reflexivity|right; exact IH]. Qed.
  Lemma set_other x v l y w : y <> x -> (In (y, w) (set_attr x v l) <-> In (y, w) l).
  Proof.
    intros Y. induction l as [|[z u] l IH]; cbn [set_attr fst In]; [split; [intros [H|[]]; injection H as <- <-; destruct (Y eq_refl)|intros []]|].
    destruct (text_eqb z x) eqn:E; cbn [In]; [|rewrite IH; reflexivity]. apply eqb_same in E. subst z.
    split; intros [H|H]; auto; injection H as <- <-; destruct (Y eq_refl).
  Qed.
  Lemma find_in x l v : NoDup (map fst l) -> (find_attr x l = Some v <-> In (x, v) l).
  Proof.
    intros N. unfold find_attr. induction l as [|[y w] l IH]; [split; [discriminate|intros []]|]. cbn [find fst In]. inversion N as [|? ? A B]; subst. destruct (text_eqb y x) eqn:E.
    - apply eqb_same in E. subst y. cbn [option_map snd]. split.
      + intros H. injection H as ->. left. reflexivity.
      + intros [H|H]; [injection H as ->; reflexivity|]. destruct A. apply (in_map fst) in H. exact H.
    - apply eqb_other in E. rewrite (IH B). split; [auto|]. intros [H|H]; [injection H as -> _; destruct (E eq_refl)|exact H].
  Qed.
  Lemma find_none x l : find_attr x l = None <-> ~ In x (map fst l).
  Proof.
    unfold find_attr. induction l as [|[y w] l IH]; [cbn; tauto|]. cbn [find fst map In]. destruct (text_eqb y x) eqn:E.
    - apply eqb_same in E. subst y. cbn [option_map]. split; [discriminate|intros H; destruct H; left; reflexivity].
    - apply eqb_other in E. rewrite IH. tauto.
  Qed.
  Lemma in_one x l (v w : value) : NoDup (map fst l) -> In (x, v) l -> In (x, w) l -> v = w.
  Proof. intros N A B. apply (find_in x l v N) in A. apply (find_in x l w N) in B. congruence. Qed.
  Lemma set_keeps x v : (forall c, v = Classes c -> x = lit "class") -> keeps x (set_attr x v).
  Proof.
    intros V l N C. split; [apply set_nodup; exact N|]. split.
    - intros y c H. destruct (text_eqb y x) eqn:E.
      + apply eqb_same in E. subst y. apply (V c). apply (in_one x (set_attr x v l)); [apply set_nodup; exact N|apply set_in|exact H].
      + apply eqb_other in E. apply (set_other x v l y (Classes c) E) in H. exact (C y c H).
    - intros y w Y. apply set_other. exact Y.
  Qed.
  Lemma remove_keeps x l : NoDup (map fst l) -> NoDup (map fst (remove_attr x l)) /\ ~ In x (map fst (remove_attr x l)) /\ forall y v, y <> x -> (In (y, v) (remove_attr x l) <-> In (y, v) l).
  Proof.
    intros N. induction l as [|[y w] l IH]; [split; [exact N|]; split; [intros []|reflexivity]|]. cbn [remove_attr fst]. inversion N as [|? ? A B]; subst. destruct (text_eqb y x) eqn:E.
    - apply eqb_same in E. subst y. split; [exact B|]. split; [exact A|]. intros y v Y. cbn [In]. split; [auto|intros [H|H]; [injection H as <- _; destruct (Y eq_refl)|exact H]].
    - apply eqb_other in E. destruct (IH B) as (X1 & X2 & X3). split; [|split].
      + cbn [map fst]. constructor; [|exact X1]. intros H. apply in_map_iff in H. destruct H as ([z u] & <- & H). cbn [fst] in *. apply (X3 z u E) in H. apply A. apply (in_map fst) in H. exact H.
      + cbn [map fst In]. intros [H|H]; [exact (E H)|exact (X2 H)].
      + intros z v Z. cbn [In]. rewrite (X3 z v Z). reflexivity.
  Qed.
  Lemma put_names c l : map fst (put_classes c l) = map fst l.
  Proof. induction l as [|[y w] l IH]; [reflexivity|]. cbn [put_classes]. destruct w; cbn [map fst]; f_equal; auto. Qed.
  Lemma class_attr_in l c : class_attr l = Some c -> exists x, In (x, Classes c) l.
  Proof. induction l as [|[y w] l IH]; cbn [class_attr]; [discriminate|]. destruct w; intros H; try (destruct (IH H) as (x & X); exists x; right; exact X). injection H as ->. exists y. left. reflexivity. Qed.
  Lemma class_attr_none l c x : class_attr l = None -> ~ In (x, Classes c) l.
  Proof. induction l as [|[y w] l IH]; cbn [class_attr]; [auto|]. destruct w; intros H; try discriminate; intros [X|X]; try discriminate; exact (IH H X). Qed.
  Lemma put_other c l y v : y <> lit "class" -> (forall x k, In (x, Classes k) l -> x = lit "class") -> (In (y, v) (put_classes c l) <-> In (y, v) l).
  Proof.
    intros Y C. induction l as [|[z w] l IH]; [reflexivity|]. assert (C' : forall x k, In (x, Classes k) l -> x = lit "class") by (intros x k H; apply (C x k); right; exact H).
    cbn [put_classes]. destruct w; cbn [In]; try (rewrite (IH C'); reflexivity).
    assert (z = lit "class") by (apply (C z l0); left; reflexivity). subst z. split; intros [H|H]; auto; injection H as <- <-; destruct (Y eq_refl).
  Qed.
  Lemma put_in c l : class_attr l <> None -> (forall x k, In (x, Classes k) l -> x = lit "class") -> In (lit "class", Classes c) (put_classes c l).
  Proof.
    intros H C. induction l as [|[z w] l IH]; [destruct (H eq_refl)|]. assert (C' : forall x k, In (x, Classes k) l -> x = lit "class") by (intros x k X; apply (C x k); right; exact X).
    cbn [put_classes class_attr] in *. destruct w; try (right; apply IH; assumption). left. f_equal. apply (C z l0). left. reflexivity.
  Qed.
  Lemma put_keeps c l : class_attr l <> None -> NoDup (map fst l) -> (forall x k, In (x, Classes k) l -> x = lit "class") ->
    NoDup (map fst (put_classes c l)) /\ (forall y k, In (y, Classes k) (put_classes c l) -> y = lit "class") /\ forall y v, y <> lit "class" -> (In (y, v) (put_classes c l) <-> In (y, v) l).
  Proof.
    intros H N C. split; [rewrite put_names; exact N|]. split; [|intros y v Y; apply put_other; assumption].
    intros y k X. destruct (text_eqb y (lit "class")) eqn:E; [apply eqb_same; exact E|]. apply eqb_other in E. apply (put_other c l y _ E C) in X. exact (C y k X).
  Qed.
  Lemma toggle_keeps c : keeps (lit "class") (toggle c).
  Proof.
    intros l N C. unfold toggle. destruct (class_attr l) as [old|] eqn:E; [|apply set_keeps; [intros ? _; reflexivity|exact N|exact C]].
    assert (E' : class_attr l <> None) by congruence.
    destruct (existsb (text_eqb c) old); [|apply put_keeps; assumption]. destruct (filter _ old) as [|k ks]; [|apply put_keeps; assumption].
    destruct (remove_keeps (lit "class") l N) as (A & B & D). split; [exact A|]. split; [|exact D].
    intros y k X. destruct (text_eqb y (lit "class")) eqn:Y; [apply eqb_same; exact Y|]. apply eqb_other in Y. apply (D y _ Y) in X. exact (C y k X).
  Qed.
  Lemma add_style_keeps imp x : keeps (lit "style") (add_style imp x).
  Proof.
    intros l N C. unfold add_style. assert (P : forall i n c, pushed (num := num) (path := path) imp x i n = Classes c -> lit "style" = lit "class") by (intros i n c; unfold pushed; destruct imp; discriminate).
    destruct (find_attr (lit "style") l) as [[]|]; (apply set_keeps; [apply P|exact N|exact C]).
  Qed.
  Lemma add_transform_keeps t : keeps (lit "transform") (add_transform t).
  Proof. intros l N C. unfold add_transform. destruct (find_attr (lit "transform") l) as [[[]| | | | | |]|]; (apply set_keeps; [intros ?; discriminate|exact N|exact C]). Qed.
End P.
