From Coq Require Import String List NArith Bool Arith Lia Permutation.
From Verif Require Import Chars NameModel NsModel NsSpec NsProofs LintModel LintSpec.
From Verif Require IdsModel.
Import ListNotations.

Notation key := (option text * text)%type.
Definition key_eqb (a b : key) : bool := otext_eqb (fst a) (fst b) && text_eqb (snd a) (snd b).
Lemma key_eqb_iff a b : key_eqb a b = true <-> a = b.
Proof.
  destruct a as [a1 a2], b as [b1 b2]. unfold key_eqb. cbn [fst snd]. rewrite andb_true_iff, otext_eqb_iff, text_eqb_spec.
  split; [intros [-> ->]; reflexivity|intros E; injection E; auto].
Qed.
Lemma entry_eqb_iff a b : entry_eqb a b = true <-> a = b.
Proof.
  destruct a as [[a1 a2] a3], b as [[b1 b2] b3]. unfold entry_eqb. cbn [fst snd].
  rewrite !andb_true_iff, otext_eqb_iff, text_eqb_spec, Bool.eqb_true_iff.
  split; [intros [[-> ->] ->]; reflexivity|intros E; injection E; auto].
Qed.
Lemma set_mem_iff e s : set_mem e s = true <-> In e s.
Proof.
  unfold set_mem. rewrite existsb_exists. split.
  - intros (x & I0 & E). apply entry_eqb_iff in E. subst. exact I0.
  - intros I0. exists e. split; [exact I0|]. apply entry_eqb_iff. reflexivity.
Qed.
Lemma set_mem_false e s : set_mem e s = false <-> ~ In e s.
Proof. rewrite <- set_mem_iff. destruct (set_mem e s); split; congruence. Qed.

(** ** Marking *)
Definition kmem (k : key) (ks : list key) : bool := existsb (key_eqb k) ks.
Lemma kmem_iff k ks : kmem k ks = true <-> In k ks.
Proof.
  unfold kmem. rewrite existsb_exists. split.
  - intros (x & I0 & E). apply key_eqb_iff in E. subst. exact I0.
  - intros I0. exists k. split; [exact I0|]. apply key_eqb_iff. reflexivity.
Qed.
Definition mark_all (ks : list key) (s : list entry) : list entry :=
  map (fun e => if kmem (fst e) ks then (fst e, true) else e) s.
Lemma mark_all_app a b s : mark_all (a ++ b) s = mark_all b (mark_all a s).
Proof.
  unfold mark_all. rewrite map_map. apply map_ext. intros [k f]. cbn [fst]. unfold kmem. rewrite existsb_app.
  destruct (existsb (key_eqb k) a); cbn [orb fst]; [|reflexivity]. destruct (existsb (key_eqb k) b); reflexivity.
Qed.
Lemma mark_all_ext a b s : (forall k, In k a <-> In k b) -> mark_all a s = mark_all b s.
Proof.
  intros H. unfold mark_all. apply map_ext. intros [k f]. cbn [fst].
  replace (kmem k b) with (kmem k a); [reflexivity|]. apply eq_true_iff_eq. rewrite !kmem_iff. apply H.
Qed.
Lemma mark_all_nil s : mark_all [] s = s.
Proof. unfold mark_all. cbn. apply map_id. Qed.
Lemma use_entry_all k s : use_entry k s = mark_all [k] s.
Proof.
  unfold use_entry, mark_all. apply map_ext. intros [k' f]. cbn [fst]. unfold kmem. cbn [existsb]. rewrite orb_false_r.
  destruct (key_eqb k' k) eqn:E.
  - apply key_eqb_iff in E. subst k'. match goal with |- context [entry_eqb ?a ?b] => destruct (entry_eqb a b) eqn:F end; [reflexivity|].
    destruct f; [reflexivity|]. rewrite (proj2 (entry_eqb_iff _ _) eq_refl) in F. discriminate F.
  - match goal with |- context [entry_eqb ?a ?b] => destruct (entry_eqb a b) eqn:F end; [|reflexivity]. apply entry_eqb_iff in F. injection F as F _. subst k'.
    rewrite (proj2 (key_eqb_iff _ _) eq_refl) in E. discriminate E.
Qed.
Lemma mark_all_id k s : ~ In (k, false) s -> mark_all [k] s = s.
Proof.
  intros H. unfold mark_all. rewrite <- (map_id s) at 2. apply map_ext_in. intros [k' f] I0. cbn [fst].
  destruct (kmem k' [k]) eqn:E; [|reflexivity]. apply kmem_iff in E. destruct E as [E|E]; [|destruct E]. subst k'.
  destruct f; [reflexivity|]. contradiction.
Qed.

(** Once a set has an entry as used, no set further out has it as unused. *)
Fixpoint inv (st : list (list entry)) : Prop :=
  match st with
  | [] => True
  | s :: rest => (forall k, In (k, true) s -> Forall (fun s' => ~ In (k, false) s') (s :: rest)) /\ inv rest
  end.
Lemma mark_map k : forall st, inv st -> mark k st = map (mark_all [k]) st.
Proof.
  induction st as [|s st IH]; intros H; [reflexivity|]. destruct H as [H1 H2]. cbn [mark map].
  destruct (set_mem (k, true) s) eqn:E.
  - apply set_mem_iff in E. apply H1 in E. rewrite <- (map_id (s :: st)) at 1. change (map (fun x => x) (s :: st) = map (mark_all [k]) (s :: st)).
    apply map_ext_in. intros s' I0. symmetry. apply mark_all_id. rewrite Forall_forall in E. apply E, I0.
  - rewrite (IH H2), use_entry_all. destruct (set_mem (k, false) s) eqn:F; [reflexivity|].
    apply set_mem_false in F. rewrite (mark_all_id k s F). reflexivity.
Qed.
Lemma mark_all_true ks k s : In (k, true) (mark_all ks s) -> In k ks \/ In (k, true) s.
Proof.
  unfold mark_all. intros I0. apply in_map_iff in I0. destruct I0 as ([k' f] & E & I0). cbn [fst] in E.
  destruct (kmem k' ks) eqn:F.
  - injection E as ->. left. apply kmem_iff. exact F.
  - injection E as -> ->. right. exact I0.
Qed.
Lemma mark_all_false ks k s : In (k, false) (mark_all ks s) -> ~ In k ks /\ In (k, false) s.
Proof.
  unfold mark_all. intros I0. apply in_map_iff in I0. destruct I0 as ([k' f] & E & I0). cbn [fst] in E.
  destruct (kmem k' ks) eqn:F.
  - discriminate E.
  - injection E as -> ->. split; [|exact I0]. intros J. apply kmem_iff in J. congruence.
Qed.
Lemma inv_marks ks : forall st, inv st -> inv (map (mark_all ks) st).
Proof.
  induction st as [|s st IH]; intros H; [exact Logic.I|]. destruct H as [H1 H2]. cbn [map inv]. split; [|apply IH, H2].
  intros k I0. change (mark_all ks s :: map (mark_all ks) st) with (map (mark_all ks) (s :: st)). rewrite Forall_forall.
  intros s' I1 F. apply in_map_iff in I1. destruct I1 as (s0 & <- & I1). apply mark_all_false in F. destruct F as [F1 F2].
  apply mark_all_true in I0. destruct I0 as [I0|I0]; [contradiction|]. apply H1 in I0. rewrite Forall_forall in I0. exact (I0 _ I1 F2).
Qed.
Lemma marks_app a b st : map (mark_all b) (map (mark_all a) st) = map (mark_all (a ++ b)) st.
Proof. rewrite map_map. apply map_ext. intros s. symmetry. apply mark_all_app. Qed.
Lemma marks_ext a b st : (forall k, In k a <-> In k b) -> map (mark_all a) st = map (mark_all b) st.
Proof. intros H. apply map_ext. intros s. apply mark_all_ext, H. Qed.

Lemma attr_key_eq a : key_of (pattr_prefix a) = attr_key a.
Proof. destruct a; reflexivity. Qed.
Lemma track_attrs : forall attrs st, inv st ->
  fold_left (fun st a => mark (key_of (pattr_prefix a)) st) attrs st = map (mark_all (map attr_key attrs)) st.
Proof.
  induction attrs as [|a attrs IH]; intros st H; cbn [fold_left map].
  - rewrite <- (map_id st) at 1. apply map_ext. intros s. symmetry. apply mark_all_nil.
  - rewrite (mark_map _ _ H), (IH _ (inv_marks _ _ H)), marks_app, attr_key_eq. reflexivity.
Qed.
Lemma track_eq name attrs st : inv st ->
  track_xmlns name attrs st = map (mark_all (map attr_key attrs ++ [name_key name])) st.
Proof.
  intros H. unfold track_xmlns. rewrite (track_attrs _ _ H), (mark_map _ _ (inv_marks _ _ H)), marks_app. reflexivity.
Qed.

(** ** The own set *)
Definition own_set (attrs : list pattr) : list entry := fold_left set_insert (flat_map own_entry attrs) [].
Lemma insert_in s e x : In x (set_insert s e) <-> In x s \/ x = e.
Proof.
  unfold set_insert. destruct (set_mem e s) eqn:E.
  - apply set_mem_iff in E. split; [auto|]. intros [J|J]; [exact J|subst; exact E].
  - rewrite in_app_iff. cbn. intuition congruence.
Qed.
Lemma inserts_in x : forall l s, In x (fold_left set_insert l s) <-> In x s \/ In x l.
Proof.
  induction l as [|e l IH]; intros s; cbn [fold_left]; [cbn; tauto|]. rewrite IH, insert_in. cbn [In]. intuition congruence.
Qed.
Lemma own_set_in k f attrs : In (k, f) (own_set attrs) <-> f = false /\ In k (declared attrs).
Proof.
  unfold own_set. rewrite inserts_in. cbn [In]. unfold declared. rewrite !in_flat_map. split.
  - intros [[]|(a & I0 & E)]. destruct a as [u|n u|q v]; cbn in E; [| |destruct E].
    + destruct E as [E|[]]. injection E as <- <-. split; [reflexivity|]. exists (ADefault u). split; [exact I0|left; reflexivity].
    + destruct E as [E|[]]. injection E as <- <-. split; [reflexivity|]. exists (APrefix n u). split; [exact I0|left; reflexivity].
  - intros [-> (a & I0 & E)]. right. exists a. split; [exact I0|]. destruct a as [u|n u|q v]; cbn in E |- *; [| |destruct E].
    + destruct E as [<-|[]]. left. reflexivity.
    + destruct E as [<-|[]]. left. reflexivity.
Qed.
Lemma inv_push attrs st : inv st -> inv (push_xmlns attrs st).
Proof.
  intros H. split; [|exact H]. intros k I0. change (In (k, true) (own_set attrs)) in I0. apply own_set_in in I0. destruct I0 as [I0 _]. discriminate I0.
Qed.

(** ** The whole tree *)
Fixpoint expected (n : pnode) (path : list nat) {struct n} : list report :=
  match n with
  | POther _ => []
  | PElem name attrs kids =>
      (fix go (l : list pnode) (i : nat) : list report :=
         match l with [] => [] | k :: l => expected k (path ++ [i]) ++ go l (S i) end) kids 0 ++
      unused path (mark_all (names_in n) (own_set attrs))
  end.
Definition expected_kids (path : list nat) : list pnode -> nat -> list report :=
  fix go (l : list pnode) (i : nat) : list report :=
    match l with [] => [] | k :: l => expected k (path ++ [i]) ++ go l (S i) end.
Definition lint_kids (path : list nat) : list pnode -> nat -> list (list entry) -> list (list entry) * list report :=
  fix go (l : list pnode) (i : nat) (stack : list (list entry)) : list (list entry) * list report :=
    match l with
    | [] => (stack, [])
    | k :: l => let '(stack, r) := lint_xmlns k (path ++ [i]) stack in
                let '(stack, r') := go l (S i) stack in (stack, r ++ r')
    end.
Definition lint_ok (n : pnode) : Prop := forall path st, inv st ->
  lint_xmlns n path st = (map (mark_all (names_in n)) st, expected n path).
Lemma marks_nil st : map (mark_all []) st = st.
Proof. rewrite <- (map_id st) at 2. apply map_ext. apply mark_all_nil. Qed.
Lemma lint_spec : forall n, lint_ok n.
Proof.
  fix IH 1. destruct n as [name attrs kids|t]; intros path st H; [|cbn; rewrite marks_nil; reflexivity].
  assert (K : forall l i st, incl l kids -> inv st -> lint_kids path l i st = (map (mark_all (flat_map names_in l)) st, expected_kids path l i)).
  { clear - IH.
    assert (A : Forall lint_ok kids).
    { revert kids. fix IHk 1. destruct kids as [|x l]; constructor; [apply IH|apply IHk]. }
    rewrite Forall_forall in A. clear IH.
    induction l as [|x l IHl]; intros i st L H; cbn [lint_kids expected_kids flat_map].
    - rewrite marks_nil. reflexivity.
    - rewrite (A x (L _ (or_introl eq_refl)) _ _ H). fold (lint_kids path). rewrite IHl.
      + rewrite marks_app. reflexivity.
      + intros y Hy. apply L. right. exact Hy.
      + apply inv_marks, H. }
  cbn [lint_xmlns expected]. fold (lint_kids path) (expected_kids path).
  rewrite (track_eq _ _ _ (inv_push attrs st H)).
  rewrite (K kids 0 _ (fun x Hx => Hx) (inv_marks _ _ (inv_push attrs st H))).
  rewrite marks_app. unfold push_xmlns. cbn [map]. fold (own_set attrs).
  assert (E : forall k, In k ((map attr_key attrs ++ [name_key name]) ++ flat_map names_in kids) <-> In k (names_in (PElem name attrs kids))).
  { intros k. cbn [names_in]. cbn [In]. rewrite !in_app_iff. cbn [In]. tauto. }
  rewrite (mark_all_ext _ _ _ E), (marks_ext _ _ _ E). reflexivity.
Qed.

Lemma unused_in path s q k : In (q, k) (unused path s) <-> q = path /\ In (k, false) s.
Proof.
  unfold unused. rewrite in_flat_map. split.
  - intros ([k' f] & I0 & E). cbn [snd fst] in E. destruct f; [destruct E|]. destruct E as [E|[]]. injection E as <- <-. auto.
  - intros [-> I0]. exists (k, false). split; [exact I0|]. left. reflexivity.
Qed.
Lemma marked_in ks s k : In (k, false) (mark_all ks s) <-> ~ In k ks /\ In (k, false) s.
Proof.
  split; [apply mark_all_false|]. intros [N I0]. unfold mark_all. apply in_map_iff. exists (k, false). split; [|exact I0].
  cbn [fst]. destruct (kmem k ks) eqn:E; [|reflexivity]. apply kmem_iff in E. contradiction.
Qed.

Lemma at_nil n : at_path n [] = match n with PElem _ _ _ => Some n | POther _ => None end.
Proof. destruct n; reflexivity. Qed.
Definition expected_ok (n : pnode) : Prop := forall path q k,
  In (q, k) (expected n path) <->
  exists rest name attrs kids, q = path ++ rest /\ at_path n rest = Some (PElem name attrs kids) /\
    In k (declared attrs) /\ ~ In k (names_in (PElem name attrs kids)).
Lemma expected_spec : forall n, expected_ok n.
Proof.
  fix IH 1. destruct n as [name attrs kids|t]; intros path q k.
  2:{ split; [intros []|]. intros (rest & name & attrs & kids & _ & E & _). destruct rest; discriminate E. }
  cbn [expected]. fold (expected_kids path). rewrite in_app_iff, unused_in, marked_in, own_set_in.
  assert (K : forall l i, incl l kids -> (In (q, k) (expected_kids path l i) <->
     exists j x rest name attrs kids, nth_error l j = Some x /\ q = (path ++ [i + j]) ++ rest /\ at_path x rest = Some (PElem name attrs kids) /\
       In k (declared attrs) /\ ~ In k (names_in (PElem name attrs kids)))).
  { clear - IH.
    assert (A : Forall expected_ok kids).
    { revert kids. fix IHk 1. destruct kids as [|x l]; constructor; [apply IH|apply IHk]. }
    rewrite Forall_forall in A. clear IH.
    induction l as [|x l IHl]; intros i L; cbn [expected_kids].
    - split; [intros []|]. intros (j & x & rest & name & attrs & ks & E & _). destruct j; discriminate E.
    - rewrite in_app_iff. pose proof (A x (L _ (or_introl eq_refl)) (path ++ [i]) q k) as Ax. rewrite Ax. clear Ax. fold (expected_kids path). rewrite IHl; [|intros y Hy; apply L; right; exact Hy].
      split.
      + intros [(rest & name & attrs & ks & E & P & D & U)|(j & y & rest & name & attrs & ks & N & E & P & D & U)].
        * exists 0, x, rest, name, attrs, ks. rewrite Nat.add_0_r. split; [reflexivity|]. auto.
        * exists (S j), y, rest, name, attrs, ks. rewrite Nat.add_succ_r. split; [exact N|]. auto.
      + intros (j & y & rest & name & attrs & ks & N & E & P & D & U). destruct j as [|j].
        * injection N as <-. left. rewrite Nat.add_0_r in E. exists rest, name, attrs, ks. auto.
        * right. exists j, y, rest, name, attrs, ks. rewrite Nat.add_succ_r in E. split; [exact N|]. auto. }
  rewrite (K kids 0 (fun x Hx => Hx)). split.
  - intros [(j & x & rest & name' & attrs' & ks & N & E & P & D & U)|(-> & U & _ & D)].
    + exists (j :: rest), name', attrs', ks. cbn [plus] in E. split; [rewrite E, <- app_assoc; reflexivity|]. cbn [at_path]. rewrite N. auto.
    + exists [], name, attrs, kids. rewrite app_nil_r. auto.
  - intros (rest & name' & attrs' & ks & E & P & D & U). destruct rest as [|j rest].
    + right. cbn [at_path] in P. injection P as <- <- <-. rewrite app_nil_r in E. auto.
    + left. cbn [at_path] in P. destruct (nth_error kids j) as [x|] eqn:N; [|discriminate P].
      exists j, x, rest, name', attrs', ks. split; [exact N|]. split; [rewrite E, <- app_assoc; reflexivity|]. auto.
Qed.

Lemma lint_exact t path k : In (path, k) (lint_document_xmlns t) <->
  exists name attrs kids, at_path t path = Some (PElem name attrs kids) /\ In k (declared attrs) /\
    ~ In k (names_in (PElem name attrs kids)).
Proof.
  unfold lint_document_xmlns. rewrite (lint_spec t [] [] Logic.I). cbn [snd]. rewrite (expected_spec t [] path k). split.
  - intros (rest & name & attrs & kids & -> & H). exists name, attrs, kids. exact H.
  - intros (name & attrs & kids & H). exists path, name, attrs, kids. split; [reflexivity|exact H].
Qed.

(** ** Deleting what is reported *)
Definition lost (d : decl) (a b : list decl) : Prop :=
  forall p, innermost p a = innermost p b \/ (p = fst d /\ innermost p a = Some (snd d)).
Lemma lost_app d own a b : lost d a b -> lost d (own ++ a) (own ++ b).
Proof.
  intros H p. rewrite !innermost_app. destruct (innermost p own); [left; reflexivity|]. apply H.
Qed.
Lemma lost_name d a b q : lost d a b -> agrees_with a q -> name_key q <> d ->
  innermost (prefix_value (q_prefix q)) a = innermost (prefix_value (q_prefix q)) b.
Proof.
  intros H A N. destruct (H (prefix_value (q_prefix q))) as [E|[E1 E2]]; [exact E|]. exfalso. apply N.
  apply A in E2. unfold name_key. rewrite E1, E2. destruct d; reflexivity.
Qed.
Lemma element_uri_ext p a b : innermost p a = innermost p b -> element_uri p a = element_uri p b.
Proof. intros E. destruct p as [p|]; cbn [element_uri]; unfold prefixed; rewrite E; reflexivity. Qed.
Lemma attr_uri_ext p a b : (p <> None -> innermost p a = innermost p b) -> attr_uri p a = attr_uri p b.
Proof. intros E. destruct p as [p|]; cbn [attr_uri]; [|reflexivity]. unfold prefixed. rewrite E; [reflexivity|discriminate]. Qed.

Definition lost_ok (n : pnode) : Prop := forall d a b, lost d a b -> consistent a n -> ~ In d (names_in n) ->
  mean_parsed a n = mean_parsed b n.
Lemma lost_elem d name attrs kids a b : lost d a b -> Forall lost_ok kids ->
  agrees_with a name -> Forall (fun x => match x with AOther q _ => prefix_value (q_prefix q) <> None -> agrees_with a q | _ => True end) attrs ->
  (fix go l := match l with [] => True | x :: l => consistent a x /\ go l end) kids ->
  ~ In d (names_in (PElem name attrs kids)) ->
  element_uri (prefix_value (q_prefix name)) a = element_uri (prefix_value (q_prefix name)) b /\
  flat_map (mean_pattr a) attrs = flat_map (mean_pattr b) attrs /\ map (mean_parsed a) kids = map (mean_parsed b) kids.
Proof.
  intros L K A1 A2 A3 N. cbn [names_in] in N. split; [|split].
  - apply element_uri_ext, (lost_name d _ _ _ L A1). intros E. apply N. left. exact E.
  - assert (N' : forall x, In x attrs -> attr_key x <> d).
    { intros x Hx E. apply N. right. apply in_or_app. left. rewrite <- E. apply in_map. exact Hx. }
    clear - L A2 N'. induction attrs as [|x attrs IH]; [reflexivity|]. inversion A2 as [|? ? B1 B2]; subst. cbn [flat_map].
    rewrite IH; [|exact B2|intros y Hy; apply N'; right; exact Hy]. f_equal.
    destruct x as [u|n u|q v]; [reflexivity|reflexivity|]. cbn [mean_pattr]. do 3 f_equal. apply attr_uri_ext. intros Hp.
    apply (lost_name d _ _ _ L (B1 Hp)). exact (N' (AOther q v) (or_introl eq_refl)).
  - assert (N' : ~ In d (flat_map names_in kids)).
    { intros E. apply N. right. apply in_or_app. right. exact E. }
    clear - L K A3 N'. induction kids as [|x kids IH]; [reflexivity|]. inversion K as [|? ? K1 K2]; subst. destruct A3 as [A3 A4]. cbn [map].
    rewrite IH; [|exact K2|exact A4|]; cycle 1.
    { intros E. apply N'. cbn [flat_map]. apply in_or_app. right. exact E. }
    f_equal. apply (K1 d _ _ L A3). intros E. apply N'. cbn [flat_map]. apply in_or_app. left. exact E.
Qed.
Lemma lost_spec : forall n, lost_ok n.
Proof.
  fix IH 1. destruct n as [name attrs kids|t]; intros d a b L C N; [|reflexivity].
  assert (K : Forall lost_ok kids).
  { clear - IH. revert kids. fix IHk 1. destruct kids as [|x l]; constructor; [apply IH|apply IHk]. }
  clear IH. cbn [consistent] in C. destruct C as (C1 & C2 & C3).
  destruct (lost_elem d name attrs kids _ _ (lost_app d (declared attrs) _ _ L) K C1 C2 C3 N) as (E1 & E2 & E3).
  cbn [mean_parsed]. rewrite E1, E2, E3. reflexivity.
Qed.

Lemma is_decl_spec d a : is_decl d a = true <-> (a = ADefault (snd d) /\ fst d = None) \/ (exists n, fst d = Some n /\ a = APrefix n (snd d)).
Proof.
  destruct d as [[p|] u], a as [v|n v|q v]; cbn [is_decl fst snd]; rewrite ?andb_true_iff, ?text_eqb_spec.
  - split; [discriminate|]. intros [[_ E]|(m & _ & E)]; discriminate E.
  - split; [intros [-> ->]; right; eauto|]. intros [[E _]|(m & E1 & E2)]; [discriminate E|]. injection E1 as <-. injection E2 as -> ->. auto.
  - split; [discriminate|]. intros [[E _]|(m & _ & E)]; discriminate E.
  - split; [intros ->; left; auto|]. intros [[E _]|(m & E & _)]; [injection E as ->; reflexivity|discriminate E].
  - split; [discriminate|]. intros [[E _]|(m & E & _)]; discriminate E.
  - split; [discriminate|]. intros [[E _]|(m & E & _)]; discriminate E.
Qed.
Lemma mean_filter scope d attrs : flat_map (mean_pattr scope) (filter (fun a => negb (is_decl d a)) attrs) = flat_map (mean_pattr scope) attrs.
Proof.
  induction attrs as [|a attrs IH]; [reflexivity|]. cbn [filter flat_map]. destruct (is_decl d a) eqn:E; cbn [negb].
  - rewrite IH. apply is_decl_spec in E. destruct E as [[-> _]|(n & _ & ->)]; reflexivity.
  - cbn [flat_map]. rewrite IH. reflexivity.
Qed.

Lemma declared_filter d attrs : declared (filter (fun a => negb (is_decl d a)) attrs) = filter (fun x : decl => negb (key_eqb x d)) (declared attrs).
Proof.
  induction attrs as [|a attrs IH]; [reflexivity|]. cbn [filter].
  assert (E : declared (a :: attrs) = declared [a] ++ declared attrs) by (unfold declared; cbn [flat_map]; rewrite app_nil_r; reflexivity).
  rewrite E, filter_app, <- IH. destruct (is_decl d a) eqn:F; cbn [negb].
  - apply is_decl_spec in F. destruct d as [p u]. cbn [fst snd] in F.
    destruct F as [[-> ->]|(n & -> & ->)]; cbn [declared flat_map app filter]; rewrite (proj2 (key_eqb_iff _ _) eq_refl); reflexivity.
  - assert (G : filter (fun x : decl => negb (key_eqb x d)) (declared [a]) = declared [a]).
    { destruct a as [v|n v|q v]; cbn [declared flat_map app filter]; [| |reflexivity].
      - destruct (key_eqb (None, v) d) eqn:X; [|reflexivity]. exfalso. apply key_eqb_iff in X. subst d.
        assert (is_decl (None, v) (ADefault v) = true) by (apply is_decl_spec; left; auto). congruence.
      - destruct (key_eqb (Some n, v) d) eqn:X; [|reflexivity]. exfalso. apply key_eqb_iff in X. subst d.
        assert (is_decl (Some n, v) (APrefix n v) = true) by (apply is_decl_spec; right; exists n; auto). congruence. }
    rewrite G. change (declared (a :: filter (fun a => negb (is_decl d a)) attrs) = declared [a] ++ declared (filter (fun a => negb (is_decl d a)) attrs)).
    unfold declared. cbn [flat_map]. rewrite app_nil_r. reflexivity.
Qed.
Lemma innermost_other d p : p <> fst d -> forall l, innermost p (filter (fun x : decl => negb (key_eqb x d)) l) = innermost p l.
Proof.
  intros N. induction l as [|[q v] l IH]; [reflexivity|]. cbn [filter innermost]. destruct (key_eqb (q, v) d) eqn:E; cbn [negb].
  - apply key_eqb_iff in E. subst d. rewrite IH. cbn [fst] in N. destruct (otext_eqb q p) eqn:F; [|reflexivity].
    apply otext_eqb_iff in F. congruence.
  - cbn [innermost]. rewrite IH. reflexivity.
Qed.
Lemma innermost_unique (l : list decl) d : NoDup (map fst l) -> In d l -> innermost (fst d) l = Some (snd d).
Proof.
  induction l as [|[q v] l IH]; intros N I0; [destruct I0|]. inversion N as [|? ? N1 N2]; subst. cbn [innermost].
  destruct I0 as [<-|I0]; [cbn [fst snd]; rewrite otext_eqb_refl; reflexivity|].
  destruct (otext_eqb q (fst d)) eqn:E; [|apply IH; assumption]. apply otext_eqb_iff in E. exfalso. apply N1. cbn [fst]. rewrite E.
  apply in_map. exact I0.
Qed.

Definition delete_kids (path : list nat) (d : decl) : list pnode -> nat -> list pnode :=
  fix go (l : list pnode) (i : nat) : list pnode :=
    match l, i with
    | [], _ => []
    | k :: l, 0 => delete_decl k path d :: l
    | k :: l, S i => k :: go l i
    end.
Lemma delete_cons name attrs kids i path d :
  delete_decl (PElem name attrs kids) (i :: path) d = PElem name attrs (delete_kids path d kids i).
Proof. reflexivity. Qed.
Lemma delete_same path d : forall t scope name attrs kids,
  consistent scope t -> own_distinct t ->
  at_path t path = Some (PElem name attrs kids) -> In d (declared attrs) -> ~ In d (names_in (PElem name attrs kids)) ->
  mean_parsed scope (delete_decl t path d) = mean_parsed scope t.
Proof.
  induction path as [|i path IH]; intros t scope name attrs kids C O P D N.
  - destruct t as [n a k|t]; [|discriminate P]. injection P as -> -> ->. cbn [delete_decl mean_parsed].
    cbn [consistent own_distinct] in C, O. destruct C as (C1 & C2 & C3), O as [O _].
    assert (L : lost d (declared attrs ++ scope) (declared (filter (fun a => negb (is_decl d a)) attrs) ++ scope)).
    { intros p. rewrite declared_filter, !innermost_app. destruct (otext_eqb p (fst d)) eqn:E.
      - apply otext_eqb_iff in E. subst p. right. rewrite (innermost_unique _ _ O D). auto.
      - apply otext_eqb_false in E. left. rewrite (innermost_other _ _ E). reflexivity. }
    assert (K : Forall lost_ok kids) by (apply Forall_forall; intros x _; apply lost_spec).
    destruct (lost_elem d name attrs kids _ _ L K C1 C2 C3 N) as (E1 & E2 & E3).
    rewrite E1, E2, E3, mean_filter. reflexivity.
  - destruct t as [n a k|t]; [|discriminate P]. cbn [at_path] in P. rewrite delete_cons. cbn [mean_parsed]. f_equal.
    cbn [consistent own_distinct] in C, O. destruct C as (_ & _ & C), O as [_ O].
    revert i P. induction k as [|x k IHk]; intros i P; [destruct i; discriminate P|]. destruct C as [C1 C2], O as [O1 O2].
    destruct i as [|i]; cbn [delete_kids map].
    + cbn [nth_error] in P. rewrite (IH x _ name attrs kids C1 O1 P D N). reflexivity.
    + cbn [nth_error] in P. fold (delete_kids path d). rewrite (IHk C2 O2 i P). reflexivity.
Qed.
Lemma lint_delete t path d : consistent [] t -> own_distinct t -> In (path, d) (lint_document_xmlns t) ->
  mean_parsed [] (delete_decl t path d) = mean_parsed [] t.
Proof.
  intros C O R. apply lint_exact in R. destruct R as (name & attrs & kids & P & D & N).
  exact (delete_same path d t [] name attrs kids C O P D N).
Qed.
