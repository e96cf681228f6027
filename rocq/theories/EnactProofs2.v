From Coq Require Import String List NArith ZArith Bool Arith Lia.
From Verif Require Import Chars ActionModel EnactModel EnactSpec EnactProofs.
Import ListNotations.

Lemma count_eqb c (l : list text) : existsb (text_eqb c) l = true <-> In c l.
Proof. apply exists_name. Qed.
Lemma filter_remove c (l : list text) : filter (fun x => negb (text_eqb c x)) l = remove text_eq_dec c l.
Proof.
  induction l as [|x l IH]; [reflexivity|]. cbn [filter remove]. destruct (text_eq_dec c x) as [E|E].
  - rewrite (proj2 (eqb_same c x) E). exact IH.
  - rewrite (proj2 (eqb_other c x) E). cbn [negb]. f_equal. exact IH.
Qed.

Section Q.
  Context {num decl path : Type}.
  Notation node := (@node num decl path).
  Notation value := (@value num decl path).
  Variables (zero : num) (accepts : ename -> text -> bool) (read_attr : text -> text -> value) (read_decl : text -> text -> option decl).
  Notation enact := (enact zero accepts read_attr read_decl).
  Hypothesis reads : forall x v c, read_attr x v = Classes c -> x = lit "class".

  Definition attr_change (x v : text) (e : ename) (l : list (text * value)) := if accepts e x then set_attr x (read_attr x v) l else l.
  Lemma with_same (m : node) : with_attrs (fun l => l) m = m.
  Proof. destruct m. reflexivity. Qed.
  Lemma attr_pure x v : colons x <= 1 -> forall i e (d : list node) m, nth_error d i = Some m -> n_name m = Some e ->
    (if 2 <=? colons x then Panicked else if negb (accepts e x) then Done d else Done (change i (with_attrs (set_attr x (read_attr x v))) d)) = Done (change i (with_attrs (attr_change x v e)) d).
  Proof.
    intros C i e d m M N. rewrite (proj2 (Nat.leb_gt 2 (colons x))) by lia. unfold attr_change. destruct (accepts e x); cbn [negb]; [reflexivity|]. f_equal. symmetry. apply change_same. intros m' _. apply with_same.
  Qed.
  Lemma attr_change_keeps x v e : keeps x (attr_change x v e).
  Proof. unfold attr_change. destruct (accepts e x); [apply set_keeps; intros c H; exact (reads x v c H)|]. intros l N C. split; [exact N|]. split; [exact C|]. reflexivity. Qed.

  (** A run that stops at the first element leaves the document alone or stops. *)
  Lemma each_stop t (f : nat -> ename -> list node -> outcome) ids d d' : (forall i e d, f i e d = Failed \/ f i e d = Panicked) -> each t f ids d = Done d' -> d' = d.
  Proof.
    intros F. induction ids as [|id ids IH]; cbn [each]; [congruence|]. destruct (element_of t d id) as [[i e]|]; [|exact IH]. destruct (F i e d) as [-> | ->]; discriminate.
  Qed.
  Lemma only_same x w (d : list node) : well d -> only x w d d.
  Proof. intros W. split; [reflexivity|]. intros n m M. exists m. split; [exact M|]. split; [reflexivity|]. split; [reflexivity|]. split; [reflexivity|]. split; [exact (proj1 (proj1 (Forall_forall _ _) W m (nth_error_In _ _ M)))|]. reflexivity. Qed.

  Lemma enact_only t a x ids d d' : about a x -> well d -> enact t a ids d = Done d' -> only x (named t ids) d d'.
  Proof.
    intros A W R. assert (T : forall tt, enact t a ids d = append_transform t tt ids d -> append_transform t tt ids d = Done d' -> only (lit "transform") (named t ids) d d').
    { intros tt _ H. unfold append_transform, permits_style in H. cbn [negb] in H. refine (run_only t _ (fun _ => add_transform tt) ids d d' _ _ _ W H); [reflexivity|intros _; apply add_transform_keeps]. }
    destruct A; cbn [EnactModel.enact transform_of] in R.
    - unfold attr in R. destruct (2 <=? colons x) eqn:C.
      + assert (d' = d) as -> by (refine (each_stop t _ ids d d' _ R); auto). apply only_same; exact W.
      + apply Nat.leb_gt in C. refine (run_only t _ (attr_change x v) ids d d' x _ (attr_change_keeps x v) W R). intros i e d0 m M N. rewrite <- (attr_pure x v) with (m := m); [|lia|exact M|exact N]. rewrite (proj2 (Nat.leb_gt 2 (colons x))) by lia. reflexivity.
    - unfold class in R. refine (run_only t _ (fun _ => toggle c) ids d d' _ _ (fun _ => toggle_keeps c) W R). reflexivity.
    - unfold style, permits_style in R. cbn [negb] in R. destruct (read_decl p (fst (importance v))) as [y|] eqn:Y.
      + refine (run_only t _ (fun _ => add_style (snd (importance v)) y) ids d d' _ _ (fun _ => add_style_keeps _ y) W R). reflexivity.
      + assert (d' = d) as -> by (refine (each_stop t _ ids d d' _ R); auto). apply only_same; exact W.
    - apply (T _ eq_refl R).
    - apply (T _ eq_refl R).
    - apply (T _ eq_refl R).
    - destruct o as [[ox oy]|]; apply (T _ eq_refl R).
    - apply (T _ eq_refl R).
    - apply (T _ eq_refl R).
  Qed.

  Lemma once_run t f g ids (d d' : list node) n m :
    (forall i e d m, nth_error d i = Some m -> n_name m = Some e -> f i e d = Done (change i (with_attrs (g e)) d)) ->
    each t f ids d = Done d' -> named_once t ids n -> nth_error d n = Some m -> is_element m ->
    exists e, n_name m = Some e /\ nth_error d' n = Some (with_attrs (g e) m).
  Proof.
    intros F R O M E. rewrite (run_nth t f g ids d d' n m F R M), (once_count _ _ _ O). unfold is_element in E. destruct (n_name m) as [e|] eqn:N; [|destruct (E eq_refl)].
    exists e. split; [reflexivity|]. change (Nat.iter 1 (at_elem g) m) with (at_elem g m). unfold at_elem. rewrite N. reflexivity.
  Qed.
  Lemma well_node (d : list node) n m : well d -> nth_error d n = Some m -> NoDup (map fst (n_attrs m)) /\ (forall x l, In (x, Classes l) (n_attrs m) -> x = lit "class").
  Proof. intros W M. exact (proj1 (Forall_forall _ _) W m (nth_error_In _ _ M)). Qed.

  Lemma asked_of (a : @action num) tt : asked zero a tt -> transform_of zero a = Some tt.
  Proof. intros H. destruct H; reflexivity. Qed.
  Lemma enact_transform t a tt ids d d' n m l : asked zero a tt -> well d -> enact t a ids d = Done d' -> named_once t ids n -> nth_error d n = Some m -> is_element m ->
    transforms m l -> exists m', nth_error d' n = Some m' /\ transforms m' (l ++ [tt]).
  Proof.
    intros A W R O M E L. destruct (well_node d n m W M) as [N _].
    assert (R' : append_transform t tt ids d = Done d') by (pose proof (asked_of a tt A) as Q; destruct A; cbn [EnactModel.enact] in R; cbn [transform_of] in R, Q; exact R).
    unfold append_transform, permits_style in R'. cbn [negb] in R'.
    destruct (once_run t _ (fun _ => add_transform tt) ids d d' n m (fun _ _ _ _ _ _ => eq_refl) R' O M E) as (e & _ & H). eexists. split; [exact H|]. left. cbn [with_attrs n_attrs]. unfold add_transform.
    destruct L as [L|[-> [L|L]]].
    - apply (find_in _ _ _ N) in L. rewrite L. apply set_in.
    - apply (find_in _ _ _ N) in L. rewrite L. apply set_in.
    - unfold lacks in L. apply find_none in L. rewrite L. apply set_in.
  Qed.
  Lemma class_attr_unique m l : NoDup (map fst (n_attrs (m : node))) -> (forall x c, In (x, Classes c) (n_attrs m) -> x = lit "class") -> In (lit "class", Classes l) (n_attrs m) -> class_attr (n_attrs m) = Some l.
  Proof.
    intros N C H. destruct (class_attr (n_attrs m)) as [c|] eqn:E; [|destruct (class_attr_none _ l (lit "class") E H)].
    destruct (class_attr_in _ _ E) as (x & X). pose proof (C x c X) as ->. pose proof (in_one _ _ _ _ N H X) as Y. injection Y as ->. reflexivity.
  Qed.
  Lemma enact_class t c ids d d' n m l : well d -> enact t (Class c) ids d = Done d' -> named_once t ids n -> nth_error d n = Some m -> is_element m ->
    classes m l -> exists m', nth_error d' n = Some m' /\ (~ In c l -> classes m' (l ++ [c])) /\ (In c l -> classes m' (remove text_eq_dec c l)).
  Proof.
    intros W R O M E L. destruct (well_node d n m W M) as [N C]. cbn [EnactModel.enact] in R. unfold class in R.
    destruct (once_run t _ (fun _ => toggle c) ids d d' n m (fun _ _ _ _ _ _ => eq_refl) R O M E) as (e & _ & H). eexists. split; [exact H|]. unfold classes at 1 2, lacks at 1 2. cbn [with_attrs n_attrs]. unfold toggle.
    destruct L as [L|[-> L]].
    - rewrite (class_attr_unique m l N C L). assert (X : class_attr (n_attrs m) <> None) by (rewrite (class_attr_unique m l N C L); discriminate). split; intros I.
      + destruct (existsb (text_eqb c) l) eqn:B; [apply count_eqb in B; contradiction|]. left. apply put_in; assumption.
      + rewrite (proj2 (count_eqb c l) I), filter_remove. destruct (remove text_eq_dec c l) as [|k ks] eqn:K; [|left; apply put_in; assumption].
        right. split; [reflexivity|]. apply (remove_keeps (lit "class") (n_attrs m) N).
    - split; [intros _|intros []]. destruct (class_attr (n_attrs m)) as [k|] eqn:K; [|left; apply set_in].
      destruct (class_attr_in _ _ K) as (x & X). pose proof (C x k X) as ->. destruct L. apply (in_map fst) in X. exact X.
  Qed.
  Lemma iter_same_attr x v e (m : node) k : n_name m = Some e -> accepts e x = true -> In (x, read_attr x v) (n_attrs (Nat.iter (S k) (at_elem (attr_change x v)) m)).
  Proof.
    intros N A. rewrite iter_S. unfold at_elem at 1. destruct (iter_name (attr_change x v) k m) as [-> _]. rewrite N. cbn [with_attrs n_attrs]. unfold attr_change at 1. rewrite A. apply set_in.
  Qed.
  Lemma iter_refused x v e (m : node) k : n_name m = Some e -> accepts e x = false -> Nat.iter k (at_elem (attr_change x v)) m = m.
  Proof. intros N A. induction k as [|k IH]; [reflexivity|]. rewrite iter_S, IH. unfold at_elem. rewrite N. unfold attr_change. rewrite A. apply with_same. Qed.
  Lemma enact_attr t x v ids d d' n m e : enact t (Attr x v) ids d = Done d' -> named t ids n -> nth_error d n = Some m -> n_name m = Some e ->
    exists m', nth_error d' n = Some m' /\ (accepts e x = true -> In (x, read_attr x v) (n_attrs m')) /\ (accepts e x = false -> m' = m).
  Proof.
    intros R O M E. cbn [EnactModel.enact] in R. unfold attr in R. destruct (2 <=? colons x) eqn:C.
    - exfalso. assert (G : forall ids, named t ids n -> forall d', each t (fun i e d => @Panicked num decl path) ids d <> Done d').
      { clear R O. intros L (id & I & B & T). induction L as [|j L IH]; [destruct I|]. intros d2. cbn [each]. destruct I as [-> | I].
        - unfold element_of. rewrite (proj2 (Z.ltb_ge id 0) B), T, M, E. discriminate.
        - destruct (element_of t d j) as [[i e']|]; [discriminate|]. apply IH. exact I. }
      exact (G ids O d' R).
    - apply Nat.leb_gt in C. rewrite (run_nth t _ (attr_change x v) ids d d' n m) with (2 := R); [|intros i e' d0 m0 M0 N0; rewrite <- (attr_pure x v) with (m := m0); [rewrite (proj2 (Nat.leb_gt 2 (colons x))) by lia; reflexivity|lia|exact M0|exact N0]|exact M].
      eexists. split; [reflexivity|]. apply picks_named in O. apply (count_occ_In Nat.eq_dec) in O. destruct (count_occ Nat.eq_dec (picks t ids) n) as [|k]; [lia|]. split; intros A; [apply (iter_same_attr x v e); assumption|apply (iter_refused x v e); assumption].
  Qed.
  Lemma done t a ids d : (forall x v, a = Attr x v -> colons x <= 1) -> (forall p v, a = Style p v -> read_decl p (fst (importance v)) <> None) -> exists d', enact t a ids d = Done d'.
  Proof.
    intros HA HS. assert (T : forall tt, exists d', append_transform t tt ids d = Done d').
    { intros tt. unfold append_transform, permits_style. cbn [negb]. rewrite (each_pure t _ (fun _ => add_transform tt)); [eexists; reflexivity|reflexivity]. }
    destruct a; cbn [EnactModel.enact transform_of]; try (eexists; reflexivity); try apply T.
    - unfold attr. pose proof (HA name value eq_refl) as C. rewrite (proj2 (Nat.leb_gt 2 (colons name))) by lia. rewrite (each_pure t _ (attr_change name value)); [eexists; reflexivity|].
      intros i e d0 m M N. rewrite <- (attr_pure name value) with (m := m); [|exact C|exact M|exact N]. rewrite (proj2 (Nat.leb_gt 2 (colons name))) by lia. reflexivity.
    - unfold class. rewrite (each_pure t _ (fun _ => toggle name)); [eexists; reflexivity|reflexivity].
    - unfold style, permits_style. cbn [negb]. specialize (HS property value eq_refl). destruct (read_decl property (fst (importance value))) as [y|]; [|destruct (HS eq_refl)].
      rewrite (each_pure t _ (fun _ => add_style (snd (importance value)) y)); [eexists; reflexivity|reflexivity].
    - destruct origin as [[ox oy]|]; apply T.
  Qed.

  Variable property_of : decl -> text.
  Lemma last_snoc_same p l x : property_of x = p -> last_of property_of p (l ++ [x]) x.
  Proof. intros H. exists l, []. split; [reflexivity|]. split; [exact H|constructor]. Qed.
  Lemma last_snoc_other p l x y : property_of x <> p -> (last_of property_of p (l ++ [x]) y <-> last_of property_of p l y).
  Proof.
    intros H. split.
    - intros (a & b & E & Y & B). destruct (exists_last (l := y :: b)) as (b' & z & Z); [discriminate|]. destruct b as [|c b].
      + apply app_inj_tail in E. destruct E as [_ <-]. contradiction.
      + destruct (exists_last (l := c :: b)) as (b2 & z2 & Z2); [discriminate|]. rewrite Z2 in *. rewrite app_comm_cons, app_assoc in E. apply app_inj_tail in E. destruct E as [-> ->].
        exists a, b2. split; [reflexivity|]. split; [exact Y|]. apply Forall_app in B. apply B.
    - intros (a & b & -> & Y & B). exists a, (b ++ [x]). split; [rewrite <- app_assoc; reflexivity|]. split; [exact Y|]. apply Forall_app. split; [exact B|]. constructor; [exact H|constructor].
  Qed.
  Lemma none_snoc p l x : none_of property_of p (l ++ [x]) <-> none_of property_of p l /\ property_of x <> p.
  Proof. unfold none_of. rewrite Forall_app. split; intros [A B]; (split; [exact A|]); [inversion B; assumption|constructor; [exact B|constructor]]. Qed.
  Lemma pushed_wins imp x i n i' n' : pushed (num := num) (path := path) imp x i n = Declared i' n' ->
    (imp = true \/ none_of property_of (property_of x) i -> wins property_of (property_of x) i' n' x) /\
    (imp = false -> ~ none_of property_of (property_of x) i -> forall y, wins property_of (property_of x) i n y -> wins property_of (property_of x) i' n' y) /\
    forall q y, q <> property_of x -> (wins property_of q i' n' y <-> wins property_of q i n y).
  Proof.
    unfold pushed, wins. destruct imp; intros E; injection E as <- <-; split; [|split| |split].
    - intros _. left. apply last_snoc_same. reflexivity.
    - discriminate.
    - intros q y Q. rewrite (last_snoc_other q i x y (fun H => Q (eq_sym H))), none_snoc. assert (property_of x <> q) by congruence. tauto.
    - intros [H|H]; [discriminate|]. right. split; [exact H|]. apply last_snoc_same. reflexivity.
    - intros _ H y [L|[L _]]; [left; exact L|contradiction].
    - intros q y Q. rewrite (last_snoc_other q n x y (fun H => Q (eq_sym H))). tauto.
  Qed.
  Lemma enact_style t p v x ids d d' n m i k : well d -> read_decl p (fst (importance v)) = Some x -> enact t (Style p v) ids d = Done d' -> named_once t ids n ->
    nth_error d n = Some m -> is_element m -> declares m i k ->
    exists m' i' k', nth_error d' n = Some m' /\ declares m' i' k' /\
      (snd (importance v) = true \/ none_of property_of (property_of x) i -> wins property_of (property_of x) i' k' x) /\
      (snd (importance v) = false -> ~ none_of property_of (property_of x) i -> forall y, wins property_of (property_of x) i k y -> wins property_of (property_of x) i' k' y) /\
      forall q y, q <> property_of x -> (wins property_of q i' k' y <-> wins property_of q i k y).
  Proof.
    intros W X R O M E L. destruct (well_node d n m W M) as [N _]. cbn [EnactModel.enact] in R. unfold style, permits_style in R. cbn [negb] in R. rewrite X in R.
    destruct (once_run t _ (fun _ => add_style (snd (importance v)) x) ids d d' n m (fun _ _ _ _ _ _ => eq_refl) R O M E) as (e & _ & H).
    destruct (pushed (num := num) (path := path) (snd (importance v)) x i k) as [| i' k' | | | | |] eqn:P; try (unfold pushed in P; destruct (snd (importance v)); discriminate).
    eexists; exists i', k'. split; [exact H|]. split; [|exact (pushed_wins _ _ _ _ _ _ P)].
    left. cbn [with_attrs n_attrs]. unfold add_style. destruct L as [L|(-> & -> & L)].
    - apply (find_in _ _ _ N) in L. rewrite L, P. apply set_in.
    - unfold lacks in L. apply find_none in L. rewrite L, P. apply set_in.
  Qed.
End Q.

Lemma white_blank c : white c = true <-> (c = 32%N \/ (9 <= c <= 13)%N).
Proof. unfold white. rewrite orb_true_iff, andb_true_iff, !N.leb_le, N.eqb_eq. tauto. Qed.
Lemma drop_blank k r : blank k -> drop_white (k ++ r) = drop_white r.
Proof. intros B. induction k as [|c k IH]; [reflexivity|]. inversion B as [|? ? C D]; subst. cbn [app drop_white]. rewrite (proj2 (white_blank c) C). exact (IH D). Qed.
Lemma trim_blank s k : blank k -> trim_end (s ++ k) = trim_end s.
Proof. intros B. unfold trim_end. rewrite rev_app_distr, drop_blank; [reflexivity|]. apply Forall_rev. exact B. Qed.
Lemma drop_incl s x : In x (drop_white s) -> In x s.
Proof. induction s as [|c s IH]; [auto|]. cbn [drop_white]. destruct (white c); [right; auto|auto]. Qed.
Lemma split_cons p c s : split_once p (c :: s) = if starts_with p (c :: s) then Some ([], skipn (List.length p) (c :: s)) else match split_once p s with Some (a, b) => Some (c :: a, b) | None => None end.
Proof. reflexivity. Qed.
Lemma starts_other c s : c <> 33%N -> starts_with (lit "!important") (c :: s) = false.
Proof. intros C. unfold starts_with. change (lit "!important") with (33%N :: lit "important"). cbn [strip_prefix]. rewrite (proj2 (N.eqb_neq 33 c) (fun H => C (eq_sym H))). reflexivity. Qed.
Lemma split_first v r : ~ In 33%N v -> split_once (lit "!important") (v ++ lit "!important" ++ r) = Some (v, r).
Proof.
  intros V. induction v as [|c v IH]; [reflexivity|].
  assert (C : c <> 33%N) by (intros ->; apply V; left; reflexivity). cbn [app]. rewrite split_cons, (starts_other _ _ C), IH; [reflexivity|]. intros H. apply V. right. exact H.
Qed.
Lemma split_absent v : ~ In 33%N v -> split_once (lit "!important") v = None.
Proof.
  intros V. induction v as [|c v IH]; [reflexivity|]. assert (C : c <> 33%N) by (intros ->; apply V; left; reflexivity).
  rewrite split_cons, (starts_other _ _ C), IH; [reflexivity|]. intros H. apply V. right. exact H.
Qed.
Lemma important_marked v k : ~ In 33%N v -> blank k -> importance (v ++ lit "!important" ++ k) = (v, true).
Proof.
  intros V B. unfold importance. rewrite app_assoc, (trim_blank _ _ B).
  assert (T : trim_end (v ++ lit "!important") = v ++ lit "!important").
  { unfold trim_end. rewrite rev_app_distr. change (rev (lit "!important")) with (116%N :: rev (lit "!importan")). cbn [app drop_white]. change (white 116) with false. cbn iota.
    change (116%N :: rev (lit "!importan") ++ rev v) with (rev (lit "!important") ++ rev v). rewrite <- rev_app_distr, rev_involutive. reflexivity. }
  rewrite T. pose proof (split_first v [] V) as F. rewrite app_nil_r in F. rewrite F. reflexivity.
Qed.
Lemma important_unmarked v : ~ In 33%N v -> importance v = (v, false).
Proof. intros V. unfold importance. rewrite split_absent; [reflexivity|]. intros H. apply V. unfold trim_end in H. apply in_rev in H. apply drop_incl in H. apply in_rev in H. exact H. Qed.
