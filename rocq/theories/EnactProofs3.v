From Coq Require Import String List NArith ZArith Bool Arith Lia.
From Verif Require Import Chars ActionModel EnactModel EnactSpec EnactProofs EnactProofs2.
Import ListNotations.

Section R.
  Context {num decl path : Type}.
  Notation node := (@node num decl path).
  Notation value := (@value num decl path).
  Implicit Types d : list node.

  (** The elements among the nodes that ids name. *)
  Definition elem_at d (i : nat) : bool := match nth_error d i with Some m => match n_name m with Some _ => true | None => false end | None => false end.
  Lemma elements_picks t d ids : elements t d ids = filter (elem_at d) (picks t ids).
  Proof.
    unfold elements, picks. induction ids as [|id ids IH]; [reflexivity|]. cbn [flat_map]. rewrite filter_app, <- IH. f_equal. unfold element_of, elem_at. destruct (id <? 0)%Z; [reflexivity|].
    destruct (nth_error t (Z.to_nat id)) as [i|]; [|reflexivity]. cbn [filter]. destruct (nth_error d i) as [m|]; [|reflexivity]. destruct (n_name m); reflexivity.
  Qed.

  Lemma insert_length e sel d : List.length (fst (insert_each e sel d)) = List.length d + List.length sel /\ snd (insert_each e sel d) = seq (List.length d) (List.length sel).
  Proof.
    revert d. induction sel as [|i sel IH]; intros d; cbn [insert_each]; [cbn; split; [lia|reflexivity]|].
    specialize (IH (change i (with_kid (List.length d)) d ++ [Node (Some e) [] []])). destruct (insert_each e sel _) as [d' l]. cbn [fst snd] in *. rewrite app_length, change_length in IH. cbn [List.length] in IH.
    destruct IH as [A B]. split; [cbn [List.length]; lia|]. cbn [List.length seq]. f_equal. rewrite B. f_equal. lia.
  Qed.
  (** The new children of a node. *)
  Fixpoint news (start : nat) (sel : list nat) (n : nat) : list nat :=
    match sel with [] => [] | i :: sel => (if n =? i then [start] else []) ++ news (S start) sel n end.
  Lemma insert_nth e sel d n : Forall (fun i => i < List.length d) sel ->
    nth_error (fst (insert_each e sel d)) n =
    match nth_error d n with
    | Some m => Some (Node (n_name m) (n_attrs m) (n_kids m ++ news (List.length d) sel n))
    | None => if (List.length d <=? n) && (n <? List.length d + List.length sel) then Some (Node (Some e) [] []) else None
    end.
  Proof.
    revert d. induction sel as [|i sel IH]; intros d F; cbn [insert_each].
    - cbn [fst news List.length]. destruct (nth_error d n) as [[a b c]|] eqn:E; [rewrite app_nil_r; reflexivity|]. destruct (List.length d <=? n) eqn:A; [|reflexivity]. apply Nat.leb_le in A. rewrite (proj2 (Nat.ltb_ge n (List.length d + 0))) by lia. reflexivity.
    - inversion F as [|? ? I F']; subst. set (d1 := change i (with_kid (List.length d)) d ++ [Node (Some e) [] []]).
      assert (L1 : List.length d1 = S (List.length d)) by (unfold d1; rewrite app_length, change_length; cbn [List.length]; lia).
      assert (F1 : Forall (fun i => i < List.length d1) sel) by (eapply Forall_impl; [|exact F']; intros a A; cbn beta in *; lia).
      specialize (IH d1 F1). destruct (insert_each e sel d1) as [d' l]. cbn [fst] in *. rewrite IH. rewrite L1. cbn [news List.length].
      unfold d1. destruct (Nat.lt_ge_cases n (List.length d)) as [N|N].
      + rewrite nth_error_app1 by (rewrite change_length; exact N). rewrite change_nth. destruct (nth_error d n) as [m|] eqn:E; [|apply nth_error_None in E; lia].
        destruct (n =? i); cbn [option_map with_kid n_name n_attrs n_kids app]; [rewrite <- app_assoc|]; reflexivity.
      + rewrite (proj2 (nth_error_None d n) N). rewrite nth_error_app2 by (rewrite change_length; exact N). rewrite change_length. destruct (n - List.length d) as [|k] eqn:K.
        * assert (n = List.length d) as -> by lia. cbn [nth_error]. cbn [n_name n_attrs n_kids app].
          assert (X : forall s L, Forall (fun i => i < List.length d) L -> news s L (List.length d) = []) by (intros s L; revert s; induction L as [|j L IHL]; intros s FL; [reflexivity|]; inversion FL; subst; cbn [news]; rewrite (proj2 (Nat.eqb_neq (List.length d) j)) by lia; apply IHL; assumption).
          rewrite (X _ _ F'). rewrite Nat.leb_refl, (proj2 (Nat.ltb_lt (List.length d) (List.length d + S (List.length sel)))) by lia. reflexivity.
        * cbn [nth_error]. destruct k; cbn [nth_error].
          all: rewrite (proj2 (Nat.leb_le (List.length d) n) N), (proj2 (Nat.leb_le (S (List.length d)) n)) by lia; cbn [andb]; replace (S (List.length d) + List.length sel) with (List.length d + S (List.length sel)) by lia; reflexivity.
  Qed.
  Lemma news_none s sel n : ~ In n sel -> news s sel n = [].
  Proof. revert s. induction sel as [|i sel IH]; intros s H; [reflexivity|]. cbn [news]. rewrite (proj2 (Nat.eqb_neq n i)); [apply IH; intros X; apply H; right; exact X|]. intros ->. apply H. left. reflexivity. Qed.
  Lemma news_one s sel n : count_occ Nat.eq_dec sel n = 1 -> exists k, news s sel n = [k] /\ s <= k < s + List.length sel.
  Proof.
    revert s. induction sel as [|i sel IH]; intros s H; [discriminate|]. cbn [news List.length]. cbn [count_occ] in H. destruct (Nat.eq_dec i n) as [-> | E].
    - injection H as H. rewrite Nat.eqb_refl, (news_none (S s) sel n) by (apply (count_occ_not_In Nat.eq_dec); exact H). exists s. split; [reflexivity|lia].
    - rewrite (proj2 (Nat.eqb_neq n i)) by congruence. destruct (IH (S s) H) as (k & K & B). exists k. split; [exact K|lia].
  Qed.
  Lemma count_filter p l n : p n = true -> count_occ Nat.eq_dec (filter p l) n = count_occ Nat.eq_dec l n.
  Proof. intros P. induction l as [|x l IH]; [reflexivity|]. cbn [filter count_occ]. destruct (Nat.eq_dec x n) as [-> | E]; [rewrite P; cbn [count_occ]; destruct (Nat.eq_dec n n) as [_|X]; [f_equal; exact IH|destruct (X eq_refl)]|]. destruct (p x); [cbn [count_occ]; destruct (Nat.eq_dec x n) as [X|_]; [contradiction|]|]; exact IH. Qed.
  Lemma elements_ok t d ids : Forall (fun i => i < List.length d) (elements t d ids).
  Proof. rewrite elements_picks. apply Forall_forall. intros i I. apply filter_In in I. destruct I as [_ I]. unfold elem_at in I. apply nth_error_Some. destruct (nth_error d i); [discriminate|discriminate I]. Qed.
  Lemma elem_true d n (m : node) : nth_error d n = Some m -> is_element m -> elem_at d n = true.
  Proof. intros M E. unfold elem_at, is_element in *. rewrite M. destruct (n_name m); [reflexivity|destruct (E eq_refl)]. Qed.

  Lemma insert_spec known t q ids d d' l : insert known t q ids d = (d', l) ->
    NoDup l /\ (forall k, In k l -> List.length d <= k < List.length d') /\ List.length d' = List.length d + List.length l /\
    (forall k, In k l -> nth_error d' k = Some (Node (Some (element_id known q)) [] [])) /\
    (forall n m, nth_error d n = Some m -> ~ (named t ids n /\ is_element m) -> nth_error d' n = Some m) /\
    (forall n m, nth_error d n = Some m -> is_element m -> named_once t ids n -> exists k, In k l /\ nth_error d' n = Some (Node (n_name m) (n_attrs m) (n_kids m ++ [k]))).
  Proof.
    unfold insert. intros H. pose proof (insert_length (element_id known q) (elements t d ids) d) as [A B]. rewrite H in A, B. cbn [fst snd] in A, B. subst l. rewrite seq_length.
    pose proof (fun n => insert_nth (element_id known q) (elements t d ids) d n (elements_ok t d ids)) as N. rewrite H in N. cbn [fst] in N.
    split; [apply seq_NoDup|]. split; [intros k K; apply in_seq in K; lia|]. split; [exact A|]. split; [|split].
    - intros k K. apply in_seq in K. rewrite N, (proj2 (nth_error_None d k)) by lia. rewrite (proj2 (Nat.leb_le _ _)), (proj2 (Nat.ltb_lt _ _)) by lia. reflexivity.
    - intros n m M X. rewrite N, M, news_none; [rewrite app_nil_r; destruct m; reflexivity|]. intros I. apply X. rewrite elements_picks in I. apply filter_In in I. destruct I as [I1 I2]. split; [apply picks_named; exact I1|].
      unfold elem_at in I2. rewrite M in I2. unfold is_element. intros Z. rewrite Z in I2. discriminate.
    - intros n m M E O. rewrite N, M. destruct (news_one (List.length d) (elements t d ids) n) as (k & -> & K).
      + rewrite elements_picks, count_filter; [apply once_count; exact O|]. exact (elem_true d n m M E).
      + exists k. split; [apply in_seq; exact K|reflexivity].
  Qed.
  Lemma split_colon p l : ~ In 58%N p -> split_once [58%N] (p ++ 58%N :: l) = Some (p, l).
  Proof.
    intros H. induction p as [|c p IH]; [reflexivity|]. cbn [app]. rewrite split_cons. assert (C : c <> 58%N) by (intros ->; apply H; left; reflexivity).
    unfold starts_with. cbn [strip_prefix]. rewrite (proj2 (N.eqb_neq 58 c) (fun X => C (eq_sym X))), IH; [reflexivity|]. intros X. apply H. right. exact X.
  Qed.
  Lemma split_no_colon l : ~ In 58%N l -> split_once [58%N] l = None.
  Proof.
    intros H. induction l as [|c p IH]; [reflexivity|]. rewrite split_cons. assert (C : c <> 58%N) by (intros ->; apply H; left; reflexivity).
    unfold starts_with. cbn [strip_prefix]. rewrite (proj2 (N.eqb_neq 58 c) (fun X => C (eq_sym X))), IH; [reflexivity|]. intros X. apply H. right. exact X.
  Qed.
  Lemma id_spec known p l : ~ In 58%N p -> element_id known (p ++ 58%N :: l) = EName (Some p) l (known l).
  Proof. intros H. unfold element_id. rewrite (split_colon p l H). reflexivity. Qed.
  Lemma id_plain known l : ~ In 58%N l -> element_id known l = EName None l (known l).
  Proof. intros H. unfold element_id. rewrite (split_no_colon l H). reflexivity. Qed.

  (** Paths. *)
  Definition is_leaf d i : bool := match path_of d i with Some _ => true | None => false end.
  Lemma leaf_of d n p : well d -> (path_of d n = Some p <-> leaf_path d n p).
  Proof.
    intros W. unfold path_of, leaf_path. split.
    - destruct (nth_error d n) as [[[[[pr|] lo []]|] at_ [|k ks]]|] eqn:E; try discriminate. destruct (text_eqb lo (lit "path")) eqn:T; [|discriminate]. apply eqb_same in T. subst lo.
      destruct (find_attr (lit "d") at_) as [v|] eqn:F; [|discriminate]. destruct v; try discriminate. intros H. injection H as ->.
      eexists. split; [reflexivity|]. split; [reflexivity|]. split; [reflexivity|]. cbn [n_attrs]. apply (find_in _ _ _ (proj1 (well_node d n _ W E))) in F. exact F.
    - intros (m & M & N & K & D). rewrite M. destruct m as [na at_ ki]. cbn [n_name n_kids n_attrs] in *. subst na ki. rewrite (proj2 (eqb_same _ _) eq_refl). apply (find_in _ _ _ (proj1 (well_node d n _ W M))) in D. cbn [n_attrs] in D. rewrite D. reflexivity.
  Qed.
  Lemma detach_nth i d n : nth_error (detach i d) n = option_map (fun m => Node (n_name m) (n_attrs m) (filter (fun k => negb (k =? i)) (n_kids m))) (nth_error d n).
  Proof. apply nth_error_map. Qed.
  Lemma detach_path i d n p : path_of d n = Some p -> path_of (detach i d) n = Some p.
  Proof.
    unfold path_of. rewrite detach_nth. destruct (nth_error d n) as [[[[[pr|] lo []]|] at_ [|k ks]]|] eqn:E; try discriminate. cbn [option_map n_name n_attrs n_kids filter]. auto.
  Qed.
  Lemma selects_paths t d ids l : well d -> selects t d ids l -> filter (is_leaf d) (elements t d ids) = map fst l /\ Forall (fun x => path_of d (fst x) = Some (snd x)) l.
  Proof.
    intros W S. rewrite elements_picks. induction S as [|id ids l H S [A B]|id ids l n p N P S [A B]].
    - split; [reflexivity|constructor].
    - change (id :: ids) with ([id] ++ ids). rewrite picks_app, !filter_app, A. split; [|exact B].
      assert (X : filter (is_leaf d) (filter (elem_at d) (picks t [id])) = []); [|rewrite X; reflexivity].
      destruct (filter (is_leaf d) (filter (elem_at d) (picks t [id]))) as [|x xs] eqn:E; [reflexivity|]. exfalso. assert (I : In x (filter (is_leaf d) (filter (elem_at d) (picks t [id])))) by (rewrite E; left; reflexivity).
      apply filter_In in I. destruct I as [I L]. apply filter_In in I. destruct I as [I _]. apply picks_one in I. unfold is_leaf in L. destruct (path_of d x) as [q|] eqn:Q; [|discriminate]. apply (leaf_of d x q W) in Q. exact (H x q I Q).
    - change (id :: ids) with ([id] ++ ids). rewrite picks_app, !filter_app, A, (picks_single _ _ _ N). split.
      + destruct P as (m & M & NM & K & D). cbn [filter]. rewrite (elem_true d n m M) by (unfold is_element; rewrite NM; discriminate). cbn [filter].
        assert (P : path_of d n = Some p) by (apply (leaf_of d n p W); exists m; auto). unfold is_leaf at 1. rewrite P. reflexivity.
      + constructor; [apply (leaf_of d n p W); exact P|exact B].
  Qed.

  Variables (from_svg to_svg : path -> path) (combine : overlay -> path * bool -> path * bool -> path) (evenodd : list node -> nat -> bool).
  Hypothesis stable : forall d k i, evenodd (detach k d) i = evenodd d i.
  (** Removing nodes one after the other. *)
  Definition without (ks : list nat) d : list node := fold_left (fun d k => detach k d) ks d.
  Lemma without_nth ks d n : nth_error (without ks d) n = option_map (fun m => Node (n_name m) (n_attrs m) (filter (fun k => negb (existsb (Nat.eqb k) ks)) (n_kids m))) (nth_error d n).
  Proof.
    unfold without. revert d. induction ks as [|i ks IH]; intros d; cbn [fold_left].
    - destruct (nth_error d n) as [[a b c]|]; [|reflexivity]. cbn [option_map n_name n_attrs n_kids existsb negb]. f_equal. f_equal. induction c as [|x c IHc]; [reflexivity|]. cbn [filter]. f_equal. exact IHc.
    - rewrite IH, detach_nth. destruct (nth_error d n) as [[a b c]|]; [|reflexivity]. cbn [option_map n_name n_attrs n_kids]. f_equal. f_equal. induction c as [|x c IHc]; [reflexivity|]. cbn [filter existsb]. destruct (x =? i); cbn [negb orb filter]; [exact IHc|]. rewrite IHc. reflexivity.
  Qed.
  Definition given d (x : nat * path) : path * bool := (from_svg (snd x), evenodd d (fst x)).
  Lemma merge_spec o l c k d : Forall (fun x => path_of d (fst x) = Some (snd x)) l ->
    merge from_svg combine evenodd o (map fst l) (Some c) (Some k) d = Some (Some (merged (combine o) c (map (given d) l)), Some (last (map fst l) k), without (removelast (k :: map fst l)) d).
  Proof.
    revert c k d. induction l as [|[n p] l IH]; intros c k d F; [reflexivity|]. inversion F as [|? ? P F']; subst. cbn [fst snd] in P. cbn [map fst merge]. rewrite P.
    assert (F1 : Forall (fun x => path_of (detach k d) (fst x) = Some (snd x)) l) by (eapply Forall_impl; [|exact F']; intros x X; apply detach_path; exact X).
    rewrite (IH _ _ _ F1). cbn [merged].
    assert (G : map (given (detach k d)) l = map (given d) l) by (apply map_ext; intros x; unfold given; rewrite stable; reflexivity).
    assert (L : forall (L : list nat) a b c, last (a :: L) b = last (a :: L) c) by (clear; induction L as [|z L IHL]; intros a b c; [reflexivity|]; change (last (z :: L) b = last (z :: L) c); apply IHL).
    assert (L' : last (map fst l) n = last (n :: map fst l) k) by (destruct (map fst l) as [|z L1]; [reflexivity|]; change (last (z :: L1) n = last (z :: L1) k); apply L).
    rewrite G, L'. reflexivity.
  Qed.
  Lemma boolean_spec t o ids d n p l : well d -> selects t d ids ((n, p) :: l) ->
    boolean_op from_svg to_svg combine evenodd t o ids d =
      Some (change (last (map fst l) n) (with_attrs (fun a => set_attr (lit "fill-rule") (Rule true) (set_attr (lit "d") (Data (to_svg (fst (merged (combine o) (given d (n, p)) (map (given d) l))))) a)))
              (without (removelast (n :: map fst l)) d), Some (last (map fst l) n)).
  Proof.
    intros W S. destruct (selects_paths t d ids _ W S) as [A B]. unfold boolean_op. change (fun i => match path_of d i with Some _ => true | None => false end) with (is_leaf d). rewrite A. cbn [map fst merge].
    inversion B as [|? ? P B']; subst. cbn [fst snd] in P. rewrite P, (merge_spec o l _ n d B'). reflexivity.
  Qed.
  Lemma boolean_none t o ids d : well d -> selects t d ids [] -> boolean_op from_svg to_svg combine evenodd t o ids d = Some (d, None).
  Proof. intros W S. destruct (selects_paths t d ids _ W S) as [A _]. unfold boolean_op. change (fun i => match path_of d i with Some _ => true | None => false end) with (is_leaf d). rewrite A. reflexivity. Qed.
  Lemma split_last (l : list nat) n : n :: l = removelast (n :: l) ++ [last l n].
  Proof. rewrite (app_removelast_last n (l := n :: l)) at 1 by discriminate. f_equal. f_equal. destruct l; reflexivity. Qed.
  Lemma boolean_result t o ids d n p l ks k : well d -> selects t d ids ((n, p) :: l) -> n :: map fst l = ks ++ [k] ->
    exists d', boolean_op from_svg to_svg combine evenodd t o ids d = Some (d', Some k) /\ List.length d' = List.length d /\
      forall i m, nth_error d i = Some m -> exists m', nth_error d' i = Some m' /\ n_name m' = n_name m /\
        n_kids m' = apart_from ks (n_kids m) /\ NoDup (map fst (n_attrs m')) /\
        (i <> k -> n_attrs m' = n_attrs m) /\
        (i = k -> In (lit "d", Data (to_svg (fst (merged (combine o) (given d (n, p)) (map (given d) l))))) (n_attrs m') /\ In (lit "fill-rule", Rule true) (n_attrs m') /\
           forall x v, x <> lit "d" -> x <> lit "fill-rule" -> (In (x, v) (n_attrs m') <-> In (x, v) (n_attrs m))).
  Proof.
    intros W S E. rewrite (boolean_spec t o ids d n p l W S). rewrite (split_last (map fst l) n) in E. apply app_inj_tail in E. destruct E as [-> ->]. eexists. split; [reflexivity|]. split.
    - rewrite change_length. unfold without. generalize ks as K. intros K. revert d W S. induction K as [|a K IH]; intros d W S; [reflexivity|]. cbn [fold_left].
      assert (X : forall K (d : list node), List.length (fold_left (fun d k => detach k d) K d) = List.length d) by (clear; intros K; induction K as [|b K IH]; intros d; [reflexivity|]; cbn [fold_left]; rewrite IH; apply map_length). rewrite X. apply map_length.
    - intros i m M. rewrite change_nth, without_nth, M. cbn [option_map]. 
      assert (ND := proj1 (proj1 (Forall_forall _ _) W m (nth_error_In _ _ M))). cbn beta in ND.
      assert (KK : filter (fun k0 => negb (existsb (Nat.eqb k0) ks)) (n_kids m) = apart_from ks (n_kids m)).
      { apply filter_ext. intros j. assert (Y : existsb (Nat.eqb j) ks = false <-> ~ In j ks); [|destruct (in_dec Nat.eq_dec j ks) as [Z|Z]; [destruct (existsb (Nat.eqb j) ks) eqn:Q; [reflexivity|destruct (proj1 Y eq_refl Z)]|rewrite (proj2 Y Z); reflexivity]]. rewrite <- not_true_iff_false, existsb_exists. split; intros Y Z; apply Y; [exists j; split; [exact Z|apply Nat.eqb_refl]|]. destruct Z as (z & Z & Q). apply Nat.eqb_eq in Q. subst z. exact Z. }
      destruct (i =? k) eqn:IK; eexists; (split; [reflexivity|]); cbn [with_attrs n_name n_kids n_attrs]; (split; [reflexivity|]); (split; [exact KK|]).
      + apply Nat.eqb_eq in IK. split; [apply set_nodup, set_nodup, ND|]. split; [intros X; contradiction|]. intros _. split; [|split].
        * apply set_other; [discriminate|]. apply set_in.
        * apply set_in.
        * intros x v X Y. rewrite set_other by exact Y. apply set_other. exact X.
      + apply Nat.eqb_neq in IK. split; [exact ND|]. split; [reflexivity|intros X; contradiction].
  Qed.
End R.
