From Coq Require Import String List NArith ZArith Bool Lia Arith.
From Verif Require Import Chars NameModel AttrTable ElemModel TextModel ParseModel ListModel ScriptModel PruneModel PruneSpec DeprecatedModel MatcherModel MatcherSpec MatcherProofs MatcherProofs2 MatcherProofs3 MatcherProofs4 MatcherProofs5 BareModel BareSpec.
Import ListNotations.

(** ** Removal at places *)
Lemma strip_kids here names p e a k : strip_node here names p (TElem e a k) = TElem e (if here p then filter (stays names) a else a) (strip_list here names p 0 k).
Proof.
  cbn [strip_node]. f_equal. generalize 0. induction k as [|n k IH]; intros i; [reflexivity|]. cbn [strip_list]. f_equal. apply IH.
Qed.
Lemma strip_nth here names p l : forall i j, nth_error (strip_list here names p i l) j = option_map (strip_node here names ((i + j) :: p)) (nth_error l j).
Proof.
  induction l as [|n l IH]; intros i [|j]; try reflexivity; [cbn; rewrite Nat.add_0_r; reflexivity|]. cbn [strip_list nth_error]. rewrite IH. rewrite Nat.add_succ_r. reflexivity.
Qed.
Lemma strip_length here names p l : forall i, List.length (strip_list here names p i l) = List.length l.
Proof. induction l as [|n l IH]; intros i; [reflexivity|]. cbn. f_equal. apply IH. Qed.
Lemma strip_kids_at here names d p : kids (strip_list here names [] 0 d) p = strip_list here names p 0 (kids d p).
Proof.
  induction p as [|i p IH]; [reflexivity|]. cbn [kids]. rewrite IH, strip_nth. cbn [Nat.add]. destruct (nth_error (kids d p) i) as [[e a k|t|]|]; cbn [option_map]; [rewrite strip_kids; reflexivity|reflexivity..].
Qed.
Lemma strip_look here names d p : look (strip_list here names [] 0 d) p = option_map (strip_node here names p) (look d p).
Proof. destruct p as [|i p]; [reflexivity|]. cbn [look]. rewrite strip_kids_at, strip_nth. reflexivity. Qed.

(** ** Documents that are near one another *)
Section Near.
  Variables (d0 : list tnode) (names : list text).
  Definition same_node (S : place -> bool) (p : place) (n m : tnode) : Prop :=
    match n, m with
    | TElem e a k, TElem f b l => f = e /\ b = (if S p then filter (stays names) a else a) /\ List.length l = List.length k
    | TText t, TText u => u = t | TNote, TNote => True | _, _ => False
    end.
  Definition near (S : place -> bool) (d : list tnode) : Prop :=
    List.length d = List.length d0 /\ forall p, match look d0 p, look d p with Some n, Some m => same_node S p n m | None, None => True | _, _ => False end.
  Lemma near_refl : near (fun _ => false) d0.
  Proof. split; [reflexivity|]. intros p. destruct (look d0 p) as [[e a k|t|]|]; cbn; auto. Qed.
  Lemma near_step S d p : near S d -> S p = false -> near (fun q => place_eqb p q || S q) (strip_at d names p).
  Proof.
    intros [L H] Hp. split; [unfold strip_at; rewrite strip_length; exact L|]. intros q. unfold strip_at. rewrite strip_look. specialize (H q).
    destruct (look d0 q) as [n|], (look d q) as [m|]; cbn [option_map]; try exact H. destruct n as [e a k|t|], m as [f b l|u|]; try exact H; try contradiction.
    destruct H as (-> & -> & Hl). rewrite strip_kids. cbn [same_node]. split; [reflexivity|]. split; [|rewrite strip_length; exact Hl].
    destruct (place_eqb p q) eqn:E; [|reflexivity]. apply place_eqb_iff in E. subst q. rewrite Hp. reflexivity.
  Qed.

  Variables (S : place -> bool) (d : list tnode).
  Hypothesis Hn : near S d.
  Lemma near_length p : List.length (kids d p) = List.length (kids d0 p).
  Proof.
    destruct p as [|i p]; [apply Hn|]. assert (H := proj2 Hn (i :: p)). cbn [look] in H. cbn [kids].
    destruct (nth_error (kids d0 p) i) as [[e a k|t|]|], (nth_error (kids d p) i) as [[f b l|u|]|]; cbn in H; try contradiction; try reflexivity. apply H.
  Qed.
  Lemma near_elem p : is_elem d p = is_elem d0 p.
  Proof.
    assert (H := proj2 Hn p). unfold is_elem. destruct (look d0 p) as [[e a k|t|]|], (look d p) as [[f b l|u|]|]; cbn in H; try contradiction; reflexivity.
  Qed.
  Lemma near_children p : children d p = children d0 p.
  Proof. unfold children. rewrite near_length. apply filter_ext. intros q. apply near_elem. Qed.
  Lemma near_prev p : prev_sibling d p = prev_sibling d0 p.
  Proof. unfold prev_sibling. destruct (parent_element p); [rewrite near_children|]; reflexivity. Qed.
  Lemma near_next p : next_sibling d p = next_sibling d0 p.
  Proof. unfold next_sibling. destruct (parent_element p); [rewrite near_children|]; reflexivity. Qed.
  Lemma siblings_ext f g n : (forall p, f p = g p) -> forall p, siblings f n p = siblings g n p.
  Proof. intros H. induction n as [|n IH]; intros p; [reflexivity|]. cbn. rewrite H. destruct (g p); [rewrite IH|]; reflexivity. Qed.
  Lemma near_prevs p : prevs d p = prevs d0 p.
  Proof. unfold prevs. rewrite near_length. apply siblings_ext, near_prev. Qed.
  Lemma near_nexts p : nexts d p = nexts d0 p.
  Proof. unfold nexts. rewrite near_length. apply siblings_ext, near_next. Qed.
  Lemma near_data p : data d p = match data d0 p with Some (e, a) => Some (e, if S p then filter (stays names) a else a) | None => None end.
  Proof.
    assert (H := proj2 Hn p). unfold data. destruct (look d0 p) as [[e a k|t|]|], (look d p) as [[f b l|u|]|]; cbn in H; try contradiction; try reflexivity.
    destruct H as (-> & -> & _). reflexivity.
  Qed.
  Lemma forallb_nth {A} (f : A -> bool) l : forall m, (forall i, option_map f (nth_error l i) = option_map f (nth_error m i)) -> forallb f l = forallb f m.
  Proof.
    induction l as [|x l IH]; intros [|y m] H; [reflexivity|specialize (H 0); discriminate|specialize (H 0); discriminate|]. cbn.
    assert (H0 := H 0). cbn in H0. injection H0 as ->. f_equal. apply IH. intros i. apply (H (Datatypes.S i)).
  Qed.
  Lemma near_empty p : is_empty d p = is_empty d0 p.
  Proof.
    unfold is_empty. apply forallb_nth. intros i. assert (H := proj2 Hn (i :: p)). cbn [look] in H.
    destruct (nth_error (kids d0 p) i) as [[e a k|t|]|], (nth_error (kids d p) i) as [[f b l|u|]|]; cbn in H; try contradiction; try reflexivity. subst u. reflexivity.
  Qed.
  Lemma near_local n p : has_local_name d n p = has_local_name d0 n p.
  Proof. unfold has_local_name. rewrite near_data. destruct (data d0 p) as [[e a]|]; reflexivity. Qed.
  Lemma near_type p q : is_same_type d p q = is_same_type d0 p q.
  Proof. unfold is_same_type. rewrite !near_data. destruct (data d0 p) as [[e a]|], (data d0 q) as [[f b]|]; reflexivity. Qed.
  Lemma count_ext opaque f g c l : (forall q, f q = g q) -> forall i, count opaque f c l i = count opaque g c l i.
  Proof. intros H. induction l as [|q l IH]; intros i; [reflexivity|]. cbn [count]. rewrite H. destruct (g q); [destruct (match c with Some c => lookup c (opaque q) | None => None end); [reflexivity|apply IH]|apply IH]. Qed.
  Lemma near_index opaque t f p c : nth_child_index d opaque t f p c = nth_child_index d0 opaque t f p c.
  Proof.
    unfold nth_child_index. rewrite near_prevs, near_nexts.
    assert (E : forall q, (if t then is_same_type d p q else true) = (if t then is_same_type d0 p q else true)) by (intros q; destruct t; [apply near_type|reflexivity]).
    rewrite (count_ext opaque _ _ (Some c) (prevs d0 p) E), (count_ext opaque _ _ None (nexts d0 p) E). reflexivity.
  Qed.
  Lemma near_nth opaque t f a b p cs : nth_child d opaque t f a b p cs = nth_child d0 opaque t f a b p cs.
  Proof. unfold nth_child. rewrite near_next, near_prev, near_index. reflexivity. Qed.

  (** *** Attributes that are not removed *)
  Hypothesis U : usual_doc d0.
  Hypothesis UP : usual_prefixes d0.
  Variables (show : attr_id -> text -> option text) (opaque : place -> N) (scope : option N).
  Lemma find_filter {A} (f g : A -> bool) l : (forall x, In x l -> f x = true -> g x = true) -> find f (filter g l) = find f l.
  Proof.
    induction l as [|x l IH]; intros H; [reflexivity|]. cbn. destruct (f x) eqn:E.
    - rewrite (H x (or_introl eq_refl) E). cbn. rewrite E. reflexivity.
    - destruct (g x); cbn; rewrite ?E; apply IH; intros y Hy; apply H; right; exact Hy.
  Qed.
  Lemma stays_local a n t : match a with ABase _ => True | AAliased _ _ => False end -> unprefixed a -> id_local a = n -> ~ In n names -> stays names (a, t) = true.
  Proof.
    intros A P <- N. destruct a as [b|]; [|destruct A]. unfold stays, unprefixed, id_prefix, id_local, id_unaliased, name_text in *. cbn [fst]. rewrite P. apply negb_true_iff.
    destruct (existsb _ _) eqn:E; [|reflexivity]. exfalso. apply existsb_exists in E. destruct E as (x & Hx & E). apply text_eqb_spec in E. subst x. exact (N Hx).
  Qed.
  Definition quiet (s : simple) : Prop := plain d0 show s.
  Lemma data_at p e a : data d0 p = Some (e, a) -> element_at d0 p e a.
  Proof. unfold data. destruct (look d0 p) as [[e' a' k|t|]|] eqn:E; intros H; try discriminate. injection H as -> ->. exists k. apply look_in, E. Qed.
  Lemma in_somewhere p e a x v : element_at d0 p e a -> In (x, v) a -> attr_somewhere d0 x v.
  Proof. intros H I. exists p, e, a. auto. Qed.
  Lemma eval_near s : forall p cs, plain d0 show s -> S p = false \/ ~ mentions names s -> eval d show opaque scope s p cs = eval d0 show opaque scope s p cs.
  Proof.
    induction s as [s N|c IH] using simple_induct; intros p cs P M.
    - destruct s; try (exfalso; eapply N; reflexivity); cbn [eval].
      + reflexivity.
      + rewrite near_local. reflexivity.
      + f_equal. unfold has_id. rewrite near_data. destruct (data d0 p) as [[e a]|] eqn:E; [|reflexivity]. destruct M as [-> |M]; [reflexivity|]. destruct (S p); [|reflexivity].
        assert (H := data_at _ _ _ E). unfold get_known. rewrite find_filter; [reflexivity|]. intros [x v] Hx Hf. apply named_iff in Hf. cbn [fst] in Hf.
        destruct (proj2 U p e a H) as (_ & _ & UA). destruct (UA x v Hx) as (UI & _). apply UI in Hf. destruct Hf as [F1 F2].
        exact (stays_local x _ v (UP x v (in_somewhere _ _ _ _ _ H Hx)) F1 F2 M).
      + f_equal. unfold has_class. rewrite near_data. destruct (data d0 p) as [[e a]|] eqn:E; [|reflexivity]. destruct M as [-> |M]; [reflexivity|]. destruct (S p); [|reflexivity].
        assert (H := data_at _ _ _ E). unfold get_known. rewrite find_filter; [reflexivity|]. intros [x v] Hx Hf. apply named_iff in Hf. cbn [fst] in Hf.
        destruct (proj2 U p e a H) as (_ & _ & UA). destruct (UA x v Hx) as (_ & UI & _). apply UI in Hf. destruct Hf as [F1 F2].
        exact (stays_local x _ v (UP x v (in_somewhere _ _ _ _ _ H Hx)) F1 F2 M).
      + f_equal. unfold attr_matches. rewrite near_data. destruct (data d0 p) as [[e a]|] eqn:E; [|reflexivity]. destruct M as [-> |M]; [reflexivity|]. destruct (S p); [|reflexivity].
        assert (H := data_at _ _ _ E). destruct P as [P _]. rewrite (asked_small _ P). unfold get_local. rewrite find_filter; [reflexivity|]. intros [x v] Hx Hf.
        apply andb_true_iff in Hf. destruct Hf as [F1 F2]. cbn [fst] in F1, F2. apply empty_prefix in F1. apply text_eqb_spec in F2.
        exact (stays_local x _ v (UP x v (in_somewhere _ _ _ _ _ H Hx)) F1 F2 M).
      + reflexivity.
      + rewrite near_empty. reflexivity.
      + apply near_nth.
      + reflexivity.
      + reflexivity.
    - rewrite !eval_all_not. assert (E : eval_all d show opaque scope c p cs = eval_all d0 show opaque scope c p cs); [|rewrite E; reflexivity].
      revert cs. cbn [plain mentions] in P, M. induction IH as [|s c Hs IH IHc]; intros cs; [reflexivity|]. cbn [eval_all]. destruct P as [P1 P2].
      rewrite (Hs p cs P1 (match M with or_introl M => or_introl M | or_intror M => or_intror (fun H => M (or_introl H)) end)). destruct (eval d0 show opaque scope s p cs) as [[|] cs']; [|reflexivity].
      apply IHc; [exact P2|]. destruct M as [M|M]; [left; exact M|right; intros H; apply M; right; exact H].
  Qed.
  Lemma eval_all_near c p : Forall (plain d0 show) c -> (S p = false \/ Forall (fun s => ~ mentions names s) c) -> forall cs, eval_all d show opaque scope c p cs = eval_all d0 show opaque scope c p cs.
  Proof.
    induction c as [|s c IH]; intros P M cs; [reflexivity|]. apply Forall_cons_iff in P. destruct P as [P1 P2]. cbn [eval_all].
    rewrite (eval_near s p cs P1); [|destruct M as [M|M]; [left; exact M|right; exact (Forall_inv M)]]. destruct (eval d0 show opaque scope s p cs) as [[|] cs']; [|reflexivity].
    apply IH; [exact P2|]. destruct M as [M|M]; [left; exact M|right; exact (Forall_inv_tail M)].
  Qed.
  Lemma candidates_near c p : candidates d c p = candidates d0 c p.
  Proof. destruct c; cbn [candidates]; rewrite ?near_prev, ?near_prevs; reflexivity. Qed.
  Lemma eval_rest_near rest : Forall (fun r => Forall (plain d0 show) (snd r)) rest -> Forall (fun r => Forall (fun s => ~ mentions names s) (snd r)) rest ->
    forall p cs, eval_rest d show opaque scope rest p cs = eval_rest d0 show opaque scope rest p cs.
  Proof.
    induction rest as [|[c s] rest IH]; intros P M p cs; [reflexivity|]. apply Forall_cons_iff in P. apply Forall_cons_iff in M. destruct P as [P1 P2], M as [M1 M2]. cbn [snd] in P1, M1.
    cbn [eval_rest]. rewrite candidates_near. revert cs. induction (candidates d0 c p) as [|q l IHl]; intros cs; [reflexivity|].
    rewrite (eval_all_near s q P1 (or_intror M1)). destruct (eval_all d0 show opaque scope s q cs) as [[|] cs']; [|apply IHl].
    rewrite (IH P2 M2). destruct (eval_rest d0 show opaque scope rest q cs') as [[|] cs'']; [reflexivity|apply IHl].
  Qed.
  Lemma eval_list_near sel p : all_plain d0 show sel -> local_only names sel -> S p = false -> forall cs, eval_list d show opaque scope sel p cs = eval_list d0 show opaque scope sel p cs.
  Proof.
    unfold all_plain, local_only, components. induction sel as [|c sel IH]; intros P M Hp cs; [reflexivity|]. cbn [flat_map] in P. apply Forall_app in P. destruct P as [P1 P2].
    apply Forall_app in P1. destruct P1 as [P1 P3]. apply Forall_cons_iff in M. destruct M as [M1 M2]. cbn [eval_list]. unfold eval_complex.
    rewrite (eval_all_near (c_last c) p P1 (or_introl Hp)). destruct (eval_all d0 show opaque scope (c_last c) p cs) as [[|] cs']; [|apply IH; assumption].
    rewrite eval_rest_near; [destruct (eval_rest d0 show opaque scope (c_rest c) p cs') as [[|] cs'']; [reflexivity|apply IH; assumption]| |exact M1].
    apply Forall_forall. intros r Hr. apply Forall_forall. intros s Hs. rewrite Forall_forall in P3. apply P3, in_flat_map. exists r. auto.
  Qed.
End Near.
