(** Proofs about the removal of attributes by patterns. *)
From Coq Require Import String List NArith Bool Lia.
From Verif Require Import Chars RemoveAttrsModel RemoveAttrsSpec.
Import ListNotations.

Lemma text_reflect : forall a b, reflect (a = b) (text_eqb a b).
Proof. intros a b. destruct (text_eqb a b) eqn:E; constructor; [apply text_eqb_spec; exact E|]. intros H. apply text_eqb_spec in H. congruence. Qed.
(** ** Expressions *)
Lemma nullable_word : forall r, nullable r = true <-> word r [].
Proof.
  intros r. split.
  - induction r as [| |c| |a IHa b IHb|a IHa b IHb|a IHa]; cbn; intros H; try discriminate; try (apply WBlank); try (apply WNone).
    + apply andb_prop in H. destruct H as [H1 H2]. exact (WCat a b [] [] (IHa H1) (IHb H2)).
    + apply orb_prop in H. destruct H as [H|H]; [apply WLeft; exact (IHa H)|apply WRight; exact (IHb H)].
  - intros W. remember [] as t eqn:E. induction W as [|c|c Hc|a b s t W1 I1 W2 I2|a b s W I|a b s W I|a|a s t W1 I1 W2 I2]; cbn; try discriminate; try reflexivity.
    + apply app_eq_nil in E. destruct E as [E1 E2]. rewrite (I1 E1), (I2 E2). reflexivity.
    + rewrite (I E). reflexivity.
    + rewrite (I E), orb_true_r. reflexivity.
Qed.
Lemma star_cons : forall a c t, word (Star a) (c :: t) -> exists s1 s2, t = s1 ++ s2 /\ word a (c :: s1) /\ word (Star a) s2.
Proof.
  intros a c t W. remember (Star a) as r eqn:R. remember (c :: t) as u eqn:U. revert t U. induction W as [|c'|c' Hc|a' b s u W1 I1 W2 I2|a' b s W I|a' b s W I|a'|a' s u W1 I1 W2 I2]; intros t U; try discriminate.
  injection R as ->. destruct s as [|x s].
  - cbn [app] in U. exact (I2 eq_refl t U).
  - cbn [app] in U. injection U as -> <-. exists s, u. repeat split; assumption.
Qed.
Lemma deriv_word : forall r c t, word (deriv c r) t <-> word r (c :: t).
Proof.
  induction r as [| |d| |a IHa b IHb|a IHa b IHb|a IHa]; intros c t; cbn [deriv].
  - split; intros W; inversion W.
  - split; intros W; inversion W.
  - destruct (N.eqb_spec c d) as [->|D]; split; intros W; inversion W; subst; try constructor. congruence.
  - destruct (N.eqb_spec c 10) as [->|D]; split; intros W; inversion W; subst; try constructor; congruence.
  - assert (CAT : word (Cat a b) (c :: t) <-> word (Cat (deriv c a) b) t \/ (nullable a = true /\ word (deriv c b) t)).
    { split.
      - intros W. inversion W as [| | |a' b' s1 s2 W1 W2 Q1 Q2| | | |]; subst. destruct s1 as [|x s1]; cbn [app] in Q2.
        + right. split; [apply nullable_word; exact W1|]. apply IHb. rewrite <- Q2. exact W2.
        + injection Q2 as -> <-. left. constructor; [apply IHa; exact W1|exact W2].
      - intros [W|[Nu W]].
        + inversion W as [| | |a' b' s1 s2 W1 W2 Q1 Q2| | | |]; subst. apply (WCat a b (c :: s1) s2); [apply IHa; exact W1|exact W2].
        + apply (WCat a b [] (c :: t)); [apply nullable_word; exact Nu|apply IHb; exact W]. }
    destruct (nullable a) eqn:Nu; rewrite CAT.
    + split.
      * intros W. inversion W; subst; [left; assumption|right; split; [reflexivity|assumption]].
      * intros [W|[_ W]]; [apply WLeft; exact W|apply WRight; exact W].
    + split; [intros W; left; exact W|intros [W|[F _]]; [exact W|discriminate]].
  - split; intros W; inversion W; subst; (apply WLeft; apply IHa; assumption) || (apply WRight; apply IHb; assumption).
  - split.
    + intros W. inversion W as [| | |a' b' s1 s2 W1 W2 Q1 Q2| | | |]; subst. apply (WMore a (c :: s1) s2); [apply IHa; exact W1|exact W2].
    + intros W. destruct (star_cons a c t W) as [s1 [s2 [-> [W1 W2]]]]. constructor; [apply IHa; exact W1|exact W2].
Qed.
Lemma full_word : forall t r, full r t = true <-> word r t.
Proof. intros t. induction t as [|c t IH]; intros r; cbn [full]; [apply nullable_word|]. rewrite IH. apply deriv_word. Qed.
Lemma leading_full : forall t r, full r t = true -> leading r t = true.
Proof. intros t. induction t as [|c t IH]; intros r H; cbn [full leading] in *; [rewrite H; reflexivity|]. rewrite (IH _ H), orb_true_r. reflexivity. Qed.
Lemma somewhere_here : forall p t, p t = true -> somewhere p t = true.
Proof. intros p [|c t] H; cbn [somewhere]; rewrite H; reflexivity. Qed.
Lemma is_match_word : forall l r t, In r l -> word r t -> is_match l t = true.
Proof.
  intros l r t I W. apply full_word in W. destruct l as [|a l]; [destruct I|]. destruct l as [|b l]; [destruct I as [->|[]]; exact W|]. destruct I as [->|I]; cbn [is_match].
  - rewrite (leading_full _ _ W). reflexivity.
  - set (rest := b :: l) in *. assert (NE : rest <> []) by discriminate. rewrite (app_removelast_last Empty NE) in I. apply in_app_or in I. destruct I as [I|[<-|[]]].
    + assert (X : existsb (fun m => somewhere (leading m) t) (removelast rest) = true) by (apply existsb_exists; exists r; split; [exact I|apply somewhere_here, leading_full; exact W]). rewrite X, orb_true_r. reflexivity.
    + rewrite (somewhere_here _ _ W), orb_true_r. reflexivity.
Qed.
(** ** Splitting *)
Lemma strip_prefix_app : forall p s r, strip_prefix p s = Some r <-> s = p ++ r.
Proof.
  intros p. induction p as [|c p IH]; intros s r; cbn.
  - split; congruence.
  - destruct s as [|d s]; [split; discriminate|]. destruct (N.eqb_spec c d) as [->|D].
    + rewrite IH. split; congruence.
    + split; [discriminate|congruence].
Qed.
Lemma split_none : forall sep t, split_once sep t = None <-> free_of sep t.
Proof.
  intros sep t. induction t as [|c t IH]; cbn [split_once].
  - destruct (strip_prefix sep []) as [r|] eqn:E.
    + split; [discriminate|]. intros F. exfalso. apply strip_prefix_app in E. apply (F [] r). exact E.
    + split; [|reflexivity]. intros _ a b H. destruct a; [|discriminate]. symmetry in H. cbn in H. assert (X : strip_prefix sep [] = Some b) by (apply strip_prefix_app; symmetry; exact H). congruence.
  - destruct (strip_prefix sep (c :: t)) as [r|] eqn:E.
    + split; [discriminate|]. intros F. exfalso. apply strip_prefix_app in E. apply (F [] r). exact E.
    + destruct (split_once sep t) as [[a b]|] eqn:S.
      * split; [discriminate|]. intros F. exfalso. assert (N : free_of sep t) by (intros x y H; apply (F (c :: x) y); cbn; f_equal; exact H). apply IH in N. discriminate.
      * split; [|reflexivity]. intros _ [|x a] b H.
        -- cbn [app] in H. assert (X : strip_prefix sep (c :: t) = Some b) by (apply strip_prefix_app; exact H). congruence.
        -- cbn [app] in H. injection H as <- H. exact (proj1 IH eq_refl a b H).
Qed.
Lemma split_some : forall sep t a b, split_once sep t = Some (a, b) -> t = a ++ sep ++ b /\ forall x y, a ++ sep = x ++ sep ++ y -> y = [].
Proof.
  intros sep t. induction t as [|c t IH]; intros a b; cbn [split_once].
  - destruct (strip_prefix sep []) as [r|] eqn:E; [|discriminate]. intros H. injection H as <- <-. apply strip_prefix_app in E. split; [exact E|]. intros x y Q. cbn [app] in Q. apply (f_equal (@length N)) in Q. rewrite !app_length in Q. destruct y; [reflexivity|cbn in Q; lia].
  - destruct (strip_prefix sep (c :: t)) as [r|] eqn:E.
    + intros H. injection H as <- <-. apply strip_prefix_app in E. split; [exact E|]. intros x y Q. cbn [app] in Q. apply (f_equal (@length N)) in Q. rewrite !app_length in Q. destruct y; [reflexivity|cbn in Q; lia].
    + destruct (split_once sep t) as [[a' b']|] eqn:S; [|discriminate]. intros H. injection H as <- <-. destruct (IH a' b' eq_refl) as [E1 E2]. split; [cbn; f_equal; exact E1|].
      intros [|z x] y Q; cbn [app] in Q.
      * exfalso. assert (X : strip_prefix sep (c :: t) = Some (y ++ b')) by (apply strip_prefix_app; rewrite app_assoc, <- Q, E1; cbn [app]; f_equal; apply app_assoc). congruence.
      * injection Q as <- Q. exact (E2 x y Q).
Qed.
Lemma split_of : forall sep a b, (forall x y, a ++ sep = x ++ sep ++ y -> y = []) -> split_once sep (a ++ sep ++ b) = Some (a, b).
Proof.
  intros sep a. induction a as [|c a IH]; intros b H; cbn [app].
  - assert (E : strip_prefix sep (sep ++ b) = Some b) by (apply strip_prefix_app; reflexivity). destruct (sep ++ b) as [|d l] eqn:Q; cbn [split_once]; rewrite E; reflexivity.
  - cbn [split_once]. destruct (strip_prefix sep (c :: a ++ sep ++ b)) as [r|] eqn:E.
    + exfalso. apply strip_prefix_app in E. assert (K : exists y, c :: a ++ sep = sep ++ y /\ y <> []).
      { assert (L : firstn (length sep) (c :: a ++ sep) = sep).
        { assert (L1 : firstn (length sep) (c :: a ++ sep ++ b) = sep) by (rewrite E, firstn_app, firstn_all, PeanoNat.Nat.sub_diag, firstn_O, app_nil_r; reflexivity).
          assert (L2 : firstn (length sep) (c :: a ++ sep ++ b) = firstn (length sep) (c :: a ++ sep)).
          { change (c :: a ++ sep ++ b) with ((c :: a) ++ sep ++ b). change (c :: a ++ sep) with ((c :: a) ++ sep). rewrite app_assoc. rewrite (firstn_app _ ((c :: a) ++ sep)).
            replace (length sep - length ((c :: a) ++ sep)) with 0 by (rewrite app_length; lia). rewrite firstn_O, app_nil_r. reflexivity. }
          exact (eq_trans (eq_sym L2) L1). }
        exists (skipn (length sep) (c :: a ++ sep)). split; [rewrite <- L at 2; symmetry; apply firstn_skipn|]. intros Z. apply (f_equal (@length N)) in Z. rewrite skipn_length in Z. cbn [length] in Z. rewrite app_length in Z. lia. }
      destruct K as [y [K1 K2]]. apply K2. exact (H [] y K1).
    + rewrite IH; [reflexivity|]. intros x y Q. apply (H (c :: x) y). cbn. f_equal. exact Q.
Qed.
Section Job.
  Variable compile : text -> option (list re).
  Definition reads (p : option text) : option (option (list re)) := match p with None => Some None | Some x => create_regex compile x end.
  Lemma parse_parts : forall sep p e n v, parts sep p (e, n, v) -> parse_pattern compile sep p =
    match reads e, create_regex compile n, reads v with Some a, Some b, Some c => Some (a, b, c) | _, _, _ => None end.
  Proof.
    intros sep p e n v H. inversion H as [n' F|e' n' F G|e' n' v' G1 G2]; subst; unfold parse_pattern; cbn [reads].
    - rewrite (proj2 (split_none sep n) F). destruct (create_regex compile n); reflexivity.
    - rewrite (split_of sep e' n G). rewrite (proj2 (split_none sep n) F). destruct (create_regex compile e'), (create_regex compile n); reflexivity.
    - rewrite (split_of sep e' (n ++ sep ++ v') G1). rewrite (split_of sep n v' G2). reflexivity.
  Qed.
  Lemma parts_exist : forall sep p, exists e n v, parts sep p (e, n, v).
  Proof.
    intros sep p. destruct (split_once sep p) as [[a r]|] eqn:S.
    - destruct (split_some sep p a r S) as [-> G]. destruct (split_once sep r) as [[m z]|] eqn:T.
      + destruct (split_some sep r m z T) as [-> G2]. exists (Some a), m, (Some z). constructor; assumption.
      + exists (Some a), r, None. constructor; [apply split_none; exact T|exact G].
    - exists None, p, None. constructor. apply split_none. exact S.
  Qed.
  Lemma parts_fun : forall sep p x y, parts sep p x -> parts sep p y -> x = y.
  Proof.
    assert (K : forall sep p e n v, parts sep p (e, n, v) -> (e, n, v) = match split_once sep p with
      | Some (f, r) => match split_once sep r with Some (m, l) => (Some f, m, Some l) | None => (Some f, r, None) end
      | None => (None, p, None) end).
    { intros sep p e n v H. inversion H as [n' F|e' n' F G|e' n' v' G1 G2]; subst.
      - rewrite (proj2 (split_none sep n) F). reflexivity.
      - rewrite (split_of sep e' n G), (proj2 (split_none sep n) F). reflexivity.
      - rewrite (split_of sep e' (n ++ sep ++ v') G1), (split_of sep n v' G2). reflexivity. }
    intros sep p [[e n] v] [[e' n'] v'] H1 H2. rewrite (K _ _ _ _ _ H1), (K _ _ _ _ _ H2). reflexivity.
  Qed.
  Lemma create_says : forall p o t, create_regex compile p = Some o -> part_says compile p t -> none_or o t = true.
  Proof.
    intros p o t C S. unfold create_regex in C. destruct (text_reflect p (lit "*")) as [E|E]; cbn [orb] in C; [injection C as <-; reflexivity|]. destruct (text_reflect p (lit ".*")) as [F|F]; [injection C as <-; reflexivity|].
    destruct S as [S|[S|[l [r [S1 [S2 S3]]]]]]; [contradiction|contradiction|]. rewrite S1 in C. injection C as <-. exact (is_match_word l r t S2 S3).
  Qed.
  Lemma create_simple : forall p o t, create_regex compile p = Some o -> simple_part compile p -> none_or o t = true -> part_says compile p t.
  Proof.
    intros p o t C S M. unfold create_regex in C. destruct (text_reflect p (lit "*")) as [E|E]; cbn [orb] in C; [left; exact E|]. destruct (text_reflect p (lit ".*")) as [F|F]; [right; left; exact F|].
    destruct S as [S|[S|[r S]]]; [contradiction|contradiction|]. rewrite S in C. injection C as <-. right. right. exists [r], r. split; [exact S|split; [left; reflexivity|]]. apply full_word. exact M.
  Qed.
  Definition taken (preserve : bool) (name : text) (a : attr) (p : pattern) : bool := none_or (fst (fst p)) name && negb (stays preserve p a).
  Lemma fold_in : forall preserve name ps l a, In a (fold_left (apply_pattern preserve name) ps l) <-> In a l /\ forallb (fun p => negb (taken preserve name a p)) ps = true.
  Proof.
    intros preserve name ps. induction ps as [|p ps IH]; intros l a; cbn [fold_left forallb]; [split; [intros H; split; [exact H|reflexivity]|intros [H _]; exact H]|]. rewrite IH. unfold apply_pattern, taken.
    destruct (none_or (fst (fst p)) name); cbn [andb]; [|reflexivity]. rewrite filter_In, negb_involutive, andb_true_iff. tauto.
  Qed.
  Lemma fold_filter : forall preserve name ps l, fold_left (apply_pattern preserve name) ps l = filter (fun a => forallb (fun p => negb (taken preserve name a p)) ps) l.
  Proof.
    intros preserve name ps. induction ps as [|p ps IH]; intros l; cbn [fold_left forallb].
    - induction l as [|a l IHl]; [reflexivity|]. cbn [filter]. rewrite <- IHl. reflexivity.
    - rewrite IH. unfold apply_pattern, taken at 2. destruct (none_or (fst (fst p)) name); cbn [andb negb]; [|reflexivity]. induction l as [|a l IHl]; [reflexivity|]. cbn [filter]. rewrite negb_involutive. destruct (stays preserve p a); cbn [filter andb]; rewrite IHl; reflexivity.
  Qed.
  Lemma parse_all_in : forall sep ps l, parse_all compile sep ps = Some l -> forall q, In q l <-> exists p, In p ps /\ parse_pattern compile sep p = Some q.
  Proof.
    intros sep ps. induction ps as [|p ps IH]; intros l H q; cbn [parse_all] in H.
    - injection H as <-. split; [intros []|intros [p [[] _]]].
    - destruct (parse_pattern compile sep p) as [x|] eqn:P; [|discriminate]. destruct (parse_all compile sep ps) as [m|] eqn:M; [|discriminate]. injection H as <-. cbn [In]. rewrite (IH m eq_refl q). split.
      + intros [<-|[p' [I E]]]; [exists p; split; [left; reflexivity|exact P]|exists p'; split; [right; exact I|exact E]].
      + intros [p' [[<-|I] E]]; [left; congruence|right; exists p'; split; assumption].
  Qed.
  Lemma kept_spec : forall preserve name ps a, forallb (fun p => negb (taken preserve name a p)) ps = true <-> forall p, In p ps -> taken preserve name a p = false.
  Proof. intros preserve name ps a. rewrite forallb_forall. split; intros H p I; specialize (H p I); [apply negb_true_iff; exact H|apply negb_true_iff; exact H]. Qed.
  (** What the patterns say goes. *)
  Theorem said_goes : forall patterns sep preserve name l l' p a, element compile patterns sep preserve name l = Some l' -> In p patterns -> says compile sep p name a -> ~ protected preserve a -> ~ In a l'.
  Proof.
    intros patterns sep preserve name l l' p a E I [e [n [v [Pt [Se [Sn Sv]]]]]] NP. unfold element in E. destruct (parse_all compile sep patterns) as [ps|] eqn:PA; [|discriminate]. injection E as <-. rewrite fold_in. intros [_ K]. rewrite kept_spec in K.
    assert (X : exists q, parse_pattern compile sep p = Some q).
    { clear - I PA. revert ps PA. induction patterns as [|x patterns IH]; intros ps PA; [destruct I|]. cbn [parse_all] in PA. destruct (parse_pattern compile sep x) as [y|] eqn:Y; [|discriminate]. destruct (parse_all compile sep patterns) as [m|]; [|discriminate].
      destruct I as [->|I]; [exists y; exact Y|exact (IH I m eq_refl)]. }
    destruct X as [q Q]. assert (Iq : In q ps) by (apply (parse_all_in sep patterns ps PA); exists p; split; assumption). specialize (K q Iq). rewrite (parse_parts sep p e n v Pt) in Q.
    destruct (reads e) as [re_|] eqn:Re; [|discriminate]. destruct (create_regex compile n) as [rn|] eqn:Rn; [|discriminate]. destruct (reads v) as [rv|] eqn:Rv; [|discriminate]. injection Q as <-. unfold taken in K. cbn [fst] in K.
    assert (Me : none_or re_ name = true) by (destruct e as [x|]; cbn [reads] in Re; [exact (create_says x re_ name Re Se)|injection Re as <-; reflexivity]).
    assert (Mn : none_or rn (a_name a) = true) by exact (create_says n rn (a_name a) Rn Sn).
    assert (Mv : none_or rv (a_value a) = true) by (destruct v as [x|]; cbn [reads] in Rv; [exact (create_says x rv (a_value a) Rv Sv)|injection Rv as <-; reflexivity]).
    rewrite Me in K. cbn [andb] in K. apply negb_false_iff in K. unfold stays in K. rewrite Mv, Mn in K. cbn [negb] in K. destruct (preserve && match a_kind a with PaintKind => a_current a | _ => false end) eqn:Pr; [|discriminate].
    apply NP. apply andb_prop in Pr. destruct Pr as [-> Pr]. split; [reflexivity|]. destruct (a_kind a); [exact Pr|discriminate|discriminate].
  Qed.
  (** What no pattern says stays, unless there is [|]. *)
  Theorem unsaid_stays : forall patterns sep preserve name l l' a, element compile patterns sep preserve name l = Some l' -> (forall p, In p patterns -> simple compile sep p) -> In a l -> (forall p, In p patterns -> ~ says compile sep p name a) -> In a l'.
  Proof.
    intros patterns sep preserve name l l' a E S Ia U. unfold element in E. destruct (parse_all compile sep patterns) as [ps|] eqn:PA; [|discriminate]. injection E as <-. rewrite fold_in. split; [exact Ia|]. apply kept_spec. intros q Iq.
    apply (parse_all_in sep patterns ps PA) in Iq. destruct Iq as [p [Ip Q]]. destruct (taken preserve name a q) eqn:T; [|reflexivity]. exfalso. apply (U p Ip). destruct (parts_exist sep p) as [e [n [v Pt]]]. exists e, n, v. split; [exact Pt|].
    destruct (S p Ip e n v Pt) as [Se [Sn Sv]]. rewrite (parse_parts sep p e n v Pt) in Q.
    destruct (reads e) as [re_|] eqn:Re; [|discriminate]. destruct (create_regex compile n) as [rn|] eqn:Rn; [|discriminate]. destruct (reads v) as [rv|] eqn:Rv; [|discriminate]. injection Q as <-. unfold taken in T. cbn [fst] in T. apply andb_prop in T. destruct T as [Me T].
    unfold stays in T. destruct (preserve && match a_kind a with PaintKind => a_current a | _ => false end); [discriminate|]. destruct (none_or rv (a_value a)) eqn:Mv; [|discriminate]. cbn [negb] in T. destruct (none_or rn (a_name a)) eqn:Mn; [|discriminate].
    split; [|split].
    - destruct e as [x|]; [exact (create_simple x re_ name Re (Se x eq_refl) Me)|exact Logic.I].
    - exact (create_simple n rn (a_name a) Rn Sn Mn).
    - destruct v as [x|]; [exact (create_simple x rv (a_value a) Rv (Sv x eq_refl) Mv)|exact Logic.I].
  Qed.
  (** Paints of the current colour stay if so asked; attributes keep their order. *)
  Theorem current_stays : forall patterns sep name l l' a, element compile patterns sep true name l = Some l' -> In a l -> a_kind a = PaintKind -> a_current a = true -> In a l'.
  Proof.
    intros patterns sep name l l' a E Ia K C. unfold element in E. destruct (parse_all compile sep patterns) as [ps|]; [|discriminate]. injection E as <-. rewrite fold_in. split; [exact Ia|]. apply kept_spec. intros q _. unfold taken, stays. destruct q as [[x y] z]. rewrite K, C. apply andb_false_r.
  Qed.
  Theorem in_order : forall patterns sep preserve name l l', element compile patterns sep preserve name l = Some l' -> exists f, l' = filter f l.
  Proof. intros patterns sep preserve name l l' E. unfold element in E. destruct (parse_all compile sep patterns) as [ps|]; [|discriminate]. injection E as <-. eexists. apply fold_filter. Qed.
  (** There is an error only for a part that cannot be read. *)
  Theorem error : forall patterns sep preserve name l, element compile patterns sep preserve name l = None <-> exists p e n v x, In p patterns /\ parts sep p (e, n, v) /\ (e = Some x \/ n = x \/ v = Some x) /\ compile x = None /\ x <> lit "*" /\ x <> lit ".*".
  Proof.
    intros patterns sep preserve name l. unfold element.
    assert (C : forall x, create_regex compile x = None <-> compile x = None /\ x <> lit "*" /\ x <> lit ".*").
    { intros x. unfold create_regex. destruct (text_reflect x (lit "*")) as [E|E]; cbn [orb]; [split; [discriminate|intros [_ [H _]]; contradiction]|]. destruct (text_reflect x (lit ".*")) as [F|F]; [split; [discriminate|intros [_ [_ H]]; contradiction]|]. destruct (compile x); [split; [discriminate|intros [H _]; discriminate]|]. split; [intros _; repeat split; assumption|reflexivity]. }
    assert (PN : forall p, parse_pattern compile sep p = None <-> exists e n v x, parts sep p (e, n, v) /\ (e = Some x \/ n = x \/ v = Some x) /\ create_regex compile x = None).
    { intros p. destruct (parts_exist sep p) as [e [n [v Pt]]]. rewrite (parse_parts sep p e n v Pt). split.
      - intros H. exists e, n, v. destruct (reads e) as [a|] eqn:Re.
        + destruct (create_regex compile n) as [b|] eqn:Rn; [|exists n; split; [exact Pt|split; [right; left; reflexivity|exact Rn]]]. destruct v as [x|]; cbn [reads] in H; [|discriminate]. exists x. split; [exact Pt|split; [right; right; reflexivity|]]. destruct (create_regex compile x); [discriminate|reflexivity].
        + destruct e as [x|]; [|discriminate]. exists x. split; [exact Pt|split; [left; reflexivity|exact Re]].
      - intros [e' [n' [v' [x [Pt' [H N]]]]]]. pose proof (parts_fun sep p _ _ Pt Pt') as Q. injection Q as <- <- <-. destruct H as [H|[H|H]]; subst; cbn [reads]; rewrite N; [reflexivity|destruct (reads e); reflexivity|destruct (reads e), (create_regex compile n); reflexivity]. }
    assert (PA : parse_all compile sep patterns = None <-> exists p, In p patterns /\ parse_pattern compile sep p = None).
    { clear. induction patterns as [|p ps IH]; cbn [parse_all]; [split; [discriminate|intros [p [[] _]]]|]. destruct (parse_pattern compile sep p) as [x|] eqn:P.
      - destruct (parse_all compile sep ps) as [m|].
        + split; [discriminate|]. intros [q [[<-|I] Q]]; [congruence|]. assert (X : Some m = None) by (apply IH; exists q; split; assumption). discriminate.
        + split; [|reflexivity]. intros _. destruct (proj1 IH eq_refl) as [q [I Q]]. exists q. split; [right; exact I|exact Q].
      - split; [|reflexivity]. intros _. exists p. split; [left; reflexivity|exact P]. }
    destruct (parse_all compile sep patterns) as [ps|] eqn:E.
    - split; [discriminate|]. intros [p [e [n [v [x [I [Pt [H N]]]]]]]]. assert (X : Some ps = None) by (apply PA; exists p; split; [exact I|]; apply PN; exists e, n, v, x; split; [exact Pt|split; [exact H|apply C; exact N]]). discriminate.
    - split; [|reflexivity]. intros _. destruct (proj1 PA eq_refl) as [p [I Q]]. apply PN in Q. destruct Q as [e [n [v [x [Pt [H N]]]]]]. exists p, e, n, v, x. split; [exact I|split; [exact Pt|split; [exact H|apply C; exact N]]].
  Qed.
End Job.
