(** Proofs about attribute edits and class lists. *)
From Coq Require Import String List NArith Bool Arith Lia Permutation.
From Verif Require Import Chars NameModel AttrTable AttrModel AttrSpec AttrProofs.
Import ListNotations.

Lemma same_name_spec i j : prefix_ok (id_prefix i) ->
  (same_name i j = true <-> prefix_ns (id_prefix i) = prefix_ns (id_prefix j) /\ id_local i = id_local j).
Proof.
  intros OK. unfold same_name. rewrite andb_true_iff, prefix_eqb_spec, text_eqb_spec by auto. tauto.
Qed.

Lemma same_name_false i j : prefix_ok (id_prefix i) ->
  (same_name i j = false <-> ~ (prefix_ns (id_prefix i) = prefix_ns (id_prefix j) /\ id_local i = id_local j)).
Proof.
  intros OK. rewrite <- same_name_spec by auto. destruct (same_name i j); split; congruence || (intros H; exfalso; auto).
Qed.

Lemma set_match a x : alias_ok a -> alias_ok x ->
  prefix_eqb (attr_prefix a) (attr_prefix x) && text_eqb (attr_local a) (attr_local x) =
  same_name (attr_name a) (attr_name x).
Proof.
  intros (A1 & A2 & A3) (X1 & X2 & X3). unfold same_name, attr_local. f_equal.
  apply eq_iff_eq_true. rewrite !prefix_eqb_spec in * by auto. split; congruence.
Qed.

Section World.
  Context (W : list attr_id) (C : coherent W).

  Definition lives (l : list attr) : Prop :=
    Forall alias_ok l /\ Forall (fun a => In (attr_name a) W) l /\ distinct_names l.

  Lemma okW i : In i W -> prefix_ok (id_prefix i).
  Proof. destruct C as [F _]. rewrite Forall_forall in F. auto. Qed.

  Lemma sameW i j : In i W -> In j W -> id_eqb i j = same_name i j.
  Proof. destruct C as [_ F]. auto. Qed.

  Lemma same_sym i j : In i W -> In j W -> same_name i j = same_name j i.
  Proof.
    intros Hi Hj. apply eq_iff_eq_true. rewrite !same_name_spec by (apply okW; auto).
    split; intros [? ?]; split; congruence.
  Qed.

  Lemma same_trans i j k : In i W -> In j W -> same_name i j = true -> same_name i k = same_name j k.
  Proof.
    intros Hi Hj. rewrite same_name_spec by (apply okW; auto). intros [E1 E2].
    apply eq_iff_eq_true. rewrite !same_name_spec by (apply okW; auto). rewrite E1, E2. tauto.
  Qed.

  Lemma same_refl i : In i W -> same_name i i = true.
  Proof. intros. apply same_name_spec; auto. apply okW; auto. Qed.

  (** Replacing in place or appending. *)
  Lemma set_cases l x : Forall alias_ok l -> alias_ok x ->
    (exists pre old post, l = pre ++ old :: post /\ same_name (attr_name old) (attr_name x) = true /\
       (forall b, In b pre -> same_name (attr_name b) (attr_name x) = false) /\
       set_named_item l x = (pre ++ x :: post, Some old)) \/
    ((forall b, In b l -> same_name (attr_name b) (attr_name x) = false) /\
     set_named_item l x = (l ++ [x], None)).
  Proof.
    intros F X. induction F as [|a l Ha F IH]; simpl.
    - right. split; [intros b []|reflexivity].
    - rewrite set_match by auto. destruct (same_name (attr_name a) (attr_name x)) eqn:E.
      + left. exists [], a, l. split; auto. split; auto. split; [intros b []|reflexivity].
      + destruct IH as [(pre & old & post & -> & H1 & H2 & H3)|[H1 H2]].
        * left. exists (a :: pre), old, post. split; auto. split; auto. rewrite H3. split; [|reflexivity].
          intros b [<-|Hb]; auto.
        * right. rewrite H2. split; [|reflexivity]. intros b [<-|Hb]; auto.
  Qed.

  Lemma remove_cases l i : Forall (fun a => In (attr_name a) W) l -> In i W ->
    (exists pre old post, l = pre ++ old :: post /\ same_name (attr_name old) i = true /\
       (forall b, In b pre -> same_name (attr_name b) i = false) /\
       remove_named_item l i = (pre ++ post, Some old)) \/
    ((forall b, In b l -> same_name (attr_name b) i = false) /\
     remove_named_item l i = (l, None)).
  Proof.
    intros F Hi. induction F as [|a l Ha F IH]; simpl.
    - right. split; [intros b []|reflexivity].
    - rewrite sameW by auto. destruct (same_name (attr_name a) i) eqn:E.
      + left. exists [], a, l. split; auto. split; auto. split; [intros b []|reflexivity].
      + destruct IH as [(pre & old & post & -> & H1 & H2 & H3)|[H1 H2]].
        * left. exists (a :: pre), old, post. split; auto. split; auto. rewrite H3. split; [|reflexivity].
          intros b [<-|Hb]; auto.
        * right. rewrite H2. split; [|reflexivity]. intros b [<-|Hb]; auto.
  Qed.

  Lemma get_app l1 l2 i : get_named_item (l1 ++ l2) i =
    match get_named_item l1 i with Some a => Some a | None => get_named_item l2 i end.
  Proof.
    unfold get_named_item. induction l1 as [|a l1 IH]; simpl; auto. destruct (id_eqb (attr_name a) i); auto.
  Qed.

  Lemma get_none l i : (forall b, In b l -> In (attr_name b) W) -> In i W ->
    (forall b, In b l -> same_name (attr_name b) i = false) -> get_named_item l i = None.
  Proof.
    intros F Hi H. unfold get_named_item. induction l as [|a l IH]; simpl; auto.
    rewrite sameW by (simpl in *; auto). rewrite (H a) by (simpl; auto). apply IH; intros; simpl in *; auto.
  Qed.

  Lemma distinct_app l1 l2 : distinct_names (l1 ++ l2) <->
    distinct_names l1 /\ distinct_names l2 /\
    (forall a b, In a l1 -> In b l2 -> same_name (attr_name a) (attr_name b) = false).
  Proof.
    induction l1 as [|x l1 IH]; simpl.
    - split; [intros H; repeat split; auto; intros a b []|tauto].
    - rewrite IH. split.
      + intros (H & D1 & D2 & X). repeat split; auto.
        * intros b Hb. apply H, in_or_app; auto.
        * intros a b [<-|Ha] Hb; auto. apply H, in_or_app; auto.
      + intros ((H & D1) & D2 & X). repeat split; auto.
        intros b Hb. apply in_app_or in Hb as [Hb|Hb]; auto.
  Qed.

  Lemma lives_step l e : lives l -> Forall (fun i => In i W) (edit_names e) -> Forall alias_ok (edit_attrs e) ->
    lives (apply_edit l e).
  Proof.
    intros (A & N & D) He Ha. destruct e as [x|i|f]; simpl in *.
    - inversion He as [|? ? Hx _]; subst. inversion Ha as [|? ? Ax _]; subst.
      destruct (set_cases l x A Ax) as [(pre & old & post & -> & H1 & H2 & ->)|[H1 ->]]; simpl.
      + apply Forall_app in A as [A1 A2], N as [N1 N2]. inversion A2; inversion N2; subst.
        split; [apply Forall_app; auto|]. split; [apply Forall_app; auto|].
        apply distinct_app in D as (D1 & [D2 D3] & D4). apply distinct_app. split; auto.
        rewrite Forall_forall in *. simpl. split; [split; auto|].
        * intros b Hb. rewrite <- (same_trans (attr_name old) (attr_name x)); auto.
        * intros a b Hp [<-|Hb]; auto. apply D4; simpl; auto.
      + split; [apply Forall_app; auto|]. split; [apply Forall_app; auto|].
        apply distinct_app. split; auto. split; [simpl; split; [intros b []|auto]|]. intros a b Hp [<-|[]]; auto.
    - inversion He as [|? ? Hx _]; subst.
      destruct (remove_cases l i N Hx) as [(pre & old & post & -> & H1 & H2 & ->)|[H1 ->]]; simpl; [|split; auto].
      apply Forall_app in A as [A1 A2], N as [N1 N2]. inversion A2; inversion N2; subst.
      split; [apply Forall_app; auto|]. split; [apply Forall_app; auto|].
      apply distinct_app in D as (D1 & [D2 D3] & D4). apply distinct_app. split; auto. split; auto.
      intros a b Hp Hb. apply D4; simpl; auto.
    - unfold retain. split; [|split].
      + apply Forall_forall. intros a Hi. apply filter_In in Hi as [Hi _]. rewrite Forall_forall in A; auto.
      + apply Forall_forall. intros a Hi. apply filter_In in Hi as [Hi _]. rewrite Forall_forall in N; auto.
      + clear -D. induction l as [|a l IH]; simpl in *; auto. destruct D as [D1 D2].
        destruct (f a); simpl; auto. split; auto. intros b Hb. apply filter_In in Hb as [Hb _]; auto.
  Qed.

  Lemma get_step l e i : lives l -> In i W -> Forall (fun i => In i W) (edit_names e) ->
    Forall alias_ok (edit_attrs e) ->
    get_named_item (apply_edit l e) i = expect i (get_named_item l i) e.
  Proof.
    intros (A & N & D) Hi He Ha. assert (N' := N). rewrite Forall_forall in N'. destruct e as [x|j|f]; simpl in *.
    - inversion He as [|? ? Hx _]; subst. inversion Ha as [|? ? Ax _]; subst.
      destruct (set_cases l x A Ax) as [(pre & old & post & -> & H1 & H2 & ->)|[H1 ->]]; simpl.
      + assert (Ho : In (attr_name old) W) by (apply N', in_or_app; simpl; auto).
        rewrite !get_app. unfold get_named_item at 2 4. cbn [find].
        rewrite (sameW (attr_name x)), (sameW (attr_name old)) by auto.
        rewrite (same_trans (attr_name old) (attr_name x) i) by auto.
        destruct (same_name (attr_name x) i) eqn:E; [|destruct (get_named_item pre i); auto].
        rewrite get_none; auto.
        * intros b Hb. apply N', in_or_app; auto.
        * intros b Hb. assert (In (attr_name b) W) by (apply N', in_or_app; auto).
          rewrite (same_sym (attr_name b) i) by auto. rewrite <- (same_trans (attr_name x) i) by auto.
          rewrite same_sym by auto. auto.
      + rewrite get_app. unfold get_named_item at 2. cbn [find]. rewrite sameW by auto.
        destruct (same_name (attr_name x) i) eqn:E; [|destruct (get_named_item l i); auto].
        rewrite get_none; auto. intros b Hb.
        rewrite (same_sym (attr_name b) i) by auto. rewrite <- (same_trans (attr_name x) i) by auto.
        rewrite same_sym by auto. auto.
    - inversion He as [|? ? Hx _]; subst.
      destruct (remove_cases l j N Hx) as [(pre & old & post & -> & H1 & H2 & ->)|[H1 ->]]; simpl.
      + assert (Ho : In (attr_name old) W) by (apply N', in_or_app; simpl; auto).
        apply distinct_app in D as (D1 & [D2 D3] & D4).
        rewrite !get_app. unfold get_named_item at 4. cbn [find].
        rewrite (sameW (attr_name old)) by auto. rewrite (same_trans (attr_name old) j i) by auto.
        destruct (same_name j i) eqn:E; [|destruct (get_named_item pre i); auto].
        assert (G1 : get_named_item pre i = None).
        { apply get_none; auto; [intros b Hb; apply N', in_or_app; auto|]. intros b Hb.
          assert (In (attr_name b) W) by (apply N', in_or_app; auto).
          rewrite (same_sym (attr_name b) i) by auto. rewrite <- (same_trans j i) by auto.
          rewrite same_sym by auto. auto. }
        rewrite G1. apply get_none; auto; [intros b Hb; apply N', in_or_app; simpl; auto|]. intros b Hb.
        assert (In (attr_name b) W) by (apply N', in_or_app; simpl; auto).
        rewrite (same_sym (attr_name b) i) by auto. rewrite <- (same_trans j i) by auto.
        rewrite <- (same_trans (attr_name old) j) by auto. apply D2; auto.
      + destruct (same_name j i) eqn:E; auto. apply get_none; auto. intros b Hb.
        rewrite (same_sym (attr_name b) i) by auto. rewrite <- (same_trans j i) by auto.
        rewrite same_sym by auto. auto.
    - unfold retain, get_named_item. clear A He Ha. induction l as [|a l IH]; simpl in *; auto.
      destruct D as [D1 D2]. inversion N; subst.
      destruct (id_eqb (attr_name a) i) eqn:E.
      + destruct (f a) eqn:Fa; simpl; [rewrite E, ?Fa; auto|].
        rewrite sameW in E by auto. apply (get_none (filter f l)); auto.
        * intros b Hb. apply filter_In in Hb as [Hb _]. auto.
        * intros b Hb. apply filter_In in Hb as [Hb _].
          rewrite (same_sym (attr_name b) i) by auto. rewrite <- (same_trans (attr_name a) i) by auto. auto.
      + destruct (f a); simpl; [rewrite E|]; apply IH; auto.
  Qed.

  Lemma get_run es : forall l i, lives l -> In i W ->
    Forall (fun i => In i W) (flat_map edit_names es) -> Forall alias_ok (flat_map edit_attrs es) ->
    get_named_item (fold_left apply_edit es l) i = fold_left (expect i) es (get_named_item l i) /\
    distinct_names (fold_left apply_edit es l).
  Proof.
    induction es as [|e es IH]; simpl; intros l i L Hi He Ha.
    - split; auto. apply L.
    - apply Forall_app in He as [He1 He2], Ha as [Ha1 Ha2].
      destruct (IH (apply_edit l e) i) as [H1 H2]; auto; [apply lives_step; auto|].
      split; auto. rewrite H1. f_equal. apply get_step; auto.
  Qed.
End World.

Lemma attribute_map l es i : distinct_names l -> Forall alias_ok (l ++ flat_map edit_attrs es) ->
  coherent (i :: map attr_name l ++ flat_map edit_names es) ->
  get_named_item (fold_left apply_edit es l) i = fold_left (expect i) es (get_named_item l i) /\
  distinct_names (fold_left apply_edit es l).
Proof.
  intros D A C. apply Forall_app in A as [A1 A2]. eapply get_run; eauto.
  - split; auto. split; auto. apply Forall_forall. intros a Ha. right. apply in_or_app. left. apply in_map; auto.
  - left; auto.
  - apply Forall_forall. intros j Hj. right. apply in_or_app. auto.
Qed.

Lemma set_position l x : Forall alias_ok (x :: l) ->
  (exists pre old post, l = pre ++ old :: post /\ same_name (attr_name old) (attr_name x) = true /\
     set_named_item l x = (pre ++ x :: post, Some old)) \/
  ((forall b, In b l -> same_name (attr_name b) (attr_name x) = false) /\
   set_named_item l x = (l ++ [x], None)).
Proof.
  intros F. inversion F; subst.
  destruct (set_cases l x) as [(pre & old & post & H1' & H2' & _ & H3')|H]; auto.
  left. eauto 6.
Qed.

Lemma found_first (f g : attr -> bool) l : (forall a, In a l -> f a = g a) ->
  match find f l with
  | Some b => exists pre post, l = pre ++ b :: post /\ g b = true /\ forall c, In c pre -> g c = false
  | None => forall b, In b l -> g b = false
  end.
Proof.
  induction l as [|a l IH]; intros H; cbn [find]; [intros b []|].
  destruct (f a) eqn:E.
  - exists [], l. split; [reflexivity|]. split; [rewrite <- H; [exact E|left; reflexivity]|intros c []].
  - specialize (IH (fun b Hb => H b (or_intror Hb))). rewrite (H a (or_introl eq_refl)) in E. destruct (find f l) as [b|].
    + destruct IH as (pre & post & -> & Gb & N). exists (a :: pre), post. split; [reflexivity|]. split; [exact Gb|].
      intros c [<-|Hc]; auto.
    + intros b [<-|Hb]; auto.
Qed.
Lemma get_mut l i : Forall alias_ok l -> prefix_ok (id_prefix i) ->
  match get_named_item_mut l i with
  | Some b => exists pre post, l = pre ++ b :: post /\ same_name (attr_name b) i = true /\
                forall c, In c pre -> same_name (attr_name c) i = false
  | None => forall b, In b l -> same_name (attr_name b) i = false
  end.
Proof.
  intros F P. unfold get_named_item_mut. apply (found_first _ (fun b => same_name (attr_name b) i)).
  intros a Ha. rewrite Forall_forall in F. destruct (F a Ha) as (A1 & A2 & A3). unfold same_name, attr_local. f_equal.
  apply eq_iff_eq_true. rewrite !prefix_eqb_spec in * by auto. split; congruence.
Qed.
(** The namespace and local name found by [get_named_item_ns]. *)
Lemma get_ns l n local :
  match get_named_item_ns l n local with
  | Some b => exists pre post, l = pre ++ b :: post /\ is_ns (attr_prefix b) n = true /\ attr_local b = local /\
                forall c, In c pre -> ~ (is_ns (attr_prefix c) n = true /\ attr_local c = local)
  | None => forall b, In b l -> ~ (is_ns (attr_prefix b) n = true /\ attr_local b = local)
  end.
Proof.
  pose proof (found_first (fun a => is_ns (attr_prefix a) n && text_eqb (attr_local a) local)
    (fun a => is_ns (attr_prefix a) n && text_eqb (attr_local a) local) l (fun _ _ => eq_refl)) as H.
  unfold get_named_item_ns. destruct (find _ l) as [b|].
  - destruct H as (pre & post & -> & G & N). exists pre, post. split; [reflexivity|]. apply andb_prop in G. destruct G as [G1 G2].
    split; [exact G1|]. split; [apply text_eqb_spec; exact G2|]. intros c Hc [C1 C2]. specialize (N c Hc). rewrite C1 in N.
    apply text_eqb_spec in C2. rewrite C2 in N. discriminate.
  - intros b Hb [C1 C2]. specialize (H b Hb). rewrite C1 in H. apply text_eqb_spec in C2. rewrite C2 in H. discriminate.
Qed.

(* ------------------------------------------------------------------ class lists *)

Notation class_id := (ABase (BKnown class_kind)).

Lemma class_not_same a : class_of a = None -> (exists t, a = Plain (Known class_kind (VClasses t))) -> False.
Proof. intros H (t & ->). discriminate. Qed.

Lemma class_self t : same_name (attr_name (Plain (Known class_kind (VClasses t)))) class_id = true.
Proof. reflexivity. Qed.

(** Either no class attribute, or exactly one at a known place. *)
Lemma class_shape l : class_ok l ->
  (tokens l = [] /\ search l = None /\ get_named_item l class_id = None /\
   forall a, In a l -> class_of a = None) \/
  exists pre t post, l = pre ++ Plain (Known class_kind (VClasses t)) :: post /\ tokens l = t /\
   search l = Some (length pre, t) /\
   (forall a, In a pre \/ In a post -> class_of a = None).
Proof.
  intros (D & H1 & H2 & A). induction l as [|a l IH]; simpl.
  - left. repeat split; auto. intros a [].
  - assert (IH' := IH (proj2 D) (fun b Hb => H1 b (or_intror Hb)) (fun b Hb => H2 b (or_intror Hb)) (Forall_inv_tail A)).
    clear IH. destruct (same_name (attr_name a) class_id) eqn:E.
    + destruct (H1 a (or_introl eq_refl) E) as (t & ->). right. exists [], t, l.
      split; [reflexivity|]. split; [reflexivity|]. split; [reflexivity|].
      intros b [[]|Hb]. destruct (class_of b) eqn:Eb; auto. exfalso.
      assert (S : same_name (attr_name b) class_id = false).
      { pose proof (proj1 D b Hb) as Db. apply same_name_false in Db; [|exact I].
        assert (OKb : prefix_ok (id_prefix (attr_name b))).
        { rewrite Forall_forall in A. apply (A b). simpl; auto. }
        apply same_name_false; auto. intros [? ?]. apply Db. split; symmetry; auto. }
      destruct b as [[k v|?|?]|]; try discriminate. destruct v; try discriminate.
      cbn [class_of] in Eb.
      destruct (text_eqb (kind_id k) (lit "Class")) eqn:Ek; try discriminate.
      pose proof (H2 _ (or_intror Hb) S) as H3. change (text_eqb (kind_id k) (lit "Class") = false) in H3.
      rewrite Ek in H3. discriminate.
    + pose proof (H2 a (or_introl eq_refl) E) as H3.
      assert (Ca : class_of a = None).
      { destruct a as [[k v|?|?]|]; auto. destruct v; auto. change (text_eqb (kind_id k) (lit "Class") = false) in H3.
        cbn [class_of]. rewrite H3. reflexivity. }
      unfold tokens, get_named_item. cbn [find]. rewrite H3, Ca.
      destruct IH' as [(T & S & G & N)|(pre & t & post & -> & T & S & N)].
      * left. rewrite S. split; [exact T|]. split; [reflexivity|]. split; [exact G|]. intros b [<-|Hb]; auto.
      * right. exists (a :: pre), t, post. rewrite S. split; [reflexivity|]. split; [exact T|]. split; [reflexivity|].
        intros b [[<-|Hb]|Hb]; auto.
Qed.

Definition class_attr (t : list text) : attr := Plain (Known class_kind (VClasses t)).

Lemma cl_attr_none l m : (forall a, In a l -> class_of a = None) -> search l = None ->
  cl_attr (mkCL l m) = (mkCL l m, None).
Proof.
  intros N S. unfold cl_attr. simpl. rewrite S. destruct (nth_error l m) eqn:E; auto.
  apply nth_error_In in E. rewrite (N _ E). reflexivity.
Qed.

Lemma cl_attr_some pre t post m :
  (forall a, In a pre \/ In a post -> class_of a = None) ->
  search (pre ++ class_attr t :: post) = Some (length pre, t) ->
  cl_attr (mkCL (pre ++ class_attr t :: post) m) =
    (mkCL (pre ++ class_attr t :: post) (length pre), Some (length pre, t)).
Proof.
  intros N S. unfold cl_attr. cbn [cl_attrs memo]. rewrite S.
  destruct (nth_error (pre ++ class_attr t :: post) m) as [a|] eqn:E; auto.
  destruct (class_of a) as [t'|] eqn:Ea; auto.
  destruct (lt_eq_lt_dec m (length pre)) as [[L|L]|L].
  - rewrite nth_error_app1 in E by auto. apply nth_error_In in E. rewrite N in Ea by auto. discriminate.
  - subst m. rewrite nth_error_app2, Nat.sub_diag in E by auto. simpl in E. inversion E; subst. simpl in Ea.
    inversion Ea; subst. reflexivity.
  - rewrite nth_error_app2 in E by lia. destruct (m - length pre) eqn:Em; [lia|]. simpl in E.
    apply nth_error_In in E. rewrite N in Ea by auto. discriminate.
Qed.

Lemma put_at pre a post t : put (pre ++ a :: post) (length pre) t = pre ++ class_attr t :: post.
Proof. induction pre as [|x pre IH]; [reflexivity|]. cbn [app length put]. rewrite IH. reflexivity. Qed.

Lemma class_alias_ok t : alias_ok (class_attr t).
Proof. repeat split. Qed.

Lemma class_ok_swap pre t t' post : class_ok (pre ++ class_attr t :: post) -> class_ok (pre ++ class_attr t' :: post).
Proof.
  intros (D & H1 & H2 & A). split; [|split; [|split]].
  - apply distinct_app in D as (D1 & [D2 D3] & D4). apply distinct_app. split; auto. split; [split; auto|].
    intros a b Ha [<-|Hb]; [|apply D4; simpl; auto]. apply (D4 a (class_attr t)); simpl; auto.
  - intros a Ha S. apply in_app_or in Ha as [Ha|[<-|Ha]].
    + apply H1; auto. apply in_or_app; auto.
    + exists t'; reflexivity.
    + apply H1; auto. apply in_or_app; simpl; auto.
  - intros a Ha S. apply in_app_or in Ha as [Ha|[<-|Ha]].
    + apply H2; auto. apply in_or_app; auto.
    + change (true = false) in S. discriminate.
    + apply H2; auto. apply in_or_app; simpl; auto.
  - apply Forall_app in A as [A1 A2]. inversion A2; subst. apply Forall_app. split; auto.
Qed.

Lemma class_ok_drop pre t post : class_ok (pre ++ class_attr t :: post) -> class_ok (pre ++ post).
Proof.
  intros (D & H1 & H2 & A).
  assert (I : forall a, In a (pre ++ post) -> In a (pre ++ class_attr t :: post)).
  { intros a Ha. apply in_app_or in Ha. apply in_or_app. simpl. tauto. }
  split; [|split; [|split]]; auto.
  - apply distinct_app in D as (D1 & [D2 D3] & D4). apply distinct_app. split; auto. split; auto.
    intros a b Ha Hb. apply D4; simpl; auto.
  - apply Forall_app in A as [A1 A2]. inversion A2; subst. apply Forall_app. auto.
Qed.

Lemma class_ok_add l t : class_ok l -> (forall a, In a l -> class_of a = None) -> class_ok (l ++ [class_attr t]).
Proof.
  intros (D & H1 & H2 & A) N.
  assert (NS : forall a, In a l -> same_name (attr_name a) class_id = false).
  { intros a Ha. destruct (same_name (attr_name a) class_id) eqn:E; auto.
    destruct (H1 a Ha E) as (t' & ->). apply N in Ha. discriminate. }
  split; [|split; [|split]].
  - apply distinct_app. split; auto. split; [split; [intros b []|exact I]|].
    intros a b Ha [<-|[]]. apply NS; auto.
  - intros a Ha S. apply in_app_or in Ha as [Ha|[<-|[]]]; eauto. exists t; reflexivity.
  - intros a Ha S. apply in_app_or in Ha as [Ha|[<-|[]]]; eauto.
  - apply Forall_app. split; auto. constructor; auto using class_alias_ok.
Qed.

Lemma class_pre_none pre t post : class_ok (pre ++ class_attr t :: post) ->
  forall a, In a pre \/ In a post -> id_eqb (attr_name a) class_id = false /\ same_name (attr_name a) class_id = false.
Proof.
  intros (D & H1 & H2 & A) a Ha.
  assert (S : same_name (attr_name a) class_id = false).
  { apply distinct_app in D as (D1 & [D2 D3] & D4). destruct Ha as [Ha|Ha].
    - apply (D4 a (class_attr t)); simpl; auto.
    - pose proof (D2 a Ha) as Db. apply same_name_false in Db; [|exact I].
      assert (OKb : prefix_ok (id_prefix (attr_name a))).
      { rewrite Forall_forall in A. apply (A a). apply in_or_app; simpl; auto. }
      apply same_name_false; auto. intros [? ?]. apply Db. split; symmetry; auto. }
  split; auto. apply H2; auto. apply in_or_app; simpl; tauto.
Qed.

Lemma tokens_at pre t post : class_ok (pre ++ class_attr t :: post) -> tokens (pre ++ class_attr t :: post) = t.
Proof.
  intros OK. pose proof (class_pre_none _ _ _ OK) as N. unfold tokens. rewrite get_app.
  assert (get_named_item pre class_id = None) as ->.
  { unfold get_named_item. clear OK. induction pre as [|a pre IH]; auto. cbn [find].
    rewrite (proj1 (N a (or_introl (or_introl eq_refl)))). apply IH. intros b Hb. apply N. simpl; tauto. }
  reflexivity.
Qed.

Lemma others_app l1 l2 : others (l1 ++ l2) = others l1 ++ others l2.
Proof. unfold others. apply filter_app. Qed.

Lemma remove_at pre post : class_ok (pre ++ class_attr [] :: post) ->
  remove_named_item (pre ++ class_attr [] :: post) class_id = (pre ++ post, Some (class_attr [])).
Proof.
  intros OK. pose proof (class_pre_none _ _ _ OK) as N. clear OK.
  induction pre as [|a pre IH]; [reflexivity|]. cbn [app remove_named_item].
  rewrite (proj1 (N a (or_introl (or_introl eq_refl)))). rewrite IH; auto. intros b Hb. apply N. simpl; tauto.
Qed.

Lemma tokens_none l : class_ok l -> (forall a, In a l -> class_of a = None) -> tokens l = [].
Proof.
  intros OK N. destruct (class_shape l OK) as [H|(pre & t & post & -> & _ & _ & _)]; [tauto|].
  exfalso. assert (class_of (class_attr t) = None) by (apply N, in_or_app; simpl; auto). discriminate.
Qed.

Lemma set_at_end l t : class_ok l -> (forall a, In a l -> class_of a = None) ->
  set_named_item l (class_attr t) = (l ++ [class_attr t], None).
Proof.
  intros (D & H1 & H2 & A) N. destruct (set_cases l (class_attr t)) as [(pre & old & post & -> & S & _ & _)|[_ H]]; auto.
  - apply class_alias_ok.
  - exfalso. assert (Io : In old (pre ++ old :: post)) by (apply in_or_app; simpl; auto).
    destruct (H1 old Io S) as (t' & ->). apply N in Io. discriminate.
Qed.

Lemma existsb_in t l : existsb (fun x => text_eqb x t) l = if in_dec text_eq_dec t l then true else false.
Proof.
  apply eq_iff_eq_true. rewrite existsb_exists. destruct (in_dec text_eq_dec t l) as [I|I].
  - split; auto. intros _. exists t. split; auto. apply text_eqb_refl.
  - split; [|discriminate]. intros (x & Hx & E). apply text_eqb_spec in E. subst. contradiction.
Qed.

Lemma filter_remove t l : filter (fun x => negb (text_eqb x t)) l = remove text_eq_dec t l.
Proof.
  induction l as [|x l IH]; simpl; auto. rewrite IH. destruct (text_eq_dec t x) as [->|D].
  - rewrite text_eqb_refl. reflexivity.
  - assert (text_eqb x t = false) as -> by (apply text_eqb_neq; auto). reflexivity.
Qed.

Lemma replace_swap t old new : match replace_first t old new with
  | Some t' => t' = swap_first old new t /\ In old t
  | None => swap_first old new t = t /\ ~ In old t end.
Proof.
  induction t as [|x t IH]; simpl; [tauto|]. destruct (text_eq_dec x old) as [->|D].
  - rewrite text_eqb_refl. auto.
  - assert (text_eqb x old = false) as -> by (apply text_eqb_neq; auto).
    destruct (replace_first t old new); simpl.
    + destruct IH as [-> ?]. auto.
    + destruct IH as [-> ?]. split; auto. tauto.
Qed.

Definition good (c : class_list) (l : list text) (o : list attr) : Prop :=
  class_ok (cl_attrs c) /\ tokens (cl_attrs c) = l /\ others (cl_attrs c) = o.

Ltac put_tokens OK := rewrite put_at; split; [|split];
  [eapply class_ok_swap; eauto|apply tokens_at; eapply class_ok_swap; eauto|
   rewrite !others_app; simpl; reflexivity].

Lemma class_step_ok c e l o : good c l o ->
  good (fst (class_step c e)) (fst (token_step l e)) o /\ snd (class_step c e) = snd (token_step l e).
Proof.
  intros (OK & <- & <-). destruct c as [attrs m]. cbn [cl_attrs] in *.
  destruct (class_shape attrs OK) as [(T & S & G & N)|(pre & t & post & E & T & S & N)].
  - (* no class attribute *)
    pose proof (fun m => cl_attr_none attrs m N S) as CA. rewrite T.
    assert (Same : good (mkCL attrs m) [] (others attrs)) by (split; [|split]; auto).
    assert (Add : forall t, good (cl_add (mkCL attrs m) t) [t] (others attrs)).
    { intros t. unfold cl_add, cl_contains. rewrite CA, CA. cbn [cl_attrs].
      change (Plain (Known class_kind (VClasses [t]))) with (class_attr [t]).
      rewrite set_at_end by auto. cbn [fst]. pose proof (class_ok_add attrs [t] OK N) as OK'.
      split; [|split]; auto; cbn [cl_attrs].
      - apply (tokens_at attrs [t] []). exact OK'.
      - rewrite others_app. unfold others at 2. cbn [filter]. change (same_name (attr_name (class_attr [t])) class_id) with true. apply app_nil_r. }
    destruct e as [x|x|x|a b|f|x| |n]; cbn [class_step token_step].
    + split; [apply Add|reflexivity].
    + unfold cl_remove. rewrite CA. auto.
    + unfold cl_toggle, cl_contains. rewrite CA. cbn [fst snd in_dec]. split; [apply Add|reflexivity].
    + unfold cl_replace. rewrite CA. auto.
    + unfold cl_retain. rewrite CA. auto.
    + unfold cl_contains. rewrite CA. auto.
    + unfold cl_length. rewrite CA. auto.
    + unfold cl_item. rewrite CA. destruct n; auto.
  - (* one class attribute *)
    subst attrs. change (Plain (Known class_kind (VClasses t))) with (class_attr t) in *. rewrite T.
    pose proof (fun m => cl_attr_some pre t post m N S) as CA.
    set (o := others (pre ++ class_attr t :: post)).
    assert (Ho : o = others pre ++ others post) by (unfold o; rewrite others_app; reflexivity).
    assert (Put : forall m t', good (mkCL (put (pre ++ class_attr t :: post) (length pre) t') m) t' o).
    { intros m' t'. rewrite put_at. pose proof (class_ok_swap pre t t' post OK) as OK'.
      split; [|split]; auto; cbn [cl_attrs]; [apply tokens_at; auto|].
      rewrite Ho, others_app. reflexivity. }
    assert (Same : forall m, good (mkCL (pre ++ class_attr t :: post) m) t o).
    { intros m'. split; [|split]; auto. }
    assert (Add : forall x, good (cl_add (mkCL (pre ++ class_attr t :: post) m) x)
              (if in_dec text_eq_dec x t then t else t ++ [x]) o).
    { intros x. unfold cl_add, cl_contains. rewrite CA, existsb_in.
      destruct (in_dec text_eq_dec x t); [apply Same|]. rewrite CA. apply Put. }
    assert (Rem : forall m x, good (cl_remove (mkCL (pre ++ class_attr t :: post) m) x) (remove text_eq_dec x t) o).
    { intros m' x. unfold cl_remove. rewrite CA, filter_remove.
      destruct (remove text_eq_dec x t) as [|y r] eqn:Er.
      - cbn [cl_attrs]. rewrite put_at, remove_at by (eapply class_ok_swap; eauto). cbn [fst].
        pose proof (class_ok_drop pre t post OK) as OK'. split; [|split]; auto; cbn [cl_attrs].
        + apply tokens_none; auto. intros a Ha. apply in_app_or in Ha. auto.
        + rewrite Ho. apply others_app.
      - rewrite <- Er. apply Put. }
    destruct e as [x|x|x|a b|f|x| |n]; cbn [class_step token_step].
    + split; [apply Add|reflexivity].
    + split; [apply Rem|reflexivity].
    + unfold cl_toggle, cl_contains. rewrite CA, existsb_in.
      destruct (in_dec text_eq_dec x t) as [I|I]; cbn [fst snd].
      * split; [apply Rem|reflexivity].
      * split; [|reflexivity]. unfold cl_add, cl_contains. rewrite CA, existsb_in.
        destruct (in_dec text_eq_dec x t); [contradiction|]. rewrite CA. apply Put.
    + unfold cl_replace. rewrite CA. pose proof (replace_swap t a b) as R.
      destruct (replace_first t a b) as [t'|]; cbn [fst snd].
      * destruct R as [-> I]. split; [apply Put|]. destruct (in_dec text_eq_dec a t); [reflexivity|contradiction].
      * destruct R as [-> I]. split; [apply Same|]. destruct (in_dec text_eq_dec a t); [contradiction|reflexivity].
    + unfold cl_retain. rewrite CA. split; [apply Put|reflexivity].
    + unfold cl_contains. rewrite CA, existsb_in. split; [apply Same|reflexivity].
    + unfold cl_length. rewrite CA. split; [apply Same|reflexivity].
    + unfold cl_item. rewrite CA. split; [apply Same|reflexivity].
Qed.

Lemma class_run_ok es : forall c l o, good c l o ->
  good (fst (class_run c es)) (fst (token_run l es)) o /\ snd (class_run c es) = snd (token_run l es).
Proof.
  induction es as [|e es IH]; intros c l o G; simpl; auto.
  destruct (class_step_ok c e l o G) as [G' A].
  destruct (class_step c e) as [c1 a1], (token_step l e) as [l1 b1]. simpl in *. subst b1.
  destruct (IH c1 l1 o G') as [G2 A2].
  destruct (class_run c1 es), (token_run l1 es). simpl in *. subst. auto.
Qed.

Lemma class_list_ok attrs m es : class_ok attrs ->
  let (c, answers) := class_run (mkCL attrs m) es in
  let (l, expected) := token_run (tokens attrs) es in
  tokens (cl_attrs c) = l /\ answers = expected /\ others (cl_attrs c) = others attrs /\ class_ok (cl_attrs c).
Proof.
  intros OK. destruct (class_run_ok es (mkCL attrs m) (tokens attrs) (others attrs)) as [(G1 & G2 & G3) A].
  - split; [|split]; auto.
  - destruct (class_run (mkCL attrs m) es), (token_run (tokens attrs) es). simpl in *. auto.
Qed.

Lemma nodup_remove x (l : list text) : NoDup l -> NoDup (remove text_eq_dec x l).
Proof. intros H. rewrite <- filter_remove. apply NoDup_filter; auto. Qed.

Lemma nodup_add x (l : list text) : NoDup l -> ~ In x l -> NoDup (l ++ [x]).
Proof.
  intros H I. apply NoDup_rev in H. rewrite <- (rev_involutive (l ++ [x])). apply NoDup_rev.
  rewrite rev_app_distr. simpl. constructor; auto. rewrite <- in_rev. auto.
Qed.

Lemma token_step_nodup l e : no_replace e -> NoDup l -> NoDup (fst (token_step l e)).
Proof.
  destruct e; simpl; intros NR N; auto; try contradiction.
  - destruct (in_dec text_eq_dec t l); auto. apply nodup_add; auto.
  - apply nodup_remove; auto.
  - destruct (in_dec text_eq_dec t l); simpl; [apply nodup_remove; auto|apply nodup_add; auto].
  - apply NoDup_filter; auto.
Qed.

Lemma token_run_nodup es : Forall no_replace es -> forall l, NoDup l -> NoDup (fst (token_run l es)).
Proof.
  induction 1 as [|e es He _ IH]; intros l N; simpl; auto.
  pose proof (token_step_nodup l e He N) as N1. destruct (token_step l e). simpl in N1.
  specialize (IH _ N1). destruct (token_run l0 es). exact IH.
Qed.

Lemma class_no_dup attrs m es : class_ok attrs -> Forall no_replace es -> NoDup (tokens attrs) ->
  NoDup (tokens (cl_attrs (fst (class_run (mkCL attrs m) es)))).
Proof.
  intros OK NR N. pose proof (class_list_ok attrs m es OK) as H. pose proof (token_run_nodup es NR _ N) as N'.
  destruct (class_run _ _), (token_run _ _). simpl in *. destruct H as (-> & _). exact N'.
Qed.

(** Serialising and splitting gives the tokens back. *)
Lemma words_solid_app w s acc : forallb (fun c => negb (is_whitespace c)) w = true ->
  words_from acc (w ++ s) = words_from (rev w ++ acc) s.
Proof.
  revert acc. induction w as [|c w IH]; intros acc; simpl; auto. rewrite andb_true_iff, negb_true_iff.
  intros [-> H]. rewrite IH by auto. rewrite <- app_assoc. reflexivity.
Qed.

Lemma join_words l : Forall is_token l -> split_whitespace (join (lit " ") l) = l.
Proof.
  unfold split_whitespace. induction 1 as [|w l [Hn Hw] _ IH]; auto.
  destruct l as [|w2 l].
  - cbn [join]. rewrite <- (app_nil_r w) at 1. rewrite words_solid_app by auto. simpl.
    rewrite app_nil_r. destruct (rev w) eqn:E; [apply (f_equal (@rev N)) in E; rewrite rev_involutive in E; contradiction|].
    rewrite <- E, rev_involutive. reflexivity.
  - change (join (lit " ") (w :: w2 :: l)) with (w ++ 32%N :: join (lit " ") (w2 :: l)).
    rewrite words_solid_app by auto. rewrite app_nil_r. cbn [words_from].
    change (is_whitespace 32) with true. cbn iota.
    destruct (rev w) eqn:E; [apply (f_equal (@rev N)) in E; rewrite rev_involutive in E; contradiction|].
    rewrite <- E, rev_involutive, IH. reflexivity.
Qed.
