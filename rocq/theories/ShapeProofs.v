From Coq Require Import String List NArith ZArith QArith Qcanon Bool Arith Lia.
From Verif Require Import Chars SegmentModel SegmentSpec SegmentProofs SegmentProofs2 SegmentProofs4 ShapeModel ShapeSpec.
Import ListNotations.
Local Close Scope Q_scope.
Local Open Scope nat_scope.

Lemma aname_eqb_ok a b : aname_eqb a b = true <-> a = b.
Proof.
  destruct a, b; cbn; split; intros H; try reflexivity; try discriminate.
  - apply Nat.eqb_eq in H. subst. reflexivity.
  - injection H as ->. apply Nat.eqb_refl.
Qed.
Lemma aname_refl a : aname_eqb a a = true.
Proof. apply aname_eqb_ok. reflexivity. Qed.

Lemma get_put n v l : get n (put n v l) = Some v.
Proof.
  induction l as [|[m w] l IH]; cbn [put get]; [rewrite aname_refl; reflexivity|].
  destruct (aname_eqb m n) eqn:E; cbn [get]; [rewrite aname_refl; reflexivity|]. rewrite E. exact IH.
Qed.
Lemma get_drop n m l : n <> m -> get n (drop m l) = get n l.
Proof.
  intros N. induction l as [|[k w] l IH]; cbn [drop get]; [reflexivity|].
  destruct (aname_eqb k m) eqn:E.
  - apply aname_eqb_ok in E. subst k. destruct (aname_eqb m n) eqn:E2; [apply aname_eqb_ok in E2; congruence|reflexivity].
  - cbn [get]. rewrite IH. reflexivity.
Qed.
Lemma others_put k n v l : geometric k n = true -> others k (put n v l) = others k l.
Proof.
  intros G. unfold others. induction l as [|[m w] l IH]; cbn [put filter fst]; [rewrite G; reflexivity|].
  destruct (aname_eqb m n) eqn:E; cbn [filter fst].
  - apply aname_eqb_ok in E. subst m. rewrite G. reflexivity.
  - rewrite IH. reflexivity.
Qed.
Lemma others_drop k n l : geometric k n = true -> others k (drop n l) = others k l.
Proof.
  intros G. unfold others. induction l as [|[m w] l IH]; cbn [drop filter fst]; [reflexivity|].
  destruct (aname_eqb m n) eqn:E; cbn [filter fst].
  - apply aname_eqb_ok in E. subst m. rewrite G. reflexivity.
  - rewrite IH. reflexivity.
Qed.
Lemma has_iff n l : has n l = false <-> get n l = None.
Proof. unfold has. destruct (get n l); split; intros; congruence. Qed.

Lemma coordinate_px l n q : coordinate l n q -> px_or_zero (get n l) = Some q.
Proof. intros [q' H|H|k H]; rewrite H; reflexivity. Qed.

(** Lines through rounded points. *)
Lemma run_lines r vs : forall s, run s (map (round_cmd r) (map (Line false) vs)) = through (cur s) (map (rpoint r) vs).
Proof.
  induction vs as [|v vs IH]; intros s; [reflexivity|].
  cbn [map round_cmd]. rewrite run_cons. cbn [step fst snd to_ app through]. f_equal. apply IH.
Qed.
Lemma pen_lines r vs : forall s, cur (pen_after s (map (round_cmd r) (map (Line false) vs))) = List.last (map (rpoint r) vs) (cur s) /\
  sub (pen_after s (map (round_cmd r) (map (Line false) vs))) = sub s.
Proof.
  induction vs as [|v vs IH]; intros s; [split; reflexivity|].
  cbn [map round_cmd pen_after]. destruct (IH (snd (step (Line false (rpoint r v)) s))) as [A B]. rewrite A, B.
  cbn [step snd to_ cur sub]. split; [|reflexivity].
  destruct vs as [|w vs]; [reflexivity|]. cbn [map]. generalize (rpoint r w) as u, (map (rpoint r) vs) as l.
  intros u l. revert u. induction l as [|x l IHl]; intros u; [reflexivity|]. exact (IHl x).
Qed.
Lemma poly_drawing r (c : bool) v vs :
  drawing (round_path r (if c then (Move false v :: map (Line false) vs) ++ [Close] else Move false v :: map (Line false) vs)) =
  sides (map (rpoint r) (v :: vs)) c.
Proof.
  unfold drawing, round_path. destruct c.
  - rewrite map_app. cbn [map app round_cmd]. rewrite run_cons. cbn [step fst snd to_ app].
    rewrite run_app, run_lines. cbn [sides cur]. f_equal.
    rewrite run_cons. cbn [step fst run app].
    destruct (pen_lines r vs (Pen (rpoint r v) (rpoint r v) NoHandle)) as [A B]. rewrite A, B. reflexivity.
  - cbn [map round_cmd]. rewrite run_cons. cbn [step fst snd to_ app]. rewrite run_lines. cbn [sides cur]. rewrite app_nil_r. reflexivity.
Qed.

Lemma rnd_rounded p x : rounded p x (rnd p x).
Proof. split; [eexists; reflexivity|]. destruct (rnd_spec p x) as (A & B & _). split; assumption. Qed.
Lemma rpoint_rounded p a : rounded_point p a (rpoint (rnd p) a).
Proof. split; apply rnd_rounded. Qed.

Lemma mentions_iff refs n : mentions refs n = true <-> In n refs.
Proof.
  unfold mentions. rewrite existsb_exists. split.
  - intros (x & Hx & E). apply text_eqb_spec in E. subst. exact Hx.
  - intros H. exists n. split; [exact H|apply text_eqb_refl].
Qed.
Lemma referenced_iff sheet n : In n (referenced sheet) <-> named sheet n.
Proof.
  unfold referenced, named. rewrite in_flat_map. split.
  - intros (s & Hs & H). exists s. split; [exact Hs|]. apply in_flat_map in H. destruct H as (c & Hc & Hn).
    destruct c; cbn in Hn; [|contradiction|contradiction]. destruct Hn as [<-|[]]. exact Hc.
  - intros (s & Hs & H). exists s. split; [exact Hs|]. apply in_flat_map. exists (CLocal n). split; [exact H|left; reflexivity].
Qed.
Lemma mentions_named sheet n : mentions (referenced sheet) n = true <-> named sheet n.
Proof. rewrite mentions_iff, referenced_iff. reflexivity. Qed.
Lemma mentions_not sheet n : ~ named sheet n -> mentions (referenced sheet) n = false.
Proof. intros H. destruct (mentions (referenced sheet) n) eqn:E; [|reflexivity]. apply mentions_named in E. contradiction. Qed.

Section Traced.
  Context {K : Type} (p : nat) (arcs : bool) (sheet : list (list component)).
  Theorem traced (e : shape K) vs closed :
    outline_of e vs closed -> 2 <= List.length vs ->
    ~ named sheet (lit "path") -> (forall n, local_name (s_kind e) = Some n -> ~ named sheet n) ->
    exists e' path vs', convert_shape p arcs sheet e = Some e' /\ s_kind e' = KPath /\ get AD (s_attrs e') = Some (VPath path) /\
      drawing path = sides vs' closed /\ Forall2 (rounded_point p) vs vs' /\ others (s_kind e) (s_attrs e') = others (s_kind e) (s_attrs e).
  Proof.
    intros O L Np Nn.
    assert (F : Forall2 (rounded_point p) vs (map (rpoint (rnd p)) vs)).
    { clear. induction vs; cbn; constructor; auto using rpoint_rounded. }
    unfold convert_shape. rewrite (mentions_not _ _ Np). unfold shape_element.
    destruct O as [x y w h k h1 h2 h3 h4 h5 h6|x1 y1 x2 y2 k h1 h2 h3 h4|v vs k h|v vs k h]; rewrite k in *;
      rewrite (mentions_not _ _ (Nn _ eq_refl)).
    - unfold rect_to_path. apply has_iff in h1, h2. rewrite h1, h2. apply coordinate_px in h3, h4. rewrite h3, h4, h5, h6. cbn [orb px_or_none].
      eexists _, _, _. split; [reflexivity|]. split; [reflexivity|]. cbn [s_attrs].
      split; [rewrite !get_drop by discriminate; apply get_put|]. split; [|split; [exact F|]].
      + reflexivity.
      + rewrite !others_drop by reflexivity. apply others_put. reflexivity.
    - unfold line_to_path. apply coordinate_px in h1, h2, h3, h4. rewrite h1, h2, h3, h4.
      eexists _, _, _. split; [reflexivity|]. split; [reflexivity|]. cbn [s_attrs].
      split; [rewrite !get_drop by discriminate; apply get_put|]. split; [|split; [exact F|]].
      + reflexivity.
      + rewrite !others_drop by reflexivity. apply others_put. reflexivity.
    - unfold poly_to_path. rewrite h. cbn [List.length] in *. rewrite map_length.
      destruct vs as [|v2 vs]; [cbn in L; lia|]. cbn [List.length Nat.leb].
      eexists _, _, _. split; [reflexivity|]. split; [reflexivity|]. cbn [s_attrs].
      split; [apply get_put|]. split; [|split; [exact F|]].
      + apply (poly_drawing (rnd p) false).
      + rewrite others_put by reflexivity. apply others_drop. reflexivity.
    - unfold poly_to_path. rewrite h. cbn [List.length] in *. rewrite map_length.
      destruct vs as [|v2 vs]; [cbn in L; lia|]. cbn [List.length Nat.leb].
      eexists _, _, _. split; [reflexivity|]. split; [reflexivity|]. cbn [s_attrs].
      split; [apply get_put|]. split; [|split; [exact F|]].
      + apply (poly_drawing (rnd p) true).
      + rewrite others_put by reflexivity. apply others_drop. reflexivity.
  Qed.

  Lemma px_coordinate l n q : lengths_read l -> n <> APoints -> n <> AD -> px_or_zero (get n l) = Some q -> coordinate l n q.
  Proof.
    intros W n1 n2. destruct (get n l) as [[q'| | |c|k]|] eqn:E; cbn [px_or_zero]; intros H; try discriminate; injection H as <-.
    - apply c_given. exact E.
    - destruct (W _ _ E); contradiction.
    - exact (c_senseless _ _ _ E).
    - exact (c_missing _ _ E).
  Qed.
  (** What happens to the element. *)
  Theorem only_then (e : shape K) : lengths_read (s_attrs e) ->
    convert_shape p arcs sheet e = Some e \/
    ((~ named sheet (lit "path") /\ (forall n, s_kind e <> KEllipse -> local_name (s_kind e) = Some n -> ~ named sheet n)) /\
     ((poly (s_kind e) = true /\ convert_shape p arcs sheet e = None /\
       (forall l, get APoints (s_attrs e) = Some (VPath l) -> List.length l <= 1)) \/
      (poly (s_kind e) = true /\ exists l, get APoints (s_attrs e) = Some (VPath l) /\ 2 <= List.length l) \/
      (straight (s_kind e) = true /\ poly (s_kind e) = false /\ exists vs closed, outline_of e vs closed /\ 2 <= List.length vs) \/
      (round_shape (s_kind e) = true /\ arcs = true))).
  Proof.
    intros W. unfold convert_shape. destruct (mentions (referenced sheet) (lit "path")) eqn:Ep; [left; reflexivity|].
    assert (Np : ~ named sheet (lit "path")) by (rewrite <- mentions_named; congruence).
    unfold shape_element. destruct (s_kind e) eqn:Ek; try (left; reflexivity).
    - destruct (mentions (referenced sheet) (lit "rect")) eqn:En; [left; reflexivity|].
      unfold rect_to_path. destruct (has ARX (s_attrs e)) eqn:H1; [left; reflexivity|]. destruct (has ARY (s_attrs e)) eqn:H2; [left; reflexivity|].
      cbn [orb]. destruct (px_or_zero (get AX (s_attrs e))) as [x|] eqn:E1; [|left; reflexivity].
      destruct (px_or_zero (get AY (s_attrs e))) as [y|] eqn:E2; [|left; reflexivity].
      destruct (px_or_none (get AWidth (s_attrs e))) as [w|] eqn:E3; [|left; reflexivity].
      destruct (px_or_none (get AHeight (s_attrs e))) as [h|] eqn:E4; [|left; reflexivity].
      right. split; [split; [exact Np|intros n _ [= <-]; rewrite <- mentions_named; congruence]|].
      right. right. left. split; [reflexivity|]. split; [reflexivity|]. eexists _, true. split; [|shelve].
      apply px_coordinate in E1; [|exact W|discriminate|discriminate]. apply px_coordinate in E2; [|exact W|discriminate|discriminate].
      destruct (get AWidth (s_attrs e)) as [[]|] eqn:G3; try discriminate. destruct (get AHeight (s_attrs e)) as [[]|] eqn:G4; try discriminate.
      injection E3 as ->. injection E4 as ->. apply has_iff in H1, H2. apply (o_rect e x y w h); assumption.
      Unshelve. all: cbn; auto with arith.
    - destruct (mentions (referenced sheet) (lit "line")) eqn:En; [left; reflexivity|].
      unfold line_to_path.
      destruct (px_or_zero (get AX1 (s_attrs e))) as [x1|] eqn:E1; [|left; reflexivity].
      destruct (px_or_zero (get AY1 (s_attrs e))) as [y1|] eqn:E2; [|left; reflexivity].
      destruct (px_or_zero (get AX2 (s_attrs e))) as [x2|] eqn:E3; [|left; reflexivity].
      destruct (px_or_zero (get AY2 (s_attrs e))) as [y2|] eqn:E4; [|left; reflexivity].
      right. split; [split; [exact Np|intros n _ [= <-]; rewrite <- mentions_named; congruence]|].
      right. right. left. split; [reflexivity|]. split; [reflexivity|]. exists [P x1 y1; P x2 y2], false. split; [|cbn; auto].
      apply px_coordinate in E1, E2, E3, E4; try exact W; try discriminate. apply o_line; assumption.
    - destruct (mentions (referenced sheet) (lit "polyline")) eqn:En; [left; reflexivity|]. right.
      split; [split; [exact Np|intros n _ [= <-]; rewrite <- mentions_named; congruence]|].
      unfold poly_to_path. destruct (get APoints (s_attrs e)) as [[q| | |l|k]|] eqn:E; try (left; split; [reflexivity|]; split; [reflexivity|]; discriminate).
      destruct (List.length l <=? 1) eqn:E1.
      + left. split; [reflexivity|]. split; [reflexivity|]. intros l' [= <-]. apply Nat.leb_le. exact E1.
      + right. left. split; [reflexivity|]. exists l. split; [reflexivity|]. apply Nat.leb_gt in E1. exact E1.
    - destruct (mentions (referenced sheet) (lit "polygon")) eqn:En; [left; reflexivity|]. right.
      split; [split; [exact Np|intros n _ [= <-]; rewrite <- mentions_named; congruence]|].
      unfold poly_to_path. destruct (get APoints (s_attrs e)) as [[q| | |l|k]|] eqn:E; try (left; split; [reflexivity|]; split; [reflexivity|]; discriminate).
      destruct (List.length l <=? 1) eqn:E1.
      + left. split; [reflexivity|]. split; [reflexivity|]. intros l' [= <-]. apply Nat.leb_le. exact E1.
      + right. left. split; [reflexivity|]. exists l. split; [reflexivity|]. apply Nat.leb_gt in E1. exact E1.
    - destruct arcs eqn:Ea; cbn [negb orb]; [|left; reflexivity]. destruct (mentions (referenced sheet) (lit "circle")) eqn:En; [left; reflexivity|].
      right. split; [split; [exact Np|intros n _ [= <-]; rewrite <- mentions_named; congruence]|]. right. right. right. split; reflexivity.
    - destruct arcs eqn:Ea; cbn [negb orb]; [|left; reflexivity]. destruct (mentions (referenced sheet) (lit "circle")) eqn:En; [left; reflexivity|].
      right. split; [split; [exact Np|intros n H; contradiction]|]. right. right. right. split; reflexivity.
  Qed.

  Lemma Qc_nonzero q : (q <> 0)%Qc -> Qc_eq_bool q 0 = false.
  Proof.
    intros H. destruct (Qc_eq_bool q 0) eqn:E; [|reflexivity]. apply Qc_eq_bool_correct in E. contradiction.
  Qed.
  (** Round shapes. *)
  Theorem round_traced (e : shape K) cx cy rx ry :
    arcs = true -> ~ named sheet (lit "path") -> ~ named sheet (lit "circle") ->
    (s_kind e = KCircle /\ get AR (s_attrs e) = Some (VPx rx) /\ ry = rx \/
     s_kind e = KEllipse /\ get ARX (s_attrs e) = Some (VPx rx) /\ get ARY (s_attrs e) = Some (VPx ry)) ->
    coordinate (s_attrs e) ACX cx -> coordinate (s_attrs e) ACY cy -> rx <> 0%Qc -> ry <> 0%Qc ->
    on_grid p cx -> on_grid p (cy - ry)%Qc -> on_grid p (cy + ry)%Qc -> on_grid p rx -> on_grid p ry ->
    exists e' path, convert_shape p arcs sheet e = Some e' /\ s_kind e' = KPath /\ get AD (s_attrs e') = Some (VPath path) /\
      others (s_kind e) (s_attrs e') = others (s_kind e) (s_attrs e) /\ exists large sweep,
      drawing path = [EArc rx ry 0%Qc large sweep (P cx (cy - ry)%Qc) (P cx (cy + ry)%Qc);
                      EArc rx ry 0%Qc large sweep (P cx (cy + ry)%Qc) (P cx (cy - ry)%Qc);
                      ELine (P cx (cy - ry)%Qc) (P cx (cy - ry)%Qc)].
  Proof.
    intros Ha Np Nc H Hx Hy Nx Ny G1 G2 G3 G4 G5.
    assert (D : drawing (ShapeModel.arcs (rnd p) cx cy rx ry) =
                [EArc rx ry 0%Qc true false (P cx (cy - ry)%Qc) (P cx (cy + ry)%Qc);
                 EArc rx ry 0%Qc true false (P cx (cy + ry)%Qc) (P cx (cy - ry)%Qc);
                 ELine (P cx (cy - ry)%Qc) (P cx (cy - ry)%Qc)]).
    { unfold ShapeModel.arcs. cbn [map round_all round_cmd rpoint px py].
      assert (G0 : rnd p 0%Qc = 0%Qc). { apply rnd_grid. exists 0%Z. apply Qc_is_canon. reflexivity. }
      unfold rpoint. cbn [px py]. rewrite G0, !rnd_grid by assumption. unfold drawing. cbn [run step fst snd to_ cur sub app].
      rewrite (Qc_nonzero _ Nx), (Qc_nonzero _ Ny). cbn [orb].
      assert (N : point_eqb (P cx (cy - ry)%Qc) (P cx (cy + ry)%Qc) = false /\ point_eqb (P cx (cy + ry)%Qc) (P cx (cy - ry)%Qc) = false).
      { assert (Hne : forall a b : Qc, a <> b -> Qc_eq_bool a b = false).
        { intros a b Hab. destruct (Qc_eq_bool a b) eqn:E; [|reflexivity]. apply Qc_eq_bool_correct in E. contradiction. }
        assert (Hd : (cy - ry <> cy + ry)%Qc).
        { intros E. apply Ny. assert (T : (ry + ry = 0)%Qc).
          { transitivity ((cy + ry) - (cy - ry))%Qc; [ring|]. rewrite E. ring. }
          assert (T2 : (ry * (1 + 1) = 0)%Qc) by (rewrite <- T; ring).
          apply Qcmult_integral in T2. destruct T2 as [T2|T2]; [exact T2|discriminate]. }
        unfold point_eqb. cbn [px py]. split; rewrite (Hne (_ - _)%Qc) || rewrite (Hne (_ + _)%Qc); try (apply andb_false_r); auto. }
      destruct N as [N1 N2]. rewrite N1, N2. reflexivity. }
    unfold convert_shape. rewrite (mentions_not _ _ Np). unfold shape_element. rewrite Ha.
    apply coordinate_px in Hx, Hy.
    destruct H as [(k & h & ->)|(k & h1 & h2)]; rewrite k; cbn [negb orb]; rewrite (mentions_not _ _ Nc).
    - unfold circle_to_path. rewrite Hx, Hy, h. cbn [px_or_zero].
      eexists _, _. split; [reflexivity|]. split; [reflexivity|]. cbn [s_attrs].
      split; [rewrite !get_drop by discriminate; apply get_put|].
      split; [rewrite !others_drop by reflexivity; apply others_put; reflexivity|]. exists true, false. exact D.
    - unfold ellipse_to_path. rewrite Hx, Hy, h1, h2. cbn [px_or_zero].
      eexists _, _. split; [reflexivity|]. split; [reflexivity|]. cbn [s_attrs].
      split; [rewrite !get_drop by discriminate; apply get_put|].
      split; [rewrite !others_drop by reflexivity; apply others_put; reflexivity|]. exists true, false. exact D.
  Qed.

End Traced.

(** ** The attributes of the shape do not stay on the path *)
Lemma get_none n l : get n l = None <-> ~ In n (map fst l).
Proof.
  induction l as [|[m v] l IH]; cbn [get map fst]; [intuition|]. destruct (aname_eqb m n) eqn:E.
  - apply (proj1 (aname_eqb_ok _ _)) in E. subst. cbn. split; [discriminate|intros H; exfalso; apply H; left; reflexivity].
  - rewrite IH. cbn. split; [intros H [->|H2]; [rewrite aname_refl in E; discriminate|auto]|intros H H2; apply H; right; exact H2].
Qed.
Lemma drop_incl n m l : In n (map fst (drop m l)) -> In n (map fst l).
Proof. induction l as [|[q v] l IH]; cbn; [auto|]. destruct (aname_eqb q m); cbn; intuition. Qed.
Lemma drop_nodup m l : NoDup (map fst l) -> NoDup (map fst (drop m l)).
Proof.
  induction l as [|[q v] l IH]; cbn; [auto|]. intros H. inversion H as [|? ? H1 H2]; subst. destruct (aname_eqb q m); [exact H2|]. cbn. constructor; [|auto].
  intros H3. apply H1. eapply drop_incl. exact H3.
Qed.
Lemma drop_gone m l : NoDup (map fst l) -> get m (drop m l) = None.
Proof.
  induction l as [|[q v] l IH]; cbn; [auto|]. intros H. inversion H as [|? ? H1 H2]; subst. destruct (aname_eqb q m) eqn:E.
  - apply (proj1 (aname_eqb_ok _ _)) in E. subst. apply get_none. exact H1.
  - cbn [get]. rewrite E. auto.
Qed.
Lemma put_names n v l : incl (map fst (put n v l)) (n :: map fst l) /\ (NoDup (map fst l) -> NoDup (map fst (put n v l))).
Proof.
  induction l as [|[m w] l [IH1 IH2]]; cbn [put map fst].
  - split; [apply incl_refl|]. intros _. constructor; [intros []|constructor].
  - destruct (aname_eqb m n) eqn:E; cbn [map fst].
    + apply (proj1 (aname_eqb_ok _ _)) in E. subst. split; [intros x; cbn; intuition|auto].
    + split; [intros x [->|Hx]; [cbn; auto|apply IH1 in Hx; cbn in *; intuition]|]. intros H. inversion H as [|? ? H1 H2]; subst. constructor; [|auto].
      intros H3. apply IH1 in H3. destruct H3 as [->|H3]; [rewrite aname_refl in E; discriminate|contradiction].
Qed.
Lemma put_nodup n v l : NoDup (map fst l) -> NoDup (map fst (put n v l)).
Proof. apply put_names. Qed.

Lemma geometry_gone {K} p arcs sheet (e e' : shape K) : NoDup (map fst (s_attrs e)) -> s_kind e <> KPath ->
  convert_shape p arcs sheet e = Some e' -> s_kind e' = KPath -> forall n, geometric (s_kind e) n = true -> n <> AD -> get n (s_attrs e') = None.
Proof.
  intros N Hk H H' n G Hn. unfold convert_shape in H. cbv zeta in H. destruct (mentions _ (lit "path")); [inversion H; subst; contradiction|].
  assert (S : Some e = Some e' -> get n (s_attrs e') = None) by (intros X; inversion X; subst; contradiction).
  unfold shape_element in H. destruct e as [k l ks]. cbn [s_kind s_attrs] in *.
  assert (R : forall m x, NoDup (map fst x) -> n = m -> get n (drop m x) = None) by (intros m x Hx ->; apply drop_gone; exact Hx).
  assert (T : forall m x, n <> m -> get n x = None -> get n (drop m x) = None) by (intros m x Hx Hg; rewrite get_drop; auto).
  destruct k; try (destruct (negb arcs || mentions _ _); [auto|]); try (destruct (mentions _ _); [auto|]); try (inversion H; subst; discriminate).
  - unfold rect_to_path in H. cbn [s_attrs] in H. destruct (has ARX l || has ARY l); [auto|].
    destruct (px_or_zero (get AX l)), (px_or_zero (get AY l)), (px_or_none (get AWidth l)), (px_or_none (get AHeight l)); auto.
    injection H as <-. cbn [s_attrs]. destruct n; try discriminate G; try congruence;
      repeat first [apply R; [repeat apply drop_nodup; apply put_nodup; exact N|reflexivity] | apply T; [discriminate|]].
  - unfold line_to_path in H. cbn [s_attrs] in H.
    destruct (px_or_zero (get AX1 l)), (px_or_zero (get AY1 l)), (px_or_zero (get AX2 l)), (px_or_zero (get AY2 l)); auto.
    injection H as <-. cbn [s_attrs]. destruct n; try discriminate G; try congruence;
      repeat first [apply R; [repeat apply drop_nodup; apply put_nodup; exact N|reflexivity] | apply T; [discriminate|]].
  - unfold poly_to_path in H. cbn [s_attrs] in H. destruct (get APoints l) as [[]|]; try discriminate. destruct (_ <=? 1); [discriminate|].
    injection H as <-. cbn [s_attrs]. destruct n; try discriminate G; try congruence.
    apply get_none. intros X. apply put_names in X. destruct X as [X|X]; [discriminate|]. revert X. apply get_none. apply drop_gone. exact N.
  - unfold poly_to_path in H. cbn [s_attrs] in H. destruct (get APoints l) as [[]|]; try discriminate. destruct (_ <=? 1); [discriminate|].
    injection H as <-. cbn [s_attrs]. destruct n; try discriminate G; try congruence.
    apply get_none. intros X. apply put_names in X. destruct X as [X|X]; [discriminate|]. revert X. apply get_none. apply drop_gone. exact N.
  - unfold circle_to_path in H. cbn [s_attrs] in H. destruct (px_or_zero (get ACX l)), (px_or_zero (get ACY l)), (px_or_zero (get AR l)); auto.
    injection H as <-. cbn [s_attrs]. destruct n; try discriminate G; try congruence;
      repeat first [apply R; [repeat apply drop_nodup; apply put_nodup; exact N|reflexivity] | apply T; [discriminate|]].
  - unfold ellipse_to_path in H. cbn [s_attrs] in H.
    destruct (px_or_zero (get ACX l)), (px_or_zero (get ACY l)), (px_or_zero (get ARX l)), (px_or_zero (get ARY l)); auto.
    injection H as <-. cbn [s_attrs]. destruct n; try discriminate G; try congruence;
      repeat first [apply R; [repeat apply drop_nodup; apply put_nodup; exact N|reflexivity] | apply T; [discriminate|]].
  - auto.
Qed.
