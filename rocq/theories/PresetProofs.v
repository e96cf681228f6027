From Coq Require Import String List NArith ZArith QArith Bool Lia.
From Verif Require Import Chars NameModel AttrTable ElemModel TextModel JsxNamesModel JsxModel JsxSpec JsxProofs PresetModel PresetSpec.
Import ListNotations.

(** ** Properties of the svg element *)
Notation props := (list (text * option pval)).
Fixpoint setp (n : text) (v : option pval) (l : props) : props :=
  match l with [] => [(n, v)] | (m, w) :: r => if text_eqb m n then (m, v) :: r else (m, w) :: setp n v r end.
Definition dropp (l : props) : props := filter (fun p => negb (is_dimension (fst p))) l.
Definition bare_attr (a : jattr) : Prop := match a with JAttr _ _ => True | JSpread _ => False end.
Definition no_spread (l : list jattr) : Prop := Forall bare_attr l.

Lemma teq_sym a b : text_eqb a b = text_eqb b a.
Proof.
  destruct (text_eqb a b) eqn:A, (text_eqb b a) eqn:B; try reflexivity; exfalso.
  - apply text_eqb_spec in A. subst b. rewrite (proj2 (text_eqb_spec a a) eq_refl) in B. discriminate.
  - apply text_eqb_spec in B. subst b. rewrite (proj2 (text_eqb_spec a a) eq_refl) in A. discriminate.
Qed.
Lemma teq_refl a : text_eqb a a = true.
Proof. apply text_eqb_spec. reflexivity. Qed.
Lemma set_eval s n v l : no_spread l -> eval_attrs s (set_attribute n v l) = setp n (eval s v) (eval_attrs s l) /\ no_spread (set_attribute n v l).
Proof.
  induction 1 as [|[m w|x] l B F IH]; cbn [set_attribute]; [split; [reflexivity|repeat constructor]| |contradiction].
  destruct IH as [E N]. cbn [eval_attrs flat_map app setp]. destruct (text_eqb m n); (split; [|constructor; [exact Logic.I|assumption]]); cbn [eval_attrs flat_map app].
  - reflexivity.
  - unfold eval_attrs in E at 1. cbn [flat_map] in E |- *. f_equal. exact E.
Qed.
Lemma drop_eval s l : no_spread l -> eval_attrs s (drop_dimensions l) = dropp (eval_attrs s l) /\ no_spread (drop_dimensions l).
Proof.
  unfold drop_dimensions, dropp, is_dimension. induction 1 as [|[m w|x] l B F [E N]]; [split; constructor| |contradiction].
  cbn [eval_attrs flat_map app filter fst]. destruct (negb _); cbn [eval_attrs flat_map app].
  - split; [f_equal; exact E|constructor; [exact Logic.I|exact N]].
  - split; [exact E|exact N].
Qed.
Lemma setp_names n v l : NoDup (map fst l) -> NoDup (map fst (setp n v l)) /\ forall x, In x (map fst (setp n v l)) -> x = n \/ In x (map fst l).
Proof.
  induction l as [|(m & w) l IH]; cbn [setp map fst]; intros D.
  - split; [repeat constructor; auto|]. intros x [<-|[]]. auto.
  - inversion D as [|? ? D1 D2]; subst. destruct (text_eqb m n) eqn:E; cbn [map fst]; [split; [exact D|auto]|].
    destruct (IH D2) as [H1 H2]. split.
    + constructor; [|exact H1]. intros I. destruct (H2 _ I) as [X|X]; [|contradiction]. subst m. rewrite teq_refl in E. discriminate.
    + intros x [<-|I]; [right; left; reflexivity|]. destruct (H2 _ I); [auto|right; right; assumption].
Qed.
Lemma value_in k l : (forall v, ~ In (k, v) l) -> value_of k l = None.
Proof.
  induction l as [|(m & w) l IH]; intros N; cbn [value_of]; [reflexivity|]. rewrite IH by (intros v I; apply (N v); right; exact I).
  destruct (text_eqb m k) eqn:E; [|reflexivity]. apply text_eqb_spec in E. subst m. exfalso. apply (N w). left. reflexivity.
Qed.
Lemma setp_value k n v l : NoDup (map fst l) -> value_of k (setp n v l) = if text_eqb n k then Some v else value_of k l.
Proof.
  induction l as [|(m & w) l IH]; cbn [setp]; intros D; [cbn [value_of]; reflexivity|].
  inversion D as [|? ? D1 D2]; subst. destruct (text_eqb m n) eqn:E.
  - apply text_eqb_spec in E. subst m. cbn [value_of]. destruct (text_eqb n k) eqn:K; [|destruct (value_of k l); reflexivity].
    apply text_eqb_spec in K. subst k. rewrite value_in; [reflexivity|]. intros x I. apply D1. apply (in_map fst) in I. exact I.
  - cbn [value_of]. rewrite (IH D2). destruct (text_eqb n k) eqn:K; [|reflexivity]. reflexivity.
Qed.
Lemma dropp_value k l : value_of k (dropp l) = if is_dimension k then None else value_of k l.
Proof.
  unfold dropp. induction l as [|(m & w) l IH]; cbn [filter fst value_of]; [destruct (is_dimension k); reflexivity|].
  destruct (is_dimension m) eqn:M; cbn [negb value_of]; rewrite IH; destruct (is_dimension k) eqn:K; try reflexivity.
  - destruct (value_of k l); [reflexivity|]. destruct (text_eqb m k) eqn:E; [|reflexivity]. apply text_eqb_spec in E. subst m. congruence.
  - destruct (text_eqb m k) eqn:E; [|reflexivity]. apply text_eqb_spec in E. subst m. congruence.
Qed.
Lemma dropp_nodup l : NoDup (map fst l) -> NoDup (map fst (dropp l)).
Proof.
  unfold dropp. induction l as [|(m & w) l IH]; cbn [map fst filter]; intros D; [exact D|]. inversion D as [|? ? D1 D2]; subst.
  destruct (negb _); cbn [map fst]; [|apply IH, D2]. constructor; [|apply IH, D2]. intros I. apply D1. apply in_map_iff in I. destruct I as (p & <- & I).
  apply filter_In in I. apply in_map, I.
Qed.
Lemma fold_eval s vs l : no_spread l ->
  eval_attrs s (fold_left (fun l p => set_attribute (fst p) (snd p) l) vs l) =
  fold_left (fun l p => setp (fst p) (snd p) l) (map (fun p => (fst p, eval s (snd p))) vs) (eval_attrs s l) /\
  no_spread (fold_left (fun l p => set_attribute (fst p) (snd p) l) vs l).
Proof.
  revert l. induction vs as [|(n & v) vs IH]; intros l N; cbn [fold_left map fst snd]; [split; [reflexivity|exact N]|].
  destruct (set_eval s n v l N) as [E N']. rewrite <- E. apply IH, N'.
Qed.
Lemma fold_value k given l : NoDup (map fst l) ->
  value_of k (fold_left (fun l p => setp (fst p) (snd p) l) given l) = either (value_of k given) (value_of k l) /\
  NoDup (map fst (fold_left (fun l p => setp (fst p) (snd p) l) given l)).
Proof.
  revert l. induction given as [|(n & v) given IH]; intros l D; cbn [fold_left fst snd]; [split; [reflexivity|exact D]|].
  destruct (IH (setp n v l) (proj1 (setp_names n v l D))) as [E N]. split; [|exact N]. rewrite E, setp_value by exact D. cbn [value_of].
  destruct (value_of k given); [reflexivity|]. cbn [either]. destruct (text_eqb n k); reflexivity.
Qed.
Definition icon_set (x : option pval) (l : props) : props :=
  match x with Some v => setp (lit "height") (Some v) (setp (lit "width") (Some v) l) | None => l end.
Lemma icon_eval s o l : no_spread l -> eval_attrs s (set_icon (o_native o) (o_icon o) l) = icon_set (icon_value o) (eval_attrs s l) /\
  no_spread (set_icon (o_native o) (o_icon o) l).
Proof.
  intros N. unfold set_icon, icon_set, icon_value.
  assert (B : forall v p, eval s v = Some p -> eval_attrs s (set_attribute (lit "height") v (set_attribute (lit "width") v l)) =
                     setp (lit "height") (Some p) (setp (lit "width") (Some p) (eval_attrs s l)) /\ no_spread (set_attribute (lit "height") v (set_attribute (lit "width") v l))).
  { intros v p E. destruct (set_eval s (lit "width") v l N) as [E1 N1]. destruct (set_eval s (lit "height") v _ N1) as [E2 N2]. split; [|exact N2].
    rewrite E2, E1, E. reflexivity. }
  destruct (o_icon o) as [[[]|t|q]|]; try (apply B; reflexivity); try (split; [reflexivity|exact N]).
  destruct (o_native o); apply B; reflexivity.
Qed.
Definition opt_set (b : bool) (n : text) (v : option pval) (l : props) : props := if b then setp n v l else l.
Lemma opt_eval s (b : bool) n v l : no_spread l -> eval_attrs s (if b then set_attribute n v l else l) = opt_set b n (eval s v) (eval_attrs s l) /\
  no_spread (if b then set_attribute n v l else l).
Proof. intros N. destruct b; [apply set_eval, N|split; [reflexivity|exact N]]. Qed.
Lemma opt_value k (b : bool) n v l : NoDup (map fst l) -> value_of k (opt_set b n v l) = (if b && text_eqb k n then Some v else value_of k l) /\ NoDup (map fst (opt_set b n v l)).
Proof. intros D. unfold opt_set. destruct b; cbn [andb]; [|auto]. rewrite (setp_value k n v l D), (teq_sym n k). split; [reflexivity|]. apply setp_names, D. Qed.
Lemma svg_value s o vs l k : no_spread l -> NoDup (map fst (eval_attrs s l)) -> value_of k (eval_attrs s (svg_attrs o vs l)) = final s o (jval s vs) (eval_attrs s l) k.
Proof.
  intros N D. unfold svg_attrs.
  destruct (fold_eval s vs l N) as [E1 N1]. set (l1 := fold_left _ vs l) in *. fold (jval s vs) in E1.
  destruct (opt_eval s (o_ref o) (lit "ref") (JIdent (lit "ref")) l1 N1) as [E2 N2]. set (l2 := if o_ref o then _ else l1) in *.
  destruct (opt_eval s (o_title o) (lit "aria-labelledby") (JIdent (lit "titleId")) l2 N2) as [E3 N3]. set (l3 := if o_title o then _ else l2) in *.
  destruct (opt_eval s (o_desc o) (lit "aria-describedby") (JIdent (lit "descId")) l3 N3) as [E4 N4]. set (l4 := if o_desc o then _ else l3) in *.
  assert (E5 : eval_attrs s (if o_dimensions o then l4 else drop_dimensions l4) = (if o_dimensions o then eval_attrs s l4 else dropp (eval_attrs s l4)) /\
               no_spread (if o_dimensions o then l4 else drop_dimensions l4)).
  { destruct (o_dimensions o); [split; [reflexivity|exact N4]|apply drop_eval, N4]. }
  destruct E5 as [E5 N5]. set (l5 := if o_dimensions o then l4 else drop_dimensions l4) in *.
  destruct (icon_eval s o l5 N5) as [E6 N6]. set (l6 := set_icon _ _ l5) in *.
  assert (V : value_of k (eval_attrs s l6) = own s o (jval s vs) (eval_attrs s l) k).
  { destruct (fold_value k (jval s vs) (eval_attrs s l) D) as [V1 D1]. rewrite <- E1 in V1, D1.
    destruct (opt_value k (o_ref o) (lit "ref") (eval s (JIdent (lit "ref"))) _ D1) as [V2 D2]. rewrite <- E2 in V2, D2.
    destruct (opt_value k (o_title o) (lit "aria-labelledby") (eval s (JIdent (lit "titleId"))) _ D2) as [V3 D3]. rewrite <- E3 in V3, D3.
    destruct (opt_value k (o_desc o) (lit "aria-describedby") (eval s (JIdent (lit "descId"))) _ D3) as [V4 D4]. rewrite <- E4 in V4, D4.
    assert (V5 : value_of k (eval_attrs s l5) = (if is_dimension k then (if o_dimensions o then value_of k (eval_attrs s l4) else None) else value_of k (eval_attrs s l4)) /\ NoDup (map fst (eval_attrs s l5))).
    { rewrite E5. destruct (o_dimensions o); [destruct (is_dimension k); auto|]. rewrite dropp_value. split; [reflexivity|apply dropp_nodup, D4]. }
    destruct V5 as [V5 D5]. rewrite E6. unfold icon_set, own.
    assert (VD : is_dimension k = true -> value_of k (eval_attrs s l4) = either (value_of k (jval s vs)) (value_of k (eval_attrs s l))).
    { intros K. rewrite V4, V3, V2, V1. unfold is_dimension in K. apply orb_true_iff in K.
      destruct K as [K|K]; apply text_eqb_spec in K; subst k; vm_compute (text_eqb _ _); rewrite !andb_false_r; reflexivity. }
    destruct (is_dimension k) eqn:K.
    - destruct (icon_value o) as [v|].
      + rewrite !setp_value by (try exact D5; apply setp_names, D5). unfold is_dimension in K. apply orb_true_iff in K.
        rewrite (teq_sym (lit "height")), (teq_sym (lit "width")). destruct K as [K|K]; rewrite K; [|reflexivity]. destruct (text_eqb k (lit "height")); reflexivity.
      + rewrite V5. destruct (o_dimensions o); [apply VD; reflexivity|reflexivity].
    - assert (X : value_of k (icon_set (icon_value o) (eval_attrs s l5)) = value_of k (eval_attrs s l5)).
      { unfold icon_set. destruct (icon_value o) as [v|]; [|reflexivity]. rewrite !setp_value by (try exact D5; apply setp_names, D5).
        unfold is_dimension in K. apply orb_false_iff in K. rewrite (teq_sym (lit "height")), (teq_sym (lit "width")), (proj1 K), (proj2 K). reflexivity. }
      unfold icon_set in X. rewrite X, V5, V4, V3, V2, V1. reflexivity. }
  unfold final. destruct (o_expand o); cbn [expand_props].
  - cbn [eval_attrs flat_map]. assert (A : forall a b, value_of k (a ++ b) = either (value_of k b) (value_of k a)).
    { induction a as [|(m & w) a IH]; intros b; cbn [app value_of]; [destruct (value_of k b); reflexivity|]. rewrite IH. destruct (value_of k b); reflexivity. }
    rewrite A. f_equal. exact V.
  - unfold eval_attrs. rewrite flat_map_app. cbn [flat_map]. rewrite app_nil_r.
    assert (A : forall a b, value_of k (a ++ b) = either (value_of k b) (value_of k a)).
    { induction a as [|(m & w) a IH]; intros b; cbn [app value_of]; [destruct (value_of k b); reflexivity|]. rewrite IH. destruct (value_of k b); reflexivity. }
    rewrite A. f_equal. exact V.
  - exact V.
Qed.
