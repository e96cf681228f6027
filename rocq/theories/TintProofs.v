From Coq Require Import List NArith Bool.
From Verif Require Import TintModel TintSpec.
Import ListNotations.

(** ** Lists of elements instead of trees *)
Fixpoint walk (m : method) (above : list celem) (es : list celem) : list celem :=
  match es with [] => [] | e :: es => convert_element m above e :: walk m (convert_element m above e :: above) es end.
Lemma chain_walk m p : forall above t es, chain t p = Some es -> chain (convert_tree m above t) p = Some (walk m above es).
Proof.
  induction p as [|i p IH]; intros above [e kids] es C; cbn [chain convert_tree] in *.
  - injection C as <-. reflexivity.
  - rewrite nth_error_map. destruct (nth_error kids i) as [k|]; [|discriminate]. cbn [option_map]. destruct (chain k p) as [l|] eqn:E; [|discriminate]. injection C as <-.
    rewrite (IH _ _ _ E). reflexivity.
Qed.
Lemma walk_unmasked above es : existsb c_mask above = false -> Forall (fun e => c_mask e = false) es -> walk CurrentColor above es = map (fun e => mkCelem (c_mask e) (map (convert_attr CurrentColor) (c_attrs e))) es.
Proof.
  intros A F. revert above A. induction F as [|e es E F IH]; intros above A; [reflexivity|]. cbn [walk map]. unfold convert_element at 1 2. rewrite E, A. cbn [orb andb]. f_equal. apply IH. cbn [existsb c_mask]. rewrite A. reflexivity.
Qed.
Lemma lightning_attr v : visit_attr Lightning v = v.
Proof. destruct v as [c|[|c|u f|n]|c n| |n]; reflexivity. Qed.
Lemma lightning_decl v : visit_decl Lightning v = v.
Proof. destruct v as [c|[|c|u [[|c]|]|n]|c n| |n]; reflexivity. Qed.
Lemma lightning_element e : map (convert_attr Lightning) (c_attrs e) = c_attrs e.
Proof.
  rewrite <- map_id. apply map_ext. intros [decls|n v]; cbn [convert_attr]; [|rewrite lightning_attr; reflexivity]. f_equal. rewrite <- map_id. apply map_ext. intros [q v]. cbn [fst snd]. rewrite lightning_decl. reflexivity.
Qed.
Lemma walk_masked above es : existsb c_mask above = true -> walk CurrentColor above es = es.
Proof.
  revert above. induction es as [|e es IH]; intros above A; [reflexivity|]. cbn [walk]. assert (E : convert_element CurrentColor above e = e).
  { unfold convert_element. rewrite A, orb_true_r. cbn [andb]. rewrite lightning_element. destruct e; reflexivity. }
  rewrite E, IH; [reflexivity|]. cbn [existsb]. rewrite A, orb_true_r. reflexivity.
Qed.
Lemma walk_mask above outside m below : existsb c_mask above = false -> Forall (fun e => c_mask e = false) outside -> c_mask m = true ->
  walk CurrentColor above (outside ++ m :: below) = map (fun e => mkCelem (c_mask e) (map (convert_attr CurrentColor) (c_attrs e))) outside ++ m :: below.
Proof.
  intros A F M. revert above A. induction F as [|e es E F IH]; intros above A.
  - cbn [app walk map]. assert (E : convert_element CurrentColor above m = m). { unfold convert_element. rewrite M. cbn [orb andb]. rewrite lightning_element, <- M. destruct m; reflexivity. }
    rewrite E, walk_masked; [reflexivity|]. cbn [existsb]. rewrite M. reflexivity.
  - cbn [app walk map]. unfold convert_element at 1 2. rewrite E, A. cbn [orb andb]. f_equal. apply IH. cbn [existsb c_mask]. rewrite A. reflexivity.
Qed.
(** ** Values of an element *)
Lemma find_decl q (decls : list (N * cvalue)) (f : cvalue -> cvalue) : find (fun d : N * cvalue => N.eqb (fst d) q) (rev (map (fun d => (fst d, f (snd d))) decls)) = option_map (fun d => (fst d, f (snd d))) (find (fun d => N.eqb (fst d) q) (rev decls)).
Proof. rewrite <- map_rev. induction (rev decls) as [|d l IH]; [reflexivity|]. cbn [map find fst]. destruct (N.eqb (fst d) q); [reflexivity|exact IH]. Qed.
Lemma decl_current v : visit_decl CurrentColor v = to_current v.
Proof. destruct v as [c|[|c|u [[|c]|]|n]|c n| |n]; reflexivity. Qed.
Lemma attr_current v : (forall u c, v <> VPaint (PUrl u (Some (FColor c)))) -> visit_attr CurrentColor v = to_current v.
Proof. intros H. destruct v as [c|[|c|u [[|c]|]|n]|c n| |n]; try reflexivity. exfalso. eapply H. reflexivity. Qed.
Definition recolour (e : celem) : celem := mkCelem (c_mask e) (map (convert_attr CurrentColor) (c_attrs e)).
Lemma declared_recolour q a : declared q (convert_attr CurrentColor a) = option_map to_current (declared q a).
Proof.
  destruct a as [decls|n v]; [|reflexivity]. cbn [convert_attr declared]. rewrite (find_decl q decls (visit_decl CurrentColor)). destruct (find _ (rev decls)) as [d|]; [|reflexivity]. cbn [option_map snd]. rewrite decl_current. reflexivity.
Qed.
Lemma first_map {A B} (f : A -> option B) (g : A -> A) (h : B -> B) l : (forall x, In x l -> f (g x) = option_map h (f x)) -> first f (map g l) = option_map h (first f l).
Proof. intros H. induction l as [|x l IH]; [reflexivity|]. cbn [map first]. rewrite (H x (or_introl eq_refl)). destruct (f x); [reflexivity|]. apply IH. intros y Hy. apply H. right. exact Hy. Qed.
Lemma own_recolour e q : no_fallback e -> own (recolour e) q = option_map to_current (own e q).
Proof.
  intros NF. unfold own, recolour. cbn [c_attrs]. rewrite (first_map (declared q) (convert_attr CurrentColor) to_current) by (intros x _; apply declared_recolour).
  rewrite (first_map (attribute q) (convert_attr CurrentColor) to_current).
  - destruct (first (declared q) (c_attrs e)); reflexivity.
  - intros [decls|n v] Hin; [reflexivity|]. cbn [convert_attr attribute]. destruct (N.eqb n q); [|reflexivity]. cbn [option_map]. rewrite attr_current; [reflexivity|]. intros u c C. subst v. exact (NF n u c Hin).
Qed.
(** ** Colours along a chain *)
Lemma first_plain q l : match first (declared q) (map (convert_attr CurrentColor) l) with Some (VColor (Rgb _)) => False | _ => True end.
Proof.
  rewrite (first_map (declared q) (convert_attr CurrentColor) to_current) by (intros x _; apply declared_recolour). destruct (first (declared q) l) as [[c|[|c|u [[|c]|]|n]|c n| |n]|]; exact Logic.I.
Qed.
Lemma own_plain e q : match own (recolour e) q with Some (VColor (Rgb _)) => False | _ => True end.
Proof.
  unfold own, recolour. cbn [c_attrs]. assert (F := first_plain q (c_attrs e)). destruct (first (declared q) (map (convert_attr CurrentColor) (c_attrs e))) as [v|]; [exact F|].
  clear F. induction (c_attrs e) as [|[decls|n v] l IH]; [exact Logic.I|exact IH|]. cbn [map first convert_attr attribute]. destruct (N.eqb n q); [|exact IH]. destruct v as [c|[|c|u [[|c]|]|m]|c m| |m]; exact Logic.I.
Qed.
Lemma colour_outer outer es : colour_at outer (map recolour es) = outer.
Proof.
  unfold colour_at. induction es as [|e es IH]; [reflexivity|]. cbn [map fold_left]. assert (P := own_plain e 0). destruct (own (recolour e) 0) as [[[|n]|p|c n| |n]|]; try exact IH. destruct P.
Qed.
Lemma value_current inherits q es : Forall no_fallback es -> forall v, value_at inherits q (option_map to_current v) (map recolour es) = option_map to_current (value_at inherits q v es).
Proof.
  intros F. unfold value_at. induction F as [|e es NF F IH]; intros v; [reflexivity|]. cbn [map fold_left]. rewrite (own_recolour e q NF).
  rewrite <- IH. f_equal. destruct (own e q) as [[c|[|c|u [[|c]|]|n]|c n| |n]|]; cbn [option_map]; try reflexivity. destruct (inherits q); reflexivity.
Qed.
Lemma converted_ok inherits t p es outer q : chain t p = Some es -> Forall (fun e => c_mask e = false) es -> Forall no_fallback es ->
  exists es', chain (convert (Some CurrentColor) t) p = Some es' /\ colour_at outer es' = outer /\ value_at inherits q None es' = option_map to_current (value_at inherits q None es).
Proof.
  intros C M F. exists (map recolour es). split; [|split].
  - unfold convert. rewrite (chain_walk CurrentColor p [] t es C). f_equal. apply walk_unmasked; [reflexivity|exact M].
  - apply colour_outer.
  - exact (value_current inherits q es F None).
Qed.
Lemma masks_ok inherits t p outside m below outer q : chain t p = Some (outside ++ m :: below) -> Forall (fun e => c_mask e = false) outside -> c_mask m = true ->
  (forall c c', colour_at c (m :: below) = colour_at c' (m :: below)) -> (forall v v', value_at inherits q v (m :: below) = value_at inherits q v' (m :: below)) ->
  exists es', chain (convert (Some CurrentColor) t) p = Some es' /\ colour_at outer es' = colour_at outer (outside ++ m :: below) /\ value_at inherits q None es' = value_at inherits q None (outside ++ m :: below).
Proof.
  intros C F M HC HV. exists (map recolour outside ++ m :: below). split; [|split].
  - unfold convert. rewrite (chain_walk CurrentColor p [] t _ C). f_equal. apply walk_mask; [reflexivity|exact F|exact M].
  - unfold colour_at. rewrite !fold_left_app. apply HC.
  - unfold value_at. rewrite !fold_left_app. apply HV.
Qed.
Lemma default_ok t : convert None t = t /\ convert (Some Lightning) t = t.
Proof. split; reflexivity. Qed.
Lemma twice_element above e : convert_element CurrentColor above (convert_element CurrentColor above e) = convert_element CurrentColor above e.
Proof.
  unfold convert_element. cbn [c_mask c_attrs]. destruct (c_mask e || existsb c_mask above); cbn [andb].
  - rewrite lightning_element. f_equal. apply (lightning_element (mkCelem (c_mask e) (c_attrs e))).
  - f_equal. rewrite map_map. apply map_ext. intros [decls|n v]; cbn [convert_attr].
    + f_equal. rewrite map_map. apply map_ext. intros [q v]. cbn [fst snd]. f_equal. destruct v as [c|[|c|u [[|c]|]|k]|c k| |k]; reflexivity.
    + f_equal. destruct v as [c|[|c|u [[|c]|]|k]|c k| |k]; reflexivity.
Qed.
Section Induction.
  Variable P : ctree -> Prop.
  Hypothesis H : forall e kids, Forall P kids -> P (CNode e kids).
  Fixpoint ctree_ind2 (t : ctree) : P t :=
    match t with CNode e kids => H e kids ((fix go l : Forall P l := match l with [] => Forall_nil _ | x :: l => Forall_cons _ (ctree_ind2 x) (go l) end) kids) end.
End Induction.
Lemma twice_tree t : forall above, convert_tree CurrentColor above (convert_tree CurrentColor above t) = convert_tree CurrentColor above t.
Proof.
  induction t as [e kids IH] using ctree_ind2. intros above. cbn [convert_tree]. rewrite twice_element. f_equal. rewrite map_map. apply map_ext_in. intros k Hk. rewrite Forall_forall in IH. apply IH, Hk.
Qed.
Lemma twice m t : convert m (convert m t) = convert m t.
Proof. destruct m as [[|]|]; [reflexivity| |reflexivity]. apply twice_tree. Qed.

(** ** Examples: fill is property 1, and inherited *)
Definition inherited (q : N) : bool := N.leb q 2.
Definition leaf (attrs : list cattr) : ctree := CNode (mkCelem false attrs) [].
Definition fill (n : N) : cattr := AAttr 1 (VPaint (PColor (Rgb n))).
Definition mask_doc : ctree := CNode (mkCelem false [fill 255]) [CNode (mkCelem true []) [leaf []]].
Lemma inherit_refuted : exists t p outside m below, chain t p = Some (outside ++ m :: below) /\ c_mask m = true /\ exists es', chain (convert (Some CurrentColor) t) p = Some es' /\ value_at inherited 1 None es' <> value_at inherited 1 None (outside ++ m :: below).
Proof. exists mask_doc, [0; 0]%nat, [mkCelem false [fill 255]], (mkCelem true []), [mkCelem false []]. split; [reflexivity|]. split; [reflexivity|]. eexists. split; [vm_compute; reflexivity|]. vm_compute. discriminate. Qed.
Lemma fallback_refuted : exists t p es u n, chain t p = Some es /\ Forall (fun e => c_mask e = false) es /\ exists es', chain (convert (Some CurrentColor) t) p = Some es' /\ value_at inherited 1 None es' = Some (VPaint (PUrl u (Some (FColor (Rgb n))))).
Proof.
  exists (leaf [AAttr 1 (VPaint (PUrl 7 (Some (FColor (Rgb 9)))))]), [], [mkCelem false [AAttr 1 (VPaint (PUrl 7 (Some (FColor (Rgb 9)))))]], 7%N, 9%N. split; [reflexivity|]. split; [constructor; [reflexivity|constructor]|].
  eexists. split; vm_compute; reflexivity.
Qed.
Definition sample : ctree := CNode (mkCelem false [AAttr 0 (VColor (Rgb 3)); AStyle [(1, VPaint (PUrl 4 (Some (FColor (Rgb 5)))))]]%N) [leaf [AAttr 2 (VPaint PNone)]; CNode (mkCelem true [fill 6; AAttr 0 (VColor (Rgb 8))]) [leaf []]].
Lemma sample_ok : (exists es, chain sample [0] = Some es /\ Forall (fun e => c_mask e = false) es /\ Forall no_fallback es) /\
  (exists outside m below, chain sample [1; 0] = Some (outside ++ m :: below) /\ Forall (fun e => c_mask e = false) outside /\ c_mask m = true /\
    (forall c c', colour_at c (m :: below) = colour_at c' (m :: below)) /\ forall v v', value_at inherited 1 v (m :: below) = value_at inherited 1 v' (m :: below)) /\
  convert (Some CurrentColor) sample = CNode (mkCelem false [AAttr 0 (VColor Current); AStyle [(1, VPaint (PUrl 4 (Some (FColor Current))))]]%N) [leaf [AAttr 2 (VPaint PNone)]; CNode (mkCelem true [fill 6; AAttr 0 (VColor (Rgb 8))]) [leaf []]].
Proof.
  split; [|split; [|reflexivity]].
  - eexists. split; [reflexivity|]. split; [repeat (apply Forall_cons; [reflexivity|]); apply Forall_nil|]. repeat (apply Forall_cons; [intros q u c C; cbn in C; repeat (destruct C as [C|C]; [discriminate|]); exact C|]). apply Forall_nil.
  - exists [mkCelem false [AAttr 0 (VColor (Rgb 3)); AStyle [(1, VPaint (PUrl 4 (Some (FColor (Rgb 5)))))]]%N], (mkCelem true [fill 6; AAttr 0 (VColor (Rgb 8))]), [mkCelem false []]. split; [reflexivity|]. split; [repeat (apply Forall_cons; [reflexivity|]); apply Forall_nil|]. split; [reflexivity|]. split; reflexivity.
Qed.
