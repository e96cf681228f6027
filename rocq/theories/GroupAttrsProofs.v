(** Proofs about attributes of groups. *)
From Coq Require Import String List NArith ZArith Bool.
From Verif Require Import Chars NameModel AttrTable ElemTable ElemModel KnownModel GroupAttrsModel GroupAttrsSpec.
Import ListNotations.

Definition base_ok (k : kind) : bool := Bool.eqb (keep (ABase (BKnown k))) (negb (is_kind (ABase (BKnown k)) "VectorEffect" || is_kind (ABase (BKnown k)) "TransformOrigin")).
Definition alias_ok (k : kind) : bool :=
  Bool.eqb (if is_kind (ABase (BKnown k)) "VectorEffect" then false else negb (ElemModel.contains (kind_groups k) g_presentation) || inheritable_type (ABase (BKnown k)))
    (negb (is_kind (ABase (BKnown k)) "VectorEffect" || is_kind (ABase (BKnown k)) "TransformOrigin")).
Definition name_ok (k : kind) : bool :=
  if is_kind (ABase (BKnown k)) "VectorEffect" then text_eqb (kind_local k) (lit "vector-effect") else
  if is_kind (ABase (BKnown k)) "TransformOrigin" then text_eqb (kind_local k) (lit "transform-origin") else true.
Lemma table_ok : forallb (fun k => base_ok k && alias_ok k && name_ok k) attr_table = true.
Proof. vm_compute. reflexivity. Qed.
Lemma row_ok : forall k, In k attr_table -> base_ok k = true /\ alias_ok k = true /\ name_ok k = true.
Proof. intros k H. pose proof (proj1 (forallb_forall _ _) table_ok k H) as E. cbv beta in E. rewrite !andb_true_iff in E. tauto. Qed.
Local Opaque attr_table.

Lemma keep_exact : forall a, recognisable a -> keep a = negb (is_kind a "VectorEffect" || is_kind a "TransformOrigin").
Proof.
  intros a H. destruct a as [[k|q]|p [k|q]]; cbn [recognisable id_unaliased] in H.
  - apply row_ok in H. destruct H as (B & _). apply eqb_prop in B. exact B.
  - reflexivity.
  - apply row_ok in H. destruct H as (_ & A & _). apply eqb_prop in A.
    unfold keep. change (id_info (AAliased p (BKnown k))) with 0%N. change (is_kind (AAliased p (BKnown k)) ?x) with (is_kind (ABase (BKnown k)) x) in *.
    change (ElemModel.contains 0 non_inheritable_group) with false. rewrite orb_false_r. exact A.
  - reflexivity.
Qed.
Lemma is_kind_name : forall a, recognisable a -> is_kind a "VectorEffect" || is_kind a "TransformOrigin" = true -> id_local a = lit "vector-effect" \/ id_local a = lit "transform-origin".
Proof.
  intros a H E.
  assert (Q : exists k, id_unaliased a = BKnown k /\ In k attr_table).
  { unfold recognisable in H. destruct (id_unaliased a) as [k|q] eqn:U; [exists k; auto|]. unfold is_kind in E. rewrite U in E. discriminate. }
  destruct Q as (k & U & Hk). apply row_ok in Hk. destruct Hk as (_ & _ & N). unfold name_ok in N. unfold id_local, is_kind in *. rewrite U in *. cbn [base_local id_unaliased] in *.
  destruct (text_eqb (kind_id k) (lit "VectorEffect")) eqn:V; [left; apply text_eqb_spec; exact N|]. cbn [orb] in E. rewrite E in N. right. apply text_eqb_spec. exact N.
Qed.

Theorem element_exact : forall on e l, Forall (fun a => recognisable (fst a)) l ->
  element on e l = filter (fun a => negb (on && elem_is e (lit "G") && (is_kind (fst a) "VectorEffect" || is_kind (fst a) "TransformOrigin"))) l.
Proof.
  intros on e l H. unfold element. destruct (on && elem_is e (lit "G")).
  - apply filter_ext_in. intros a Ha. cbn [andb]. apply keep_exact. rewrite Forall_forall in H. apply H, Ha.
  - symmetry. clear H. induction l as [|a l IH]; [reflexivity|]. cbn [filter andb negb]. cbn [andb negb] in IH. rewrite IH. reflexivity.
Qed.

Lemma specified_kept : forall p l, Forall (fun a => recognisable (fst a)) l -> p <> lit "vector-effect" -> p <> lit "transform-origin" ->
  specified p (filter (fun a => keep (fst a)) l) = specified p l.
Proof.
  intros p l H V O. unfold specified. induction H as [|a l Ha H IH]; [reflexivity|]. cbn [filter find].
  destruct (keep (fst a)) eqn:K.
  - cbn [find]. destruct (match prefix_value (id_prefix (fst a)) with None => text_eqb (id_local (fst a)) p | Some _ => false end); [reflexivity|exact IH].
  - rewrite keep_exact in K by exact Ha. apply negb_false_iff in K. apply is_kind_name in K; [|exact Ha].
    assert (E : text_eqb (id_local (fst a)) p = false) by (apply text_eqb_neq; intros <-; destruct K; contradiction).
    rewrite E. destruct (prefix_value (id_prefix (fst a))); exact IH.
Qed.
Definition run (on : bool) (c : list node) : list node := map (fun n => (fst n, element on (fst n) (snd n))) c.
Theorem style_kept : forall inherits initial p on c, sound c -> p <> lit "vector-effect" -> p <> lit "transform-origin" ->
  computed inherits initial p (run on c) = computed inherits initial p c.
Proof.
  intros inherits initial p on c H V O. induction H as [|[e l] c Hn H IH]; [reflexivity|].
  assert (E : specified p (element on e l) = specified p l).
  { unfold element. destruct (on && elem_is e (lit "G")); [apply specified_kept; assumption|reflexivity]. }
  change (run on ((e, l) :: c)) with ((e, element on e l) :: run on c). cbn [computed snd]. rewrite IH, E. reflexivity.
Qed.
(** Of other elements than groups, which do not ask to inherit. *)
Theorem effect_kept : forall inherits initial p on e l c, inherits p = false -> elem_is e (lit "G") = false -> specified p l <> Some (lit "inherit") ->
  computed inherits initial p (run on ((e, l) :: c)) = computed inherits initial p ((e, l) :: c).
Proof.
  intros inherits initial p on e l c I G S. change (run on ((e, l) :: c)) with ((e, element on e l) :: run on c). cbn [computed snd]. unfold element. rewrite G, andb_false_r, I. destruct (specified p l) as [v|]; [|reflexivity].
  destruct (text_eqb v (lit "inherit")) eqn:E; [|reflexivity]. apply text_eqb_spec in E. subst v. destruct (S eq_refl).
Qed.
