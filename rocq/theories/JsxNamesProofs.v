From Coq Require Import String List NArith Bool.
From Verif Require Import Chars NameModel AttrTable ElemModel JsxNamesModel JsxNamesSpec.
Import ListNotations.

Definition ascii_alnum (c : N) : bool := is_alphanumeric (fun _ => false) c.
Definition known_ok (k : kind) : bool :=
  match look jsx_known (kind_id k) with
  | Some n => text_eqb n (spelling (kind_written k))
  | None => prefix_is_empty (PKnown (kind_prefix k)) && match look jsx_html (kind_local k) with None => true | Some _ => false end &&
      forallb ascii_alnum (kind_local k) && text_eqb (kind_local k) (spelling (kind_written k))
  end.
Lemma table_ok : forallb known_ok attr_table = true.
Proof. vm_compute. reflexivity. Qed.
Lemma alnum_ascii uni c : ascii_alnum c = true -> is_alphanumeric uni c = true.
Proof. unfold ascii_alnum, is_alphanumeric. destruct (c <? 128)%N; [trivial|discriminate]. Qed.
Lemma otext_refl a : otext_eqb a a = true.
Proof. destruct a; [apply text_eqb_refl|reflexivity]. Qed.
Lemma otext_eq a b : otext_eqb a b = true -> a = b.
Proof. destruct a, b; cbn; try discriminate; [|reflexivity]. intros H. apply text_eqb_spec in H. congruence. Qed.
Lemma known_named uni k : In k attr_table -> jsx_name uni (ABase (BKnown k)) = Named (spelling (kind_written k)).
Proof.
  intros H. pose proof (proj1 (forallb_forall _ _) table_ok k H) as K. unfold known_ok in K. unfold jsx_name. cbn [id_prefix id_unaliased]. rewrite otext_refl. cbn [negb].
  destruct (look jsx_known (kind_id k)) as [n|].
  - apply text_eqb_spec in K. rewrite <- K. reflexivity.
  - apply andb_prop in K. destruct K as [K K4]. apply andb_prop in K. destruct K as [K K3]. apply andb_prop in K. destruct K as [K1 K2].
    unfold jsx_other. change (id_prefix (ABase (BKnown k))) with (PKnown (kind_prefix k)). rewrite K1. cbn [negb].
    change (id_local (ABase (BKnown k))) with (kind_local k). destruct (look jsx_html (kind_local k)); [discriminate|].
    apply text_eqb_spec in K4. rewrite <- K4.
    replace (forallb (is_alphanumeric uni) (kind_local k)) with true; [reflexivity|].
    symmetry. apply forallb_forall. intros c Hc. apply alnum_ascii. apply (proj1 (forallb_forall _ _) K3 c Hc).
Qed.

(** Equal spellings of known attributes. *)
Definition clash (k l : kind) : bool := text_eqb (spelling (kind_written k)) (spelling (kind_written l)) && negb (text_eqb (kind_written k) (kind_written l)).
Definition rows : list (text * text) := Eval vm_compute in map (fun k => (kind_written k, spelling (kind_written k))) attr_table.
Lemma rows_ok : forallb (fun r => forallb (fun s => implb (text_eqb (snd r) (snd s)) (text_eqb (fst r) (fst s))) rows) rows = true.
Proof. vm_compute. reflexivity. Qed.
Lemma known_apart k l : In k attr_table -> In l attr_table -> spelling (kind_written k) = spelling (kind_written l) -> kind_written k = kind_written l.
Proof.
  intros Hk Hl E.
  assert (R : rows = map (fun k => (kind_written k, spelling (kind_written k))) attr_table) by (vm_compute; reflexivity).
  assert (A : forall x, In x attr_table -> In (kind_written x, spelling (kind_written x)) rows).
  { intros x Hx. rewrite R. apply (in_map (fun k => (kind_written k, spelling (kind_written k)))), Hx. }
  pose proof (proj1 (forallb_forall _ _) (proj1 (forallb_forall _ _) rows_ok _ (A k Hk)) _ (A l Hl)) as X. cbn [fst snd] in X.
  rewrite (proj2 (text_eqb_spec _ _) E) in X. apply text_eqb_spec. exact X.
Qed.

Lemma look_in t n m : look t n = Some m -> In (n, m) t.
Proof.
  unfold look. destruct (find _ t) as [[a b]|] eqn:F; [|discriminate]. cbn. intros [= <-]. apply find_some in F. destruct F as [F E].
  cbn in E. apply text_eqb_spec in E. subst. exact F.
Qed.
(** What the names of the remaining attributes are. *)
Lemma other_named uni a n : jsx_other uni a = Named n ->
  prefix_value (id_prefix a) = None /\ (In (id_local a, n) jsx_html \/ (n = id_local a /\ look jsx_html n = None /\ forallb (is_alphanumeric uni) n = true)).
Proof.
  unfold jsx_other, prefix_is_empty. destruct (prefix_value (id_prefix a)) as [p|]; [discriminate|]. cbn [negb].
  destruct (look jsx_html (id_local a)) as [m|] eqn:L.
  - intros [= <-]. split; [reflexivity|]. left. apply look_in. exact L.
  - destruct (forallb _ (id_local a)) eqn:F; [|discriminate]. intros [= <-]. split; [reflexivity|]. right. auto.
Qed.
(** An attribute that keeps its name is a known one, spelt as such, the declaration of xlink, one of HTML, or keeps its name as it is. *)
Inductive origin (a : attr_id) (n : text) : Prop :=
| o_known k : a = ABase (BKnown k) -> In (kind_id k, n) jsx_known -> origin a n
| o_xlink : id_written a = lit "xmlns:xlink" -> n = lit "xmlnsXlink" -> origin a n
| o_html : In (id_written a, n) jsx_html -> origin a n
| o_same : n = id_written a -> look jsx_html n = None -> origin a n.
Lemma name_origin uni a n : jsx_name uni a = Named n -> origin a n.
Proof.
  unfold jsx_name. destruct (otext_eqb _ _) eqn:P; [|discriminate]. cbn [negb]. apply otext_eq in P.
  assert (O : jsx_other uni a = Named n -> origin a n).
  { intros H. apply other_named in H. destruct H as [H [K|(K & L & _)]].
    - apply o_html. unfold id_written, written. rewrite H. exact K.
    - apply o_same; [|exact L]. unfold id_written, written. rewrite H. exact K. }
  destruct a as [[k|[p l]]|p b]; [| |exact O].
  - destruct (look jsx_known (kind_id k)) as [m|] eqn:L; [|exact O]. intros [= <-]. apply (o_known _ _ k eq_refl). apply look_in. exact L.
  - destruct p as [[]| |]; try exact O. destruct (text_eqb l (lit "xlink")) eqn:E; [|discriminate]. intros [= <-]. apply text_eqb_spec in E. subst l.
    apply o_xlink; reflexivity.
Qed.
(** Attributes of HTML are spelt apart, and not like known ones or the declaration of xlink. *)
Lemma html_apart : forallb (fun r => forallb (fun s => implb (text_eqb (snd r) (snd s)) (text_eqb (fst r) (fst s))) jsx_html &&
  forallb (fun s => negb (text_eqb (snd r) (snd s))) rows && negb (text_eqb (snd r) (lit "xmlnsXlink"))) jsx_html = true.
Proof. vm_compute. reflexivity. Qed.
Lemma xlink_apart : forallb (fun s => negb (text_eqb (lit "xmlnsXlink") (snd s))) rows = true.
Proof. vm_compute. reflexivity. Qed.
