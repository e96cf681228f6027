(** Proofs about the removal of what is not drawn. *)
From Coq Require Import String List NArith Bool.
From Verif Require Import Chars StripModel StripSpec.
Import ListNotations.

Section Induction.
  Variable P : node -> Prop.
  Hypothesis HE : forall m d ds l k, Forall P k -> P (Elem m d ds l k).
  Hypothesis HT : forall t, P (Text t).
  Hypothesis HD : forall t, P (CData t).
  Hypothesis HC : forall t, P (Comment t).
  Hypothesis HI : forall t u, P (Instruction t u).
  Hypothesis HO : forall t, P (Doctype t).
  Fixpoint node_induction (n : node) : P n :=
    match n with
    | Elem m d ds l k => HE m d ds l k ((fix all l : Forall P l := match l return Forall P l with [] => Forall_nil P | x :: r => Forall_cons x (node_induction x) (all r) end) k)
    | Text t => HT t
    | CData t => HD t
    | Comment t => HC t
    | Instruction t u => HI t u
    | Doctype t => HO t
    end.
End Induction.
Lemma all_forall : forall (P : node -> Prop) l, (fix all l := match l with [] => True | x :: r => P x /\ all r end) l <-> Forall P l.
Proof.
  intros P l. induction l as [|x r IH]; [split; [constructor|exact (fun _ => I)]|]. split.
  - intros [A B]. constructor; [exact A|apply IH, B].
  - intros H. inversion H; subst. split; [assumption|apply IH; assumption].
Qed.
Lemma filter_true : forall {A} (l : list A), filter (fun _ => true) l = l.
Proof. intros A l. induction l as [|x l IH]; [reflexivity|]. cbn [filter]. rewrite IH. reflexivity. Qed.
Lemma flat_flat : forall (f g : node -> list node) k, Forall (fun n => flat_map g (f n) = g n) k -> flat_map g (flat_map f k) = flat_map g k.
Proof. intros f g k H. induction H as [|x k E H IH]; [reflexivity|]. cbn [flat_map]. rewrite flat_map_app, E, IH. reflexivity. Qed.
Lemma flat_one : forall (g : node -> list node) x, flat_map g [x] = g x.
Proof. intros g x. cbn [flat_map]. apply app_nil_r. Qed.

(** * What is drawn *)
Lemma strip_rendered : forall drop kd ka,
  (forall m d ds l k, drop (Elem m d ds l k) = true -> drawn m = false) -> (forall t, drop (Text t) = false) -> (forall t, drop (CData t) = false) ->
  (forall a, ka a = false -> meaningful (fst a) = false) ->
  forall n, flat_map rendered (strip drop kd ka n) = rendered n.
Proof.
  intros drop kd ka HE HT HD HA. induction n using node_induction; cbn [strip].
  - destruct (drop (Elem m d ds l k)) eqn:E.
    + cbn [flat_map rendered]. rewrite (HE m d ds l k E). reflexivity.
    + rewrite flat_one. cbn [rendered]. destruct (drawn m); [|reflexivity]. do 2 f_equal.
      * clear E H. induction l as [|a l IH]; [reflexivity|]. cbn [filter]. destruct (ka a) eqn:K; cbn [filter]; [rewrite IH; reflexivity|]. rewrite (HA a K). exact IH.
      * apply flat_flat, H.
  - rewrite HT. reflexivity.
  - rewrite HD. reflexivity.
  - destruct (drop (Comment t)); reflexivity.
  - destruct (drop (Instruction t u)); reflexivity.
  - destruct (drop (Doctype t)); reflexivity.
Qed.
Lemma without_rendered : forall drop,
  (forall m d ds l k, drop (Elem m d ds l k) = true -> drawn m = false) -> (forall t, drop (Text t) = false) -> (forall t, drop (CData t) = false) ->
  forall d, flat_map rendered (without drop d) = flat_map rendered d.
Proof.
  intros drop HE HT HD d. unfold without. apply flat_flat, Forall_forall. intros n _. apply strip_rendered; try assumption. intros a E. discriminate.
Qed.
(** * What selectors see *)
Lemma strip_elements : forall drop, (forall m d ds l k, drop (Elem m d ds l k) = false) -> (forall t, drop (Text t) = false) -> (forall t, drop (CData t) = false) ->
  forall d, flat_map elements (without drop d) = flat_map elements d.
Proof.
  intros drop HE HT HD d. unfold without. apply flat_flat, Forall_forall. intros n _. clear d. induction n using node_induction; cbn [strip].
  - rewrite HE, flat_one. cbn [elements]. rewrite !filter_true. do 2 f_equal. apply flat_flat, H.
  - rewrite HT. reflexivity.
  - rewrite HD. reflexivity.
  - destruct (drop (Comment t)); reflexivity.
  - destruct (drop (Instruction t u)); reflexivity.
  - destruct (drop (Doctype t)); reflexivity.
Qed.

Lemma svg_descriptive : forall s m, is_svg s m = true -> In s ["metadata"; "title"; "desc"]%string -> drawn m = false.
Proof.
  intros s m H S. unfold is_svg in H. apply andb_true_iff in H. destruct H as [U L]. unfold drawn, descriptive. rewrite U. cbn [orb andb].
  apply text_eqb_spec in L. rewrite L. apply negb_false_iff, existsb_exists. exists s. split; [exact S|apply text_eqb_refl].
Qed.
Theorem metadata_rendered : forall on d, flat_map rendered (remove_metadata on d) = flat_map rendered d.
Proof. intros [|] d; [|reflexivity]. apply without_rendered; try reflexivity. intros m e ds l k E. apply (svg_descriptive "metadata" m E). vm_compute. tauto. Qed.
Theorem title_rendered : forall on d, flat_map rendered (remove_title on d) = flat_map rendered d.
Proof. intros [|] d; [|reflexivity]. apply without_rendered; try reflexivity. intros m e ds l k E. apply (svg_descriptive "title" m E). vm_compute. tauto. Qed.
Theorem desc_rendered : forall any d, flat_map rendered (remove_desc any d) = flat_map rendered d.
Proof. intros any d. apply without_rendered; try reflexivity. intros m e ds l k E. apply andb_true_iff in E. apply (svg_descriptive "desc" m (proj1 E)). vm_compute. tauto. Qed.
Theorem comments_elements : forall ps d d', remove_comments ps d = Some d' -> flat_map elements d' = flat_map elements d.
Proof.
  intros ps d d' E. unfold remove_comments in E. destruct (existsb _ _); [discriminate|]. injection E as <-. apply strip_elements; reflexivity.
Qed.
Theorem doctype_elements : forall on d, flat_map elements (remove_doctype on d) = flat_map elements d.
Proof. intros [|] d; [|reflexivity]. apply strip_elements; reflexivity. Qed.
Theorem proc_inst_elements : forall on d, flat_map elements (remove_proc_inst on d) = flat_map elements d.
Proof. intros [|] d; [|reflexivity]. apply strip_elements; reflexivity. Qed.
Definition standing : list text := [svg_uri; xhtml_uri; xlink_uri; xml_uri].
Lemma editors_standing : forallb (fun u => negb (existsb (text_eqb u) editor_namespaces)) standing = true.
Proof. vm_compute. reflexivity. Qed.
Lemma goes_standing : forall add u, (forall u, In u standing -> ~ In u add) -> goes add u = true -> ~ In u standing.
Proof.
  intros add u H G S. pose proof (proj1 (forallb_forall _ _) editors_standing u S) as E. apply negb_true_iff in E. unfold goes in G. rewrite E in G. cbn [orb] in G.
  apply existsb_exists in G. destruct G as (x & X & Y). apply text_eqb_spec in Y. subst x. exact (H u S X).
Qed.
Lemma standing_in : forall u l, In u l -> existsb (text_eqb u) l = true.
Proof. intros u l H. apply existsb_exists. exists u. split; [exact H|apply text_eqb_refl]. Qed.
Theorem editors_rendered : forall add d, (forall u, In u standing -> ~ In u add) -> flat_map rendered (remove_editors add d) = flat_map rendered d.
Proof.
  intros add d H. unfold remove_editors. apply flat_flat, Forall_forall. intros n _. apply strip_rendered; try reflexivity.
  - intros m e ds l k G. pose proof (goes_standing add _ H G) as S. unfold drawn.
    destruct (text_eqb (n_uri m) svg_uri) eqn:A; [apply text_eqb_spec in A; destruct S; rewrite A; left; reflexivity|].
    destruct (text_eqb (n_uri m) xhtml_uri) eqn:B; [apply text_eqb_spec in B; destruct S; rewrite B; right; left; reflexivity|reflexivity].
  - intros a G. apply negb_false_iff in G. pose proof (goes_standing add _ H G) as S. unfold meaningful. destruct (existsb _ _) eqn:E; [|reflexivity]. exfalso.
    apply existsb_exists in E. destruct E as (x & X & Y). apply text_eqb_spec in Y. apply S. rewrite Y. destruct X as [<-|[<-|[<-|[]]]]; unfold standing; cbn [In]; tauto.
Qed.

(** * Stylesheets, ids and the like *)
Definition within {A : Type} (drop : node -> bool) (f : name -> list (name * text) -> list node -> list A) (n : node) : Prop := drop n = true -> collect f n = [].
Lemma flat_collect : forall {A} (f : name -> list (name * text) -> list node -> list A) (g : node -> list node) k,
  Forall (fun n => flat_map (collect f) (g n) = collect f n) k -> flat_map (collect f) (flat_map g k) = flat_map (collect f) k.
Proof. intros A f g k H. induction H as [|x k E H IH]; [reflexivity|]. cbn [flat_map]. rewrite flat_map_app, E, IH. reflexivity. Qed.
Lemma strip_collect : forall {A} (p : name -> bool) (f : name -> list (name * text) -> list node -> list A) drop,
  (forall m d ds l k, drop (Elem m d ds l k) = true -> p m = true) -> (forall m l k, f m l (flat_map (strip drop (fun _ => true) (fun _ => true)) k) = f m l k) ->
  forall n, none_within p f n -> flat_map (collect f) (strip drop (fun _ => true) (fun _ => true) n) = collect f n.
Proof.
  intros A p f drop HE HF. induction n using node_induction; intros N; cbn [strip].
  - cbn [none_within] in N. destruct N as [N1 N2]. destruct (drop (Elem m d ds l k)) eqn:E.
    + rewrite (N1 (HE _ _ _ _ _ E)). reflexivity.
    + cbn [flat_map collect]. rewrite app_nil_r, !filter_true, HF. f_equal. apply all_forall in N2. apply flat_collect.
      rewrite Forall_forall in *. intros x Hx. apply H; [exact Hx|apply N2, Hx].
  - destruct (drop (Text t)); reflexivity.
  - destruct (drop (CData t)); reflexivity.
  - destruct (drop (Comment t)); reflexivity.
  - destruct (drop (Instruction t u)); reflexivity.
  - destruct (drop (Doctype t)); reflexivity.
Qed.
Lemma texts_kept : forall drop, (forall t, drop (Text t) = false) -> (forall t, drop (CData t) = false) -> forall k,
  flat_map (fun n => match n with Text t | CData t => t | _ => [] end) (flat_map (strip drop (fun _ => true) (fun _ => true)) k) = flat_map (fun n => match n with Text t | CData t => t | _ => [] end) k.
Proof.
  intros drop HT HD k. induction k as [|n k IH]; [reflexivity|]. cbn [flat_map]. rewrite flat_map_app, IH. f_equal.
  destruct n; cbn [strip]; rewrite ?HT, ?HD; cbn [flat_map]; rewrite ?app_nil_r; try reflexivity; match goal with |- context [drop ?x] => destruct (drop x) end; reflexivity.
Qed.
Lemma without_collect : forall {A} (p : name -> bool) (f : name -> list (name * text) -> list node -> list A) drop,
  (forall m d ds l k, drop (Elem m d ds l k) = true -> p m = true) -> (forall m l k, f m l (flat_map (strip drop (fun _ => true) (fun _ => true)) k) = f m l k) ->
  forall d, Forall (none_within p f) d -> flat_map (collect f) (without drop d) = flat_map (collect f) d.
Proof. intros A p f drop HE HF d H. unfold without. apply flat_collect. rewrite Forall_forall in *. intros n Hn. apply (strip_collect p); [exact HE|exact HF|apply H, Hn]. Qed.
Lemma without_sheets : forall drop, (forall t, drop (Text t) = false) -> (forall t, drop (CData t) = false) -> (forall m d ds l k, drop (Elem m d ds l k) = true -> descriptive m = true) ->
  forall d, Forall (none_within descriptive stylesheets) d -> flat_map (collect stylesheets) (without drop d) = flat_map (collect stylesheets) d.
Proof.
  intros drop HT HD HE d H. apply (without_collect descriptive); [exact HE| |exact H]. intros m l k. unfold stylesheets. destruct (is_svg "style" m); [|reflexivity]. f_equal. apply texts_kept; assumption.
Qed.
Lemma without_ids : forall drop, (forall m d ds l k, drop (Elem m d ds l k) = true -> descriptive m = true) ->
  forall d, Forall (none_within descriptive ids) d -> flat_map (collect ids) (without drop d) = flat_map (collect ids) d.
Proof. intros drop HE d H. apply (without_collect descriptive); [exact HE|reflexivity|exact H]. Qed.
Lemma svg_described : forall s m, is_svg s m = true -> In s ["metadata"; "title"; "desc"]%string -> descriptive m = true.
Proof.
  intros s m H S. unfold is_svg in H. apply andb_true_iff in H. destruct H as [U L]. unfold descriptive. rewrite U. cbn [andb].
  apply text_eqb_spec in L. rewrite L. apply existsb_exists. exists s. split; [exact S|apply text_eqb_refl].
Qed.
Theorem descriptive_sheets : forall on any d, Forall (none_within descriptive stylesheets) d ->
  flat_map (collect stylesheets) (remove_metadata on d) = flat_map (collect stylesheets) d /\
  flat_map (collect stylesheets) (remove_title on d) = flat_map (collect stylesheets) d /\
  flat_map (collect stylesheets) (remove_desc any d) = flat_map (collect stylesheets) d.
Proof.
  intros on any d H. split; [|split].
  - destruct on; [|reflexivity]. apply without_sheets; try reflexivity; [|exact H]. intros m e ds l k E. apply (svg_described "metadata" m E). cbn [In]. tauto.
  - destruct on; [|reflexivity]. apply without_sheets; try reflexivity; [|exact H]. intros m e ds l k E. apply (svg_described "title" m E). cbn [In]. tauto.
  - apply without_sheets; try reflexivity; [|exact H]. intros m e ds l k E. apply andb_true_iff in E. apply (svg_described "desc" m (proj1 E)). cbn [In]. tauto.
Qed.
Theorem descriptive_ids : forall on any d, Forall (none_within descriptive ids) d ->
  flat_map (collect ids) (remove_metadata on d) = flat_map (collect ids) d /\
  flat_map (collect ids) (remove_title on d) = flat_map (collect ids) d /\
  flat_map (collect ids) (remove_desc any d) = flat_map (collect ids) d.
Proof.
  intros on any d H. split; [|split].
  - destruct on; [|reflexivity]. apply without_ids; [|exact H]. intros m e ds l k E. apply (svg_described "metadata" m E). cbn [In]. tauto.
  - destruct on; [|reflexivity]. apply without_ids; [|exact H]. intros m e ds l k E. apply (svg_described "title" m E). cbn [In]. tauto.
  - apply without_ids; [|exact H]. intros m e ds l k E. apply andb_true_iff in E. apply (svg_described "desc" m (proj1 E)). cbn [In]. tauto.
Qed.

(** * Namespaces *)
Lemma find_kept : forall add p u scope, find_prefix p scope = Some u -> goes add u = false -> find_prefix p (filter (fun d => negb (goes add (snd d))) scope) = Some u.
Proof.
  intros add p u scope. induction scope as [|[q w] r IH]; intros F G; [discriminate|]. cbn [find_prefix fst snd] in F. cbn [filter snd].
  destruct (text_eqb q p) eqn:E.
  - injection F as ->. rewrite G. cbn [negb find_prefix fst snd]. rewrite E. reflexivity.
  - destruct (negb (goes add w)); [cbn [find_prefix fst]; rewrite E|]; apply IH; assumption.
Qed.
Lemma stands_kept : forall add scope default n, stands scope default n -> goes add (n_uri n) = false -> stands (filter (fun d => negb (goes add (snd d))) scope) default n.
Proof. intros add scope default n S G. unfold stands in *. destruct (n_prefix n); [apply find_kept; assumption|exact S]. Qed.
Definition edit (add : list text) : node -> list node :=
  strip (fun n => match n with Elem m _ _ _ _ => goes add (n_uri m) | _ => false end) (fun d => negb (goes add (snd d))) (fun a => negb (goes add (n_uri (fst a)))).
Lemma edit_declared : forall add n scope default, declared scope default n -> Forall (declared (filter (fun d => negb (goes add (snd d))) scope) default) (edit add n).
Proof.
  intros add. induction n using node_induction; intros scope default D; unfold edit; cbn [strip]; try (constructor; [exact I|constructor]).
  destruct (goes add (n_uri m)) eqn:G; [constructor|]. constructor; [|constructor]. cbn [declared] in *. destruct D as (A & B & C). rewrite <- filter_app. split; [|split].
  - apply stands_kept; assumption.
  - rewrite Forall_forall in *. intros a Ha. apply filter_In in Ha. destruct Ha as [Ha Hg]. apply negb_true_iff in Hg. apply stands_kept; [apply B, Ha|exact Hg].
  - apply all_forall. apply all_forall in C. rewrite Forall_forall in *. intros x Hx. apply in_flat_map in Hx. destruct Hx as (y & Hy & Hx).
    specialize (H y Hy _ _ (C y Hy)). rewrite Forall_forall in H. apply H, Hx.
Qed.
Theorem editors_declared : forall add d, ~ In xml_uri add ->
  Forall (declared [(lit "xml", xml_uri)] []) d -> Forall (declared [(lit "xml", xml_uri)] []) (remove_editors add d).
Proof.
  intros add d X H. assert (F : filter (fun d => negb (goes add (snd d))) [(lit "xml", xml_uri)] = [(lit "xml", xml_uri)]).
  { cbn [filter snd]. destruct (goes add xml_uri) eqn:G; [|reflexivity]. exfalso. unfold goes in G.
    pose proof (proj1 (forallb_forall _ _) editors_standing xml_uri ltac:(unfold standing; cbn [In]; tauto)) as E. cbv beta in E. apply negb_true_iff in E. rewrite E in G. cbn [orb] in G.
    apply existsb_exists in G. destruct G as (x & P & Q). apply text_eqb_spec in Q. subst x. exact (X P). }
  rewrite Forall_forall in *. intros x Hx. apply in_flat_map in Hx. destruct Hx as (y & Hy & Hx).
  pose proof (edit_declared add y _ _ (H y Hy)) as E. rewrite F, Forall_forall in E. apply E, Hx.
Qed.
Theorem editors_free : forall add d, Forall (free (goes add)) (remove_editors add d).
Proof.
  intros add d. assert (E : forall n, Forall (free (goes add)) (edit add n)).
  { induction n using node_induction; unfold edit; cbn [strip]; try (constructor; [exact I|constructor]).
    destruct (goes add (n_uri m)) eqn:G; [constructor|]. constructor; [|constructor]. cbn [free]. split; [exact G|]. split; [|split].
    - apply Forall_forall. intros x Hx. apply filter_In in Hx. apply negb_true_iff, (proj2 Hx).
    - apply Forall_forall. intros x Hx. apply filter_In in Hx. apply negb_true_iff, (proj2 Hx).
    - apply all_forall, Forall_forall. intros x Hx. apply in_flat_map in Hx. destruct Hx as (y & Hy & Hx). rewrite Forall_forall in H. specialize (H y Hy). rewrite Forall_forall in H. apply H, Hx. }
  apply Forall_forall. intros x Hx. apply in_flat_map in Hx. destruct Hx as (y & Hy & Hx). specialize (E y). rewrite Forall_forall in E. apply E, Hx.
Qed.
(** * Comments *)
Lemma stays_default : forall t, comment_stays default_patterns t = Some (match t with c :: _ => N.eqb c 33 | [] => false end).
Proof. intros [|c t]; cbn; [reflexivity|]. destruct (N.eqb c 33); reflexivity. Qed.
Lemma without_comments : forall f n, flat_map comments (strip (fun n => match n with Comment t => negb (f t) | _ => false end) (fun _ => true) (fun _ => true) n) = filter f (comments n).
Proof.
  intros f. induction n using node_induction; cbn [strip]; try reflexivity.
  - cbn [flat_map comments]. rewrite app_nil_r. induction H as [|x k E H IH]; [reflexivity|]. cbn [flat_map]. rewrite flat_map_app, E, filter_app, IH. reflexivity.
  - cbn [comments filter]. destruct (f t); reflexivity.
Qed.
Theorem comments_default : forall d, exists d', remove_comments None d = Some d' /\
  flat_map comments d' = filter (fun t => match t with c :: _ => N.eqb c 33 | [] => false end) (flat_map comments d).
Proof.
  intros d. unfold remove_comments. destruct (existsb _ _) eqn:E.
  - exfalso. apply existsb_exists in E. destruct E as (t & _ & T). rewrite stays_default in T. discriminate.
  - eexists. split; [reflexivity|]. clear E. unfold without.
    assert (X : forall n, strip (fun n => match n with Comment t => match comment_stays default_patterns t with Some b => negb b | None => false end | _ => false end) (fun _ => true) (fun _ => true) n =
      strip (fun n => match n with Comment t => negb ((fun t => match t with c :: _ => N.eqb c 33 | [] => false end) t) | _ => false end) (fun _ => true) (fun _ => true) n).
    { induction n using node_induction; cbn [strip]; try reflexivity.
      - do 2 f_equal. induction H as [|x k E H IH]; [reflexivity|]. cbn [flat_map]. rewrite E, IH. reflexivity.
      - rewrite stays_default. reflexivity. }
    induction d as [|n d IH]; [reflexivity|]. cbn [flat_map]. rewrite flat_map_app, filter_app, IH, X, without_comments. reflexivity.
Qed.

(** * Instructions and descriptions *)
Lemma flat_filter : forall (A : Type) (q : A -> bool) (f : node -> list node) (g : node -> list A) k, Forall (fun n => flat_map g (f n) = filter q (g n)) k -> flat_map g (flat_map f k) = filter q (flat_map g k).
Proof. intros A q f g k H. induction H as [|x k E H IH]; [reflexivity|]. cbn [flat_map]. rewrite flat_map_app, filter_app, E, IH. reflexivity. Qed.
Theorem proc_inst_instructions : forall on d, flat_map instructions (remove_proc_inst on d) = if on then filter (fun i => negb (text_eqb (fst i) (lit "xml"))) (flat_map instructions d) else flat_map instructions d.
Proof.
  intros [] d; [|reflexivity]. unfold remove_proc_inst, without. apply flat_filter, Forall_forall. intros n _. induction n using node_induction; cbn [strip]; try reflexivity.
  - cbn [flat_map instructions]. rewrite app_nil_r. apply flat_filter. exact H.
  - cbn [instructions]. destruct (text_eqb t (lit "xml")) eqn:E; cbn [flat_map instructions filter fst app]; rewrite E; reflexivity.
Qed.
Lemma standard_spec : forall t, is_standard_desc t = true <-> by_editor t.
Proof.
  intros t. unfold is_standard_desc, by_editor, starts_with. rewrite orb_true_iff. split.
  - intros [H|H].
    + destruct (strip_prefix (lit "Created with") t) as [r|] eqn:E; [|discriminate]. apply strip_prefix_spec in E. exists r. left. exact E.
    + destruct (strip_prefix (lit "Created using") t) as [r|] eqn:E; [|discriminate]. apply strip_prefix_spec in E. exists r. right. exact E.
  - intros [r [H|H]]; apply strip_prefix_spec in H; rewrite H; auto.
Qed.
Lemma empty_spec : forall k, is_empty k = true <-> says_nothing k.
Proof.
  intros k. unfold is_empty, says_nothing. rewrite forallb_forall. split.
  - intros H n N. specialize (H n N). destruct n as [ |t|t|t|t u|t]; try discriminate. exists t. split; [reflexivity|]. apply Forall_forall. unfold blank in H. rewrite forallb_forall in H. exact H.
  - intros H n N. destruct (H n N) as [t [-> F]]. unfold blank. apply forallb_forall. rewrite Forall_forall in F. exact F.
Qed.
Definition unwanted (any : bool) (k : list node) : bool := any || is_empty k || existsb (fun c => match c with Text t => is_standard_desc t | _ => false end) k.
Lemma unwanted_spec : forall any k, unwanted any k = true <-> any = true \/ says_nothing k \/ exists t, In (Text t) k /\ by_editor t.
Proof.
  intros any k. unfold unwanted. rewrite !orb_true_iff, empty_spec, existsb_exists. split.
  - intros [[H|H]|[n [N H]]]; auto. destruct n as [ |t|t|t|t u|t]; try discriminate. right. right. exists t. split; [exact N|]. apply standard_spec. exact H.
  - intros [H|[H|[t [N H]]]]; auto. right. exists (Text t). split; [exact N|]. apply standard_spec. exact H.
Qed.
Theorem desc_stays : forall any m d ds l k r, any = false -> ~ says_nothing k -> (forall t, In (Text t) k -> ~ by_editor t) ->
  remove_desc any (Elem m d ds l k :: r) = Elem m d ds l (remove_desc any k) :: remove_desc any r.
Proof.
  intros any m d ds l k r A N E. unfold remove_desc at 1. unfold without. cbn [flat_map strip].
  change (any || is_empty k || existsb (fun c => match c with Text t => is_standard_desc t | _ => false end) k) with (unwanted any k).
  destruct (unwanted any k) eqn:U; [apply unwanted_spec in U; destruct U as [U|[U|[t [T U]]]]; [congruence|contradiction|destruct (E t T U)]|].
  rewrite andb_false_r, !filter_true. reflexivity.
Qed.
Theorem desc_goes : forall any m d ds l k r, is_svg "desc" m = true -> any = true \/ says_nothing k \/ (exists t, In (Text t) k /\ by_editor t) ->
  remove_desc any (Elem m d ds l k :: r) = remove_desc any r.
Proof.
  intros any m d ds l k r S U. apply unwanted_spec in U. unfold remove_desc at 1. unfold without. cbn [flat_map strip].
  change (any || is_empty k || existsb (fun c => match c with Text t => is_standard_desc t | _ => false end) k) with (unwanted any k). rewrite S, U. reflexivity.
Qed.
Theorem desc_other : forall any m d ds l k r, is_svg "desc" m = false ->
  remove_desc any (Elem m d ds l k :: r) = Elem m d ds l (remove_desc any k) :: remove_desc any r.
Proof. intros any m d ds l k r S. unfold remove_desc at 1. unfold without. cbn [flat_map strip]. rewrite S. cbn [andb]. rewrite !filter_true. reflexivity. Qed.
Theorem desc_all : forall d, Forall (nowhere (fun m _ => is_svg "desc" m = true)) (remove_desc true d).
Proof.
  intros d. assert (E : forall n, Forall (nowhere (fun m _ => is_svg "desc" m = true)) (remove_desc true [n])).
  { induction n using node_induction; try (constructor; [exact I|constructor]). destruct (is_svg "desc" m) eqn:S.
    - rewrite desc_goes; [constructor|exact S|left; reflexivity].
    - rewrite desc_other by exact S. constructor; [|constructor]. cbn [nowhere]. split; [rewrite S; discriminate|]. apply all_forall, Forall_forall. intros x Hx. apply in_flat_map in Hx. destruct Hx as (y & Hy & Hx).
      rewrite Forall_forall in H. specialize (H y Hy). rewrite Forall_forall in H. apply H. unfold remove_desc, without. cbn [flat_map]. rewrite app_nil_r. exact Hx. }
  apply Forall_forall. intros x Hx. apply in_flat_map in Hx. destruct Hx as (y & Hy & Hx). specialize (E y). rewrite Forall_forall in E. apply E. unfold remove_desc, without. cbn [flat_map]. rewrite app_nil_r. exact Hx.
Qed.
