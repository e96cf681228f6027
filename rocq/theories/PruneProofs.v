From Coq Require Import String List NArith Bool Lia.
From Verif Require Import Chars NameModel AttrTable ElemModel ElemSpec ElemProofs TextModel TextSpec ScriptModel ScriptSpec ScriptProofs ScriptProofs2 PruneModel PruneSpec.
Import ListNotations.

Lemma within_in (d : src) n df attrs kids k : d = SEl n df attrs kids -> In k kids -> forall m df' b, within k m df' b -> within d m df' b.
Proof. intros -> Hk m df' b W. econstructor; eassumption. Qed.
Lemma fine_kid n df attrs kids k : fine (SEl n df attrs kids) -> In k kids -> fine k.
Proof.
  intros (W & U & N) Hk. split; [|split]; intros m df' b X.
  - apply W with (default := df'). econstructor; eassumption.
  - apply (U m df' b). econstructor; eassumption.
  - apply (N m df' b). econstructor; eassumption.
Qed.
(** Pruning with a test that decides a property of the source cuts. *)
Lemma prune_cut (test : elem_id -> list (attr_id * text) -> bool) P (ok : src -> Prop) :
  (forall n df attrs kids k, ok (SEl n df attrs kids) -> In k kids -> ok k) ->
  (forall n df attrs kids, ok (SEl n df attrs kids) -> test (elem_of n) (read_attrs n df attrs) = true <-> P n attrs) ->
  forall l, Forall ok l -> exists l', cut P l l' /\ prune test (map read l) = map read l'.
Proof.
  intros Hok HP.
  assert (One : forall d, ok d -> exists l', prune_node test (read d) = map read l' /\ forall l m, cut P l m -> cut P (d :: l) (l' ++ m)).
  { induction d as [n df attrs kids IH|] using src_ind'; intros O.
    - cbn [read prune_node]. fold (read_attrs n df attrs). destruct (test (elem_of n) (read_attrs n df attrs)) eqn:T.
      + exists []. split; [reflexivity|]. intros l m C. apply cut_drop; [|exact C]. apply (HP n df attrs kids O). exact T.
      + assert (K : exists kids', cut P kids kids' /\ flat_map (prune_node test) (map read kids) = map read kids').
        { assert (Ok : Forall ok kids) by (apply Forall_forall; intros k Hk; eapply Hok; eassumption). clear O T.
          induction kids as [|k kids IHk]; [exists []; split; [constructor|reflexivity]|].
          inversion IH as [|? ? IHa IHb]; subst. inversion Ok as [|? ? Oa Ob]; subst. destruct (IHk IHb Ob) as (ks & C & E). destruct (IHa Oa) as (k' & Ek & Ck).
          exists (k' ++ ks). split; [apply Ck, C|]. cbn [map flat_map]. rewrite Ek, E, map_app. reflexivity. }
        destruct K as (kids' & C & E). exists [SEl n df attrs kids']. split; [rewrite E; reflexivity|]. intros l m Cl. apply cut_keep; [|exact C|exact Cl].
        intros X. apply (HP n df attrs kids O) in X. congruence.
    - exists [SOther]. split; [reflexivity|]. intros l m C. apply cut_other, C. }
  induction l as [|d l IH]; intros F; [exists []; split; [constructor|reflexivity]|].
  inversion F as [|? ? Od Ol]; subst. destruct (IH Ol) as (l' & C & E). destruct (One d Od) as (d' & Ed & Cd).
  exists (d' ++ l'). split; [apply Cd, C|]. unfold prune in *. cbn [map flat_map]. rewrite Ed, E, map_app. reflexivity.
Qed.
Lemma cut_unique P l a : cut P l a -> forall b, cut P l b -> a = b.
Proof.
  induction 1 as [|n df attrs kids l l' HP C IH|n df attrs kids kids' l l' HP C1 IH1 C2 IH2|l l' C IH]; intros b X; inversion X; subst; try contradiction; try reflexivity.
  - apply IH; assumption.
  - f_equal; [f_equal; apply IH1; assumption|apply IH2; assumption].
  - f_equal. apply IH; assumption.
Qed.

(** Splitting. *)
Section Names.
  Variable T : text -> bool.
  Hypothesis prefix_closed : forall a b, T a = true -> T (a ++ b) = true.
  (** [T] needs only the part before a full stop. *)
  Variable c : N.
  Hypothesis before : forall a b, T (a ++ c :: b) = true -> T a = true.
  Lemma split_char_ne s : exists p ps, split_char c s = p :: ps.
  Proof. destruct s as [|x s]; cbn; [eauto|]. destruct (N.eqb x c); [eauto|]. destruct (split_char c s); eauto. Qed.
  Lemma split_char_head s : exists r, s = hd [] (split_char c s) ++ r /\ (r = [] \/ exists r', r = c :: r').
  Proof.
    induction s as [|x s IH]; cbn; [exists []; auto|]. destruct (N.eqb_spec x c) as [->|Hx]; [exists (c :: s); cbn; eauto|].
    destruct (split_char_ne s) as (p & ps & E). rewrite E in *. destruct IH as (r & Es & Hr). exists r. cbn in *. split; [congruence|exact Hr].
  Qed.
  Lemma split_char_head_T s : T (hd [] (split_char c s)) = T s.
  Proof.
    destruct (split_char_head s) as (r & Es & Hr). apply eq_true_iff_eq. split; intros H.
    - rewrite Es. apply prefix_closed, H.
    - rewrite Es in H. destruct Hr as [->|(r' & ->)]; [rewrite app_nil_r in H; exact H|]. eapply before, H.
  Qed.
  Lemma split_char_exists s : existsb T (split_char c s) = true <-> T s = true \/ exists p q, s = p ++ c :: q /\ T q = true.
  Proof.
    assert (Tl : existsb T (tl (split_char c s)) = true <-> exists p q, s = p ++ c :: q /\ T q = true).
    { induction s as [|x s IH]; cbn.
      - split; [discriminate|]. intros (p & q & E & _). destruct p; discriminate.
      - destruct (N.eqb_spec x c) as [->|Hx].
        + cbn [tl]. destruct (split_char_ne s) as (p & ps & E). pose proof (split_char_head_T s) as Hh. rewrite E in *. cbn [hd tl existsb] in *. rewrite orb_true_iff, Hh, IH. split.
          * intros [H|(a & q & Es & H)]; [exists [], s; auto|]. exists (c :: a), q. rewrite Es. auto.
          * intros (a & q & Es & H). destruct a as [|y a]; [injection Es as ->; auto|]. injection Es as -> Es. right. exists a, q. auto.
        + destruct (split_char_ne s) as (p & ps & E). rewrite E in *. cbn [tl] in *. rewrite IH. split.
          * intros (a & q & Es & H). exists (x :: a), q. rewrite Es. auto.
          * intros (a & q & Es & H). destruct a as [|y a]; [injection Es as E1 _; congruence|]. injection Es as -> Es. exists a, q. auto. }
    destruct (split_char_ne s) as (p & ps & E). pose proof (split_char_head_T s) as Hh. rewrite E in *. cbn [hd tl existsb] in *. rewrite orb_true_iff, Hh, Tl. reflexivity.
  Qed.
End Names.

Lemma raster_name_iff t : raster_name t = true <-> exists ext post, t = ext ++ post /\ In ext (map lit ["jpeg"; "jpg"; "png"; "gif"]%string).
Proof.
  unfold raster_name. rewrite !orb_true_iff, !starts_with_iff. split.
  - intros [[[(r & ->)|(r & ->)]|(r & ->)]|(r & ->)]; eexists _, r; (split; [reflexivity|]); cbn [map In]; auto.
  - intros (ext & post & -> & H). cbn [map In] in H. destruct H as [<-|[<-|[<-|[<-|[]]]]]; eauto 6.
Qed.
Lemma raster_closed a b : raster_name a = true -> raster_name (a ++ b) = true.
Proof. rewrite !raster_name_iff. intros (e & p & -> & H). exists e, (p ++ b). rewrite app_assoc. auto. Qed.
Lemma app_before (c : N) e : ~ In c e -> forall a b p, a ++ c :: b = e ++ p -> exists q, a = e ++ q.
Proof.
  induction e as [|x e IH]; intros H a b p E; [exists a; reflexivity|]. destruct a as [|y a].
  - injection E as -> _. exfalso. apply H. left. reflexivity.
  - injection E as -> E. destruct (IH (fun K => H (or_intror K)) _ _ _ E) as (q & ->). exists q. reflexivity.
Qed.
Lemma raster_before a b : raster_name (a ++ 46%N :: b) = true -> raster_name a = true.
Proof.
  rewrite !raster_name_iff. intros (e & p & E & H).
  assert (N : ~ In 46%N e).
  { cbn [map In] in H. destruct H as [<-|[<-|[<-|[<-|[]]]]]; vm_compute; intros X; repeat (destruct X as [X|X]; [discriminate|]); exact X. }
  destruct (app_before _ _ N _ _ _ E) as (q & ->). exists e, q. auto.
Qed.

Local Notation image := (lit "image/").
(** Passing over a match. *)
Lemma split_text_skip k s : k <= List.length s -> split_text image k s = split_text image 0 (skipn k s).
Proof.
  revert k. induction s as [|x s IH]; intros k H; [destruct k; [reflexivity|cbn in H; lia]|].
  destruct k as [|k]; [reflexivity|]. change (split_text image k s = split_text image 0 (skipn k s)). apply IH. cbn in H. lia.
Qed.
Lemma split_text_match q : split_text image 0 (image ++ q) = [] :: split_text image 0 q.
Proof. reflexivity. Qed.
Lemma split_text_step x s : starts_with image (x :: s) = false ->
  split_text image 0 (x :: s) = match split_text image 0 s with p :: ps => (x :: p) :: ps | [] => [[x]] end.
Proof. intros H. cbn [split_text]. rewrite H. reflexivity. Qed.
(** A match does not overlap another. *)
Lemma image_at p q r : image ++ r = p ++ image ++ q -> p = [] \/ exists p', p = image ++ p' /\ r = p' ++ image ++ q.
Proof.
  intros E. destruct p as [|a1 p]; [left; reflexivity|]. right.
  destruct p as [|a2 p]; [vm_compute in E; discriminate|]. destruct p as [|a3 p]; [vm_compute in E; discriminate|]. destruct p as [|a4 p]; [vm_compute in E; discriminate|].
  destruct p as [|a5 p]; [vm_compute in E; discriminate|]. destruct p as [|a6 p]; [vm_compute in E; discriminate|].
  exists p. change (image ++ r) with (105%N :: 109%N :: 97%N :: 103%N :: 101%N :: 47%N :: r) in E. cbn [app] in E. injection E as <- <- <- <- <- <- E. split; [reflexivity|exact E].
Qed.
Lemma split_text_ind (P : text -> Prop) : P [] -> (forall q, P q -> P (image ++ q)) -> (forall x s, starts_with image (x :: s) = false -> P s -> P (x :: s)) -> forall s, P s.
Proof.
  intros H0 H1 H2 s. remember (List.length s) as n eqn:E. revert s E. induction n as [n IH] using (well_founded_induction Wf_nat.lt_wf). intros s E.
  destruct s as [|x s]; [exact H0|]. destruct (starts_with image (x :: s)) eqn:W.
  - apply starts_with_iff in W. destruct W as (q & Eq). rewrite Eq. apply H1. eapply IH; [|reflexivity]. rewrite E, Eq, app_length. cbn. lia.
  - apply H2; [exact W|]. eapply IH; [|reflexivity]. rewrite E. cbn. lia.
Qed.
Lemma split_text_ne s : exists p ps, split_text image 0 s = p :: ps.
Proof.
  induction s as [|q IH|x s W IH] using split_text_ind; [cbn; eauto|rewrite split_text_match; eauto|]. rewrite (split_text_step _ _ W).
  destruct IH as (p & ps & ->). eauto.
Qed.
Lemma split_text_head s : raster_name (hd [] (split_text image 0 s)) = raster_name s.
Proof.
  assert (A : exists r, s = hd [] (split_text image 0 s) ++ r).
  { induction s as [|q IH|x s W IH] using split_text_ind; [exists []; reflexivity|rewrite split_text_match; exists (image ++ q); reflexivity|].
    rewrite (split_text_step _ _ W). destruct (split_text_ne s) as (p & ps & E). rewrite E in *. destruct IH as (r & Er). exists r. cbn in *. congruence. }
  apply eq_true_iff_eq. split; intros H.
  - destruct A as (r & A). rewrite A. apply raster_closed, H.
  - rewrite raster_name_iff in *. destruct H as (e & p & -> & H). exists e. 
    assert (X : exists q, hd [] (split_text image 0 (e ++ p)) = e ++ q).
    { destruct (split_text_ne p) as (h & hs & Ep). exists h. cbn [map In] in H. destruct H as [<-|[<-|[<-|[<-|[]]]]].
      - change (lit "jpeg" ++ p) with (106%N :: 112%N :: 101%N :: 103%N :: p). do 4 (rewrite split_text_step by reflexivity). rewrite Ep. reflexivity.
      - change (lit "jpg" ++ p) with (106%N :: 112%N :: 103%N :: p). do 3 (rewrite split_text_step by reflexivity). rewrite Ep. reflexivity.
      - change (lit "png" ++ p) with (112%N :: 110%N :: 103%N :: p). do 3 (rewrite split_text_step by reflexivity). rewrite Ep. reflexivity.
      - change (lit "gif" ++ p) with (103%N :: 105%N :: 102%N :: p). do 3 (rewrite split_text_step by reflexivity). rewrite Ep. reflexivity. }
    destruct X as (q & ->). exists q. auto.
Qed.
Lemma split_text_exists s : existsb raster_name (split_text image 0 s) = true <-> raster_name s = true \/ exists p q, s = p ++ image ++ q /\ raster_name q = true.
Proof.
  assert (Tl : existsb raster_name (tl (split_text image 0 s)) = true <-> exists p q, s = p ++ image ++ q /\ raster_name q = true).
  { induction s as [|r IH|x s W IH] using split_text_ind.
    - split; [discriminate|]. intros (p & q & E & _). destruct p; discriminate.
    - rewrite split_text_match. cbn [tl]. destruct (split_text_ne r) as (h & hs & E). pose proof (split_text_head r) as Hh. rewrite E in *. cbn [hd tl existsb] in *.
      rewrite orb_true_iff, Hh, IH. split.
      + intros [H|(p & q & -> & H)]; [exists [], r; auto|]. exists (image ++ p), q. rewrite <- !app_assoc. auto.
      + intros (p & q & Ep & H). destruct (image_at _ _ _ Ep) as [->|(p' & -> & Er)].
        * cbn [app] in Ep. apply app_inv_head in Ep. subst r. auto.
        * right. exists p', q. auto.
    - rewrite (split_text_step _ _ W). destruct (split_text_ne s) as (h & hs & E). rewrite E in *. cbn [tl] in *. rewrite IH. split.
      + intros (p & q & -> & H). exists (x :: p), q. auto.
      + intros (p & q & Ep & H). destruct p as [|y p]; [exfalso|].
        * assert (starts_with image (x :: s) = true) by (apply starts_with_iff; exists q; exact Ep). congruence.
        * injection Ep as -> Ep. exists p, q. auto. }
  destruct (split_text_ne s) as (h & hs & E). pose proof (split_text_head s) as Hh. rewrite E in *. cbn [hd tl existsb] in *. rewrite orb_true_iff, Hh, Tl. reflexivity.
Qed.
Lemma raster_marked v : is_raster_image v = true <-> marked v.
Proof.
  unfold is_raster_image. rewrite existsb_app, orb_true_iff, split_text_exists, (split_char_exists _ raster_closed 46 raster_before).
  assert (R := raster_name_iff). unfold marked. split.
  - intros [[H|(p & q & -> & H)]|[H|(p & q & -> & H)]]; apply R in H; destruct H as (e & r & -> & H).
    + exists [], e, r. auto.
    + exists (p ++ [46%N]), e, r. rewrite <- app_assoc. split; [reflexivity|]. split; [exact H|]. right. left. exists p. reflexivity.
    + exists [], e, r. auto.
    + exists (p ++ image), e, r. rewrite <- app_assoc. split; [reflexivity|]. split; [exact H|]. right. right. exists p. reflexivity.
  - intros (pre & e & r & -> & H & [->|[(p & ->)|(p & ->)]]).
    + left. left. apply R. exists e, r. auto.
    + left. right. exists p, (e ++ r). rewrite <- app_assoc. split; [reflexivity|]. apply R. exists e, r. auto.
    + right. right. exists p, (e ++ r). rewrite <- app_assoc. split; [reflexivity|]. apply R. exists e, r. auto.
Qed.
