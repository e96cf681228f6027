(** Proofs about empty text elements. *)
From Coq Require Import String List NArith Bool.
From Verif Require Import Chars StripModel StripSpec StripProofs EmptyTextModel EmptyTextSpec.
Import ListNotations.

Lemma kind_other : forall a b m, is_svg a m = true -> text_eqb (lit a) (lit b) = false -> is_svg b m = false.
Proof.
  intros a b m A N. unfold is_svg in *. apply andb_true_iff in A. destruct A as [U L]. apply text_eqb_spec in L. rewrite U, L. exact N.
Qed.
Lemma descriptive_not : forall a m, is_svg a m = true -> In a ["text"; "tspan"; "tref"; "switch"]%string -> descriptive m = false.
Proof.
  intros a m A I. unfold is_svg in A. apply andb_true_iff in A. destruct A as [U L]. apply text_eqb_spec in L. unfold descriptive. rewrite U, L.
  cbn [In] in I. destruct I as [<-|[<-|[<-|[<-|[]]]]]; reflexivity.
Qed.
Lemma empty_children : forall k, is_empty k = true -> Forall (fun c => match c with Text t => Forall (fun x => white x = true) t | _ => False end) k.
Proof.
  intros k H. unfold is_empty in H. rewrite forallb_forall in H. apply Forall_forall. intros x I. specialize (H x I). destruct x; try discriminate. apply Forall_forall. unfold blank in H. rewrite forallb_forall in H. exact H.
Qed.
Lemma goes_idle : forall o n, goes o n = true -> idle n.
Proof.
  intros o [m d ds l k| | | | |] H; try discriminate. cbn [goes] in H. cbn [idle]. apply orb_true_iff in H. destruct H as [H|H].
  - left. apply orb_true_iff in H. destruct H as [H|H]; apply andb_true_iff in H; destruct H as [H E]; apply andb_true_iff in H; destruct H as [_ H]; (split; [tauto|apply empty_children, E]).
  - right. apply andb_true_iff in H. destruct H as [H E]. apply andb_true_iff in H. destruct H as [_ H]. split; [exact H|]. apply negb_true_iff in E. exact E.
Qed.

Section Main.
  Variable passes : list (name * text) -> bool.
  Variable keepg : glyph -> bool.
  Notation G := (glyphs passes).
  Definition seen (i : bool) (c : list (name * list (name * text))) (n : node) : list glyph := filter keepg (G i c n).
  Lemma all_flat : forall {A} (f : node -> list A) k, (fix all l' := match l' with [] => [] | x :: r => f x ++ all r end) k = flat_map f k.
  Proof. reflexivity. Qed.
  Lemma filter_flat : forall (f : node -> list glyph) k, filter keepg (flat_map f k) = flat_map (fun n => filter keepg (f n)) k.
  Proof. intros f k. induction k as [|x k IH]; [reflexivity|]. cbn [flat_map]. rewrite filter_app, IH. reflexivity. Qed.
  Definition kept (drop : node -> bool) (n : node) : Prop := forall i c, flat_map (seen i c) (strip drop (fun _ => true) (fun _ => true) n) = seen i c n.
  (** What the job needs to know about a node. *)
  Fixpoint fine (drop : node -> bool) (n : node) : Prop :=
    match n with
    | Elem m _ _ l k => (drop n = true -> forall i c, seen i c n = []) /\ (is_svg "switch" m = true -> Forall (fun c => drop c = false) k) /\
        (fix all l := match l with [] => True | x :: r => fine drop x /\ all r end) k
    | _ => drop n = false
    end.
  Lemma pick_strip : forall drop i c k, Forall (fun n => drop n = false) k -> Forall (kept drop) k ->
    filter keepg ((fix pick l' := match l' with
                          | [] => []
                          | x :: r => match x with
                                      | Elem _ _ _ a _ => if passes a then G i c x else pick r
                                      | _ => pick r
                                      end
                          end) (flat_map (strip drop (fun _ => true) (fun _ => true)) k)) =
    filter keepg ((fix pick l' := match l' with
                          | [] => []
                          | x :: r => match x with
                                      | Elem _ _ _ a _ => if passes a then G i c x else pick r
                                      | _ => pick r
                                      end
                          end) k).
  Proof.
    intros drop i c k D H. induction H as [|x k E H IH]; [reflexivity|]. inversion D as [|? ? D1 D2]; subst. specialize (IH D2). cbn [flat_map].
    specialize (E i c). destruct x as [m d ds l kk|t|t|t|t u|t]; cbn [strip] in *; rewrite D1 in *; cbn [app]; try exact IH.
    rewrite filter_true in *. cbn [flat_map] in E. rewrite app_nil_r in E. destruct (passes l); [exact E|exact IH].
  Qed.
  Lemma strip_seen : forall drop n, fine drop n -> kept drop n.
  Proof.
    intros drop. induction n using node_induction; intros F i c; cbn [strip].
    - cbn [fine] in F. destruct F as [F1 [F2 F3]]. apply all_forall in F3. destruct (drop (Elem m d ds l k)) eqn:E.
      + rewrite (F1 eq_refl). reflexivity.
      + cbn [flat_map]. rewrite app_nil_r, filter_true. assert (K : Forall (kept drop) k).
        { rewrite Forall_forall in *. intros x I. apply H; [exact I|apply F3, I]. }
        rewrite filter_true. unfold seen. cbn [glyphs]. destruct (descriptive m); [reflexivity|]. destruct (is_svg "tref" m); [reflexivity|]. destruct (is_svg "switch" m) eqn:S.
        * apply pick_strip; [apply F2; reflexivity|exact K].
        * rewrite (all_flat (G (i || is_svg "text" m) ((m, l) :: c)) (flat_map (strip drop (fun _ => true) (fun _ => true)) k)), (all_flat (G (i || is_svg "text" m) ((m, l) :: c)) k), !filter_flat. clear - K. induction K as [|x k E K IH]; [reflexivity|]. cbn [flat_map]. rewrite flat_map_app, IH. f_equal. apply E.
    - cbn [fine] in F. rewrite F. cbn [flat_map]. apply app_nil_r.
    - cbn [fine] in F. rewrite F. cbn [flat_map]. apply app_nil_r.
    - cbn [fine] in F. rewrite F. cbn [flat_map]. apply app_nil_r.
    - cbn [fine] in F. rewrite F. cbn [flat_map]. apply app_nil_r.
    - cbn [fine] in F. rewrite F. cbn [flat_map]. apply app_nil_r.
  Qed.
  Lemma without_seen : forall drop d i c, Forall (fine drop) d -> flat_map (seen i c) (without drop d) = flat_map (seen i c) d.
  Proof.
    intros drop d i c H. unfold without. induction H as [|x d F H IH]; [reflexivity|]. cbn [flat_map]. rewrite flat_map_app, IH. f_equal. apply strip_seen, F.
  Qed.
  Lemma idle_glyphs : forall n i c, idle n -> (forall ch m l k d ds, n = Elem m d ds l k -> is_svg "tref" m = false -> Forall (fun x => match x with Text t => filter keepg (map (fun z => Char z ch) t) = [] | _ => False end) k) -> seen i c n = [].
  Proof.
    intros [m d ds l k| | | | |] i c H W; try contradiction. unfold seen. cbn [glyphs]. cbn [idle] in H. destruct (is_svg "tref" m) eqn:R.
    - destruct (descriptive m); [reflexivity|]. destruct H as [[[H|H] _]|[_ H]].
      + rewrite (kind_other "text" "tref" m H eq_refl) in R. discriminate.
      + rewrite (kind_other "tspan" "tref" m H eq_refl) in R. discriminate.
      + rewrite H, andb_false_r. reflexivity.
    - destruct H as [[H _]|[H _]]; [|discriminate]. destruct (descriptive m); [reflexivity|]. assert (S : is_svg "switch" m = false) by (destruct H as [H|H]; [exact (kind_other "text" "switch" m H eq_refl)|exact (kind_other "tspan" "switch" m H eq_refl)]).
      rewrite S. rewrite (all_flat (G (i || is_svg "text" m) ((m, l) :: c))), filter_flat. specialize (W ((m, l) :: c) m l k d ds eq_refl R). clear - W.
      induction W as [|x k E W IH]; [reflexivity|]. cbn [flat_map]. rewrite IH, app_nil_r. destruct x as [| t | | | |]; try contradiction. cbn [glyphs]. destruct (i || is_svg "text" m); [exact E|reflexivity].
  Qed.
End Main.

Lemma fine_black : forall passes o n, unswitched n -> fine passes black (goes o) n.
Proof.
  intros passes o. induction n using node_induction; intros U; try reflexivity. cbn [unswitched fine] in *. destruct U as [U1 U2]. apply all_forall in U2. refine (conj _ (conj _ _)).
  - intros E i c. apply idle_glyphs; [apply (goes_idle o), E|]. intros ch m' l' k' d' ds' Q R. inversion Q; subst m' l' k' d' ds'. apply goes_idle in E. cbn [idle] in E. destruct E as [[_ E]|[E _]]; [|rewrite E in R; discriminate].
    eapply Forall_impl; [|exact E]. intros [| t | | | |] B; try contradiction. induction B as [|x t B1 B IH]; [reflexivity|]. cbn [map filter black]. rewrite B1. exact IH.
  - intros S. eapply Forall_impl; [|exact (U1 S)]. intros x N. destruct (goes o x) eqn:E; [|reflexivity]. destruct (N (goes_idle o x E)).
  - apply all_forall. rewrite Forall_forall in *. intros x I. apply H; [exact I|apply U2, I].
Qed.
Lemma fine_all : forall passes o n, unswitched n -> no_space n -> fine passes (fun _ => true) (goes o) n.
Proof.
  intros passes o. induction n using node_induction; intros U S; try reflexivity. cbn [unswitched fine no_space] in *. destruct U as [U1 U2]. apply all_forall in U2. destruct S as [S1 S2]. apply all_forall in S2. refine (conj _ (conj _ _)).
  - intros E i c. apply idle_glyphs; [apply (goes_idle o), E|]. intros ch m' l' k' d' ds' Q R. inversion Q; subst m' l' k' d' ds'. apply goes_idle in E.
    eapply Forall_impl; [|exact (S1 R E)]. intros x ->. reflexivity.
  - intros S. eapply Forall_impl; [|exact (U1 S)]. intros x N. destruct (goes o x) eqn:E; [|reflexivity]. destruct (N (goes_idle o x E)).
  - apply all_forall. rewrite Forall_forall in *. intros x I. apply H; [exact I|apply U2, I|apply S2, I].
Qed.
Lemma filter_all : forall {A} (l : list A), filter (fun _ => true) l = l.
Proof. intros A l. apply filter_true. Qed.
Theorem text_glyphs : forall passes o d, Forall unswitched d -> Forall no_space d ->
  flat_map (glyphs passes false []) (remove_empty_text o d) = flat_map (glyphs passes false []) d.
Proof.
  intros passes o d U S. unfold remove_empty_text. assert (E := without_seen passes (fun _ => true) (goes o) d false []).
  assert (Q : forall l, flat_map (seen passes (fun _ => true) false []) l = flat_map (glyphs passes false []) l).
  { intros l. apply flat_map_ext. intros n. unfold seen. apply filter_all. }
  rewrite !Q in E. apply E. rewrite Forall_forall in *. intros x I. apply fine_all; [apply U, I|apply S, I].
Qed.
Theorem text_black : forall passes o d, Forall unswitched d ->
  filter black (flat_map (glyphs passes false []) (remove_empty_text o d)) = filter black (flat_map (glyphs passes false []) d).
Proof.
  intros passes o d U. rewrite !(filter_flat black). unfold remove_empty_text. apply (without_seen passes black (goes o) d false []). eapply Forall_impl; [|exact U]. intros n. apply fine_black.
Qed.

(** * Everything else *)
Lemma others_strip : forall o p, (forall m, on (o_text o) = true -> is_svg "text" m = true -> p m = false) -> (forall m, on (o_tspan o) = true -> is_svg "tspan" m = true -> p m = false) ->
  (forall m, on (o_tref o) = true -> is_svg "tref" m = true -> p m = false) ->
  forall n, flat_map (others p) (strip (goes o) (fun _ => true) (fun _ => true) n) = others p n.
Proof.
  intros o p H1 H2 H3. induction n using node_induction; cbn [strip]; try reflexivity.
  destruct (goes o (Elem m d ds l k)) eqn:E.
  - cbn [flat_map others]. rewrite (all_flat (others p)). symmetry. cbn [goes] in E. apply orb_true_iff in E. destruct E as [E|E].
    + assert (P : p m = false /\ is_empty k = true).
      { apply orb_true_iff in E. destruct E as [E|E]; apply andb_true_iff in E; destruct E as [E1 E2]; apply andb_true_iff in E1; destruct E1 as [E1 E3]; (split; [auto|exact E2]). }
      destruct P as [P Q]. rewrite P. cbn [app]. destruct (is_svg "tref" m); [reflexivity|]. apply empty_children in Q. clear - Q. induction Q as [|x k E Q IH]; [reflexivity|]. cbn [flat_map]. rewrite IH. destruct x; try contradiction. reflexivity.
    + apply andb_true_iff in E. destruct E as [E1 E2]. apply andb_true_iff in E1. destruct E1 as [E1 E3]. rewrite (H3 m E1 E3), E3. reflexivity.
  - cbn [flat_map]. rewrite app_nil_r, !filter_true. cbn [others]. f_equal. destruct (is_svg "tref" m); [reflexivity|]. rewrite (all_flat (others p) (flat_map (strip (goes o) (fun _ => true) (fun _ => true)) k)), (all_flat (others p) k). clear E. induction H as [|x k E H IH]; [reflexivity|]. cbn [flat_map]. rewrite flat_map_app, E, IH. reflexivity.
Qed.
Theorem text_others : forall o p d, (forall m, on (o_text o) = true -> is_svg "text" m = true -> p m = false) -> (forall m, on (o_tspan o) = true -> is_svg "tspan" m = true -> p m = false) ->
  (forall m, on (o_tref o) = true -> is_svg "tref" m = true -> p m = false) -> flat_map (others p) (remove_empty_text o d) = flat_map (others p) d.
Proof.
  intros o p d H1 H2 H3. unfold remove_empty_text, without. induction d as [|x d IH]; [reflexivity|]. cbn [flat_map]. rewrite flat_map_app, IH, (others_strip o p H1 H2 H3). reflexivity.
Qed.
