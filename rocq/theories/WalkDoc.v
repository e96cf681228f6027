(** Every list of trees with distinct nodes is the content of some document: used to show that the hypotheses of the
    theorems about walks can be met. *)
From Coq Require Import List Arith Bool Lia.
From Verif Require Import DomModel DomSpec DomProofs WalkModel WalkSpec WalkProofs.
Import ListNotations.

Section Doc.
  Context {D X : Type}.
  Variable blank : D.

  (** The links and content of the nodes of a tree placed under [p] between [pv] and [nx]. *)
  Fixpoint lay (p : nat) (pv nx : option nat) (t : wtree D) : list (nat * (node * D)) :=
    match t with W n d kids =>
      (n, (mkNode (Some p) nx pv (headof (map wid kids) None) (lastof None (map wid kids)) DDocument, d)) ::
      (fix all (pv : option nat) (l : list (wtree D)) : list (nat * (node * D)) :=
         match l with [] => [] | k :: r => lay n pv (headof (map wid r) None) k ++ all (Some (wid k)) r end) None kids
    end.
  Definition lay_all (n : nat) : option nat -> list (wtree D) -> list (nat * (node * D)) :=
    fix all (pv : option nat) (l : list (wtree D)) : list (nat * (node * D)) :=
      match l with [] => [] | k :: r => lay n pv (headof (map wid r) None) k ++ all (Some (wid k)) r end.
  Definition lookup (l : list (nat * (node * D))) (m : nat) : node * D :=
    match find (fun r => fst r =? m) l with Some (_, x) => x | None => (mkNode None None None None None DDocument, blank) end.
  (** The document. *)
  Definition layout (root : nat) (d : D) (x : X) (l : list (wtree D)) : wstate D X :=
    let rows := (root, (mkNode None None None (headof (map wid l) None) (lastof None (map wid l)) DDocument, d)) :: lay_all root None l in
    mkState (fun m => fst (lookup rows m)) (fun m => snd (lookup rows m)) x.

  Lemma lay_ids : forall t p pv nx, map fst (lay p pv nx t) = ids t.
  Proof.
    apply (wtree_ind' (fun t => forall p pv nx, map fst (lay p pv nx t) = ids t)). intros n d kids IH p pv nx. cbn [lay map fst ids]. f_equal.
    fold (lay_all n). generalize (@None nat) as v. induction IH as [|k r Hk _ IHr]; intros v; [reflexivity|]. cbn [lay_all flat_map].
    rewrite map_app, Hk. f_equal. apply IHr.
  Qed.
  Lemma lay_all_ids n : forall l pv, map fst (lay_all n pv l) = all_ids l.
  Proof. induction l as [|k r IH]; intros pv; [reflexivity|]. cbn [lay_all]. rewrite map_app, lay_ids, IH. reflexivity. Qed.

  Lemma lookup_in l n x : NoDup (map fst l) -> In (n, x) l -> lookup l n = x.
  Proof.
    unfold lookup. induction l as [|[m y] r IH]; [intros _ []|]. cbn [map fst find]. intros N [E|H].
    - inversion E; subst. rewrite Nat.eqb_refl. reflexivity.
    - apply NoDup_cons_iff in N. destruct N as [N1 N2]. destruct (Nat.eqb_spec m n) as [->|]; [|auto].
      exfalso. apply N1. apply in_map_iff. exists (n, x). auto.
  Qed.

  Section Rows.
    Variable rows : list (nat * (node * D)).
    Variable x : X.
    Hypothesis N : NoDup (map fst rows).
    Let s : wstate D X := mkState (fun m => fst (lookup rows m)) (fun m => snd (lookup rows m)) x.
    Lemma lay_top t p pv nx : incl (lay p pv nx t) rows -> parent (w_heap s (wid t)) = Some p /\ prev (w_heap s (wid t)) = pv /\ next (w_heap s (wid t)) = nx /\
      first (w_heap s (wid t)) = headof (map wid (wkids t)) None /\ last (w_heap s (wid t)) = lastof None (map wid (wkids t)) /\ w_info s (wid t) = wdata t.
    Proof.
      intros I. destruct t as [n d kids]. cbn [wid wkids wdata].
      pose proof (lookup_in rows n _ N (I _ (or_introl eq_refl))) as E. unfold s. cbn [w_heap w_info]. rewrite E. cbn. auto 8.
    Qed.
    Lemma lay_seg n : forall l pv, incl (lay_all n pv l) rows -> seg (w_heap s) n pv (map wid l) None.
    Proof.
      induction l as [|k r IH]; intros pv I; [exact Logic.I|]. cbn [lay_all] in I. cbn [map seg].
      destruct (lay_top k n pv (headof (map wid r) None)) as (a & b & c & _); [intros z Hz; apply I, in_or_app; auto|].
      repeat (split; [assumption|]). apply IH. intros z Hz. apply I, in_or_app. auto.
    Qed.
    Lemma lay_holds : forall t p pv nx, incl (lay p pv nx t) rows -> holds s t.
    Proof.
      apply (wtree_ind' (fun t => forall p pv nx, incl (lay p pv nx t) rows -> holds s t)). intros n d kids IH p pv nx I.
      destruct (lay_top (W n d kids) p pv nx I) as (_ & _ & _ & a & b & c). cbn [wid wkids wdata] in *.
      assert (I' : incl (lay_all n None kids) rows) by (intros z Hz; apply I; right; exact Hz).
      constructor; [exact c| |].
      - split; [exact a|]. split; [exact b|]. apply lay_seg, I'.
      - clear -IH I'. revert I'. generalize (@None nat) as v. induction IH as [|k r Hk _ IHr]; intros v I'; [constructor|].
        cbn [lay_all] in I'. constructor; [eapply Hk; intros z Hz; apply I', in_or_app; left; exact Hz|].
        apply (IHr (Some (wid k))). intros z Hz. apply I', in_or_app. right. exact Hz.
    Qed.
    Lemma lay_all_holds n : forall l pv, incl (lay_all n pv l) rows -> Forall (holds s) l.
    Proof.
      induction l as [|k r IH]; intros pv I; [constructor|]. cbn [lay_all] in I. constructor.
      - eapply lay_holds. intros z Hz. apply I, in_or_app. left. exact Hz.
      - apply (IH (Some (wid k))). intros z Hz. apply I, in_or_app. right. exact Hz.
    Qed.
  End Rows.

  Theorem layout_below root d x l : NoDup (root :: all_ids l) -> below (layout root d x l) root l /\ w_info (layout root d x l) root = d.
  Proof.
    intros N. unfold layout.
    set (rows := (root, (mkNode None None None (headof (map wid l) None) (lastof None (map wid l)) DDocument, d)) :: lay_all root None l).
    assert (N' : NoDup (map fst rows)) by (unfold rows; cbn [map fst]; rewrite lay_all_ids; exact N).
    assert (I : incl (lay_all root None l) rows) by (intros z Hz; right; exact Hz).
    pose proof (lookup_in rows root _ N' (or_introl eq_refl)) as E.
    split; [split|cbn [w_info]; rewrite E; reflexivity].
    - split; [cbn [w_heap]; rewrite E; reflexivity|]. split; [cbn [w_heap]; rewrite E; reflexivity|].
      apply lay_seg; assumption.
    - apply (lay_all_holds rows x N' root l None I).
  Qed.
End Doc.
