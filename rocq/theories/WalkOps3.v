From Coq Require Import List Arith Bool Lia.
From Verif Require Import DomModel DomSpec DomProofs WalkModel WalkSpec WalkProofs WalkOps WalkOps2.
Import ListNotations.

(** [replace_children] links the given nodes. *)
Lemma replace_loop self : forall l a h, NoDup (a :: l) -> ~ In self (a :: l) ->
  let '(h1, lst) := replace_children_loop h self (a :: l) (Some a) in
  exists z, lst = Some z /\ lastof None (a :: l) = Some z /\
  let h2 := set_next (set_parent h1 z (Some self)) z None in
  seg h2 self (prev (h a)) (a :: l) None /\
  (forall m, ~ In m (a :: l) -> h2 m = h m) /\ (forall m, first (h2 m) = first (h m) /\ last (h2 m) = last (h m)).
Proof.
  induction l as [|b l IH]; intros a h N Ns.
  - cbn [replace_children_loop]. exists a. split; [reflexivity|]. split; [reflexivity|]. cbn zeta. split; [|split].
    + cbn [seg headof]. unfold set_next, set_parent. rewrite !Nat.eqb_refl. cbn. auto.
    + intros m Hm. unfold set_next, set_parent. destruct (Nat.eqb_spec m a) as [->|]; [|reflexivity]. exfalso. apply Hm. left. reflexivity.
    + intros m. unfold set_next, set_parent. destruct (m =? a); cbn; auto.
  - apply NoDup_cons_iff in N. destruct N as [Na N].
    set (h1 := set_prev (set_next (set_parent h a (Some self)) a (Some b)) b (Some a)).
    change (replace_children_loop h self (a :: b :: l) (Some a)) with (replace_children_loop h1 self (b :: l) (Some b)).
    assert (Ns' : ~ In self (b :: l)) by (intros H; apply Ns; right; exact H).
    specialize (IH b h1 N Ns'). destruct (replace_children_loop h1 self (b :: l) (Some b)) as [h2 lst].
    cbv zeta in IH. destruct IH as (z & -> & Hz & Hseg & Hout & Hfl). exists z. split; [reflexivity|]. split; [exact Hz|].
    cbn zeta in *. set (h3 := set_next (set_parent h2 z (Some self)) z None) in *.
    assert (Ha : h3 a = h1 a) by (apply Hout, Na).
    assert (Hab : a <> b) by (intros ->; apply Na; left; reflexivity).
    assert (E1 : forall m, m <> a -> m <> b -> h1 m = h m).
    { intros m H1 H2. unfold h1, set_prev, set_next, set_parent. apply Nat.eqb_neq in H1, H2. rewrite H1, H2. reflexivity. }
    assert (E2 : parent (h1 a) = Some self /\ next (h1 a) = Some b /\ prev (h1 a) = prev (h a)).
    { unfold h1, set_prev, set_next, set_parent. rewrite Nat.eqb_refl. apply Nat.eqb_neq in Hab. rewrite Hab. cbn. auto. }
    assert (E3 : prev (h1 b) = Some a).
    { unfold h1, set_prev. rewrite Nat.eqb_refl. reflexivity. }
    split; [|split].
    + rewrite E3 in Hseg. change (seg h3 self (prev (h a)) (a :: b :: l) None) with
        (parent (h3 a) = Some self /\ prev (h3 a) = prev (h a) /\ next (h3 a) = Some b /\ seg h3 self (Some a) (b :: l) None).
      rewrite Ha. tauto.
    + intros m Hm. rewrite Hout by (intros H; apply Hm; right; exact H). apply E1; intros ->; apply Hm; [left|right; left]; reflexivity.
    + intros m. destruct (Hfl m) as [-> ->]. unfold h1, set_prev, set_next, set_parent.
      destruct (m =? b), (m =? a); cbn; auto.
Qed.

Lemma replace_children_fields h self l : NoDup l -> ~ In self l ->
  let h' := replace_children h self l in
  seg h' self None l None /\ first (h' self) = headof l None /\ last (h' self) = lastof None l /\
  (parent (h' self) = parent (h self) /\ prev (h' self) = prev (h self) /\ next (h' self) = next (h self)) /\
  (forall m, m <> self -> ~ In m l -> h' m = h m) /\
  (forall m, m <> self -> first (h' m) = first (h m) /\ last (h' m) = last (h m)).
Proof.
  intros N Ns h'. unfold h', replace_children. destruct l as [|a l].
  - cbn [hd_error replace_children_loop]. cbn [seg headof lastof].
    assert (E : forall m, set_last (set_first h self None) self None m =
       if m =? self then {| parent := parent (h m); next := next (h m); prev := prev (h m); first := None; last := None; ndata := ndata (h m) |} else h m).
    { intros m. unfold set_last, set_first. destruct (m =? self); reflexivity. }
    rewrite !E, Nat.eqb_refl. cbn. split; [exact Logic.I|]. do 2 (split; [reflexivity|]). split; [auto|].
    split; intros m Hm; intros; rewrite !E; apply Nat.eqb_neq in Hm; rewrite Hm; auto.
  - cbn [hd_error]. set (h1 := set_prev (set_first h self (Some a)) a None).
    pose proof (replace_loop self l a h1 N Ns) as L. destruct (replace_children_loop h1 self (a :: l) (Some a)) as [h2 lst].
    cbv zeta in L. destruct L as (z & -> & Hz & Hseg & Hout & Hfl). cbn zeta in *. set (h3 := set_next (set_parent h2 z (Some self)) z None) in *.
    assert (Hsa : self <> a) by (intros ->; apply Ns; left; reflexivity).
    assert (P1 : prev (h1 a) = None) by (unfold h1, set_prev; rewrite Nat.eqb_refl; reflexivity). rewrite P1 in Hseg.
    assert (E : forall m, set_last h3 self (Some z) m =
       if m =? self then {| parent := parent (h3 m); next := next (h3 m); prev := prev (h3 m); first := first (h3 m); last := Some z; ndata := ndata (h3 m) |} else h3 m).
    { intros m. reflexivity. }
    assert (S1 : h3 self = h1 self) by (apply Hout, Ns).
    assert (S2 : h1 self = {| parent := parent (h self); next := next (h self); prev := prev (h self); first := Some a; last := last (h self); ndata := ndata (h self) |}).
    { unfold h1, set_prev, set_first. rewrite Nat.eqb_refl. apply Nat.eqb_neq in Hsa. rewrite Hsa. reflexivity. }
    split; [|split; [|split; [|split; [|split]]]].
    + apply seg_ext with (h := h3); [|exact Hseg]. intros c Hc. rewrite E. destruct (Nat.eqb_spec c self) as [->|]; [contradiction|]. auto.
    + rewrite E, Nat.eqb_refl. cbn [first]. rewrite S1, S2. reflexivity.
    + rewrite E, Nat.eqb_refl. cbn [last]. symmetry. exact Hz.
    + rewrite E, Nat.eqb_refl. cbn [parent prev next]. rewrite S1, S2. auto.
    + intros m H1 H2. rewrite E. destruct (Nat.eqb_spec m self) as [->|_]; [contradiction|]. rewrite Hout by exact H2.
      unfold h1, set_prev, set_first. assert (m <> a) by (intros ->; apply H2; left; reflexivity).
      apply Nat.eqb_neq in H, H1. rewrite H, H1. reflexivity.
    + intros m H1. rewrite E. destruct (Nat.eqb_spec m self) as [->|_]; [contradiction|]. destruct (Hfl m) as [-> ->].
      unfold h1, set_prev, set_first. apply Nat.eqb_neq in H1. rewrite H1. destruct (m =? a); auto.
Qed.

Section Ops.
  Context {D X : Type}.
  Implicit Types (s : wstate D X) (t : wtree D) (A B : list (wtree D)).

  (** A change inside the node. *)
  Lemma op_inner s s' anc A t t' B : place s anc (A ++ t :: B) -> wid t' = wid t -> holds s' t' ->
    (forall m, ~ In m (ids t) -> same_at s s' m) ->
    parent (w_heap s' (wid t)) = parent (w_heap s (wid t)) -> prev (w_heap s' (wid t)) = prev (w_heap s (wid t)) ->
    next (w_heap s' (wid t)) = next (w_heap s (wid t)) ->
    below s' (owner anc) (A ++ t' :: B) /\ only (owner anc) (all_ids (A ++ t :: B)) s s'.
  Proof.
    intros P Hw Ht' Hs h1 h2 h3.
    pose proof (place_node _ _ _ _ _ P) as (p & d & rest & -> & e1 & e2 & e3 & e4 & e5 & Ht & n1 & n2 & n3 & NA & Nt & NB & D1 & D2).
    destruct P as (_ & ((Hf & Hl & S) & F) & _). cbn [owner].
    assert (Eq : map wid (A ++ t' :: B) = map wid (A ++ t :: B)) by (rewrite !map_app; cbn [map]; rewrite Hw; reflexivity).
    assert (Sp : same_at s s' p) by (apply Hs, n2). destruct Sp as [Sp1 Sp2].
    split; [split|].
    - unfold linked. rewrite Eq, !Sp1. split; [exact Hf|]. split; [exact Hl|].
      apply seg_ext with (h := w_heap s); [|exact S]. intros c Hc. rewrite map_app in Hc. cbn [map] in Hc. apply in_app_iff in Hc.
      destruct Hc as [Hc|[<-|Hc]].
      + apply map_wid_all in Hc. destruct (D1 c Hc) as [Hc' _]. destruct (Hs c Hc') as [-> _]. auto.
      + auto.
      + apply map_wid_all in Hc. assert (Hc' : ~ In c (ids t)) by (intros H; apply (D2 c H Hc)). destruct (Hs c Hc') as [-> _]. auto.
    - apply Forall_app in F. destruct F as [FA F]. inversion F as [|? ? Ft FB]; subst. apply Forall_app. split; [|constructor; [exact Ht'|]].
      + rewrite Forall_forall in *. intros u Hu. eapply holds_same; [apply FA, Hu|]. intros m Hm. apply Hs.
        apply D1, in_flat_map. exists u. auto.
      + rewrite Forall_forall in *. intros u Hu. eapply holds_same; [apply FB, Hu|]. intros m Hm. apply Hs.
        intros H. apply (D2 m H), in_flat_map. exists u. auto.
    - split; [|split].
      + intros m _ Hm. apply Hs. intros H. apply Hm. rewrite all_ids_app, all_ids_cons, !in_app_iff. auto.
      + rewrite !Sp1. auto.
      + intros m Hm. apply Hs. intros H. apply Hm. rewrite all_ids_app, all_ids_cons, !in_app_iff. auto.
  Qed.

  (** Changing what the node carries. *)
  Theorem op_info s anc A t d B : place s anc (A ++ t :: B) ->
    let s' := put_info s (wid t) d in
    below s' (owner anc) (A ++ W (wid t) d (wkids t) :: B) /\ only (owner anc) (all_ids (A ++ t :: B)) s s'.
  Proof.
    intros P s'. pose proof (place_node _ _ _ _ _ P) as (p & d' & rest & -> & e1 & e2 & e3 & e4 & e5 & Ht & n1 & n2 & n3 & NA & Nt & NB & D1 & D2).
    assert (Hi : forall m, m <> wid t -> w_info s' m = w_info s m).
    { intros m Hm. unfold s', put_info. cbn. apply Nat.eqb_neq in Hm. rewrite Hm. reflexivity. }
    rewrite ids_eq in Nt. apply NoDup_cons_iff in Nt. destruct Nt as [Nn Nk].
    apply op_inner; auto.
    - inversion Ht as [i dd kk Hd Hlk Hk]; subst t. cbn [wid wkids] in *. constructor.
      + unfold s', put_info. cbn. rewrite Nat.eqb_refl. reflexivity.
      + exact Hlk.
      + rewrite Forall_forall in *. intros u Hu. eapply holds_same; [apply Hk, Hu|]. intros m Hm. split; [reflexivity|].
        apply Hi. intros ->. apply Nn, in_flat_map. exists u. auto.
    - intros m Hm. split; [reflexivity|]. apply Hi. intros ->. apply Hm, wid_ids.
  Qed.

  (** Replacing the children by nodes from below. *)
  Theorem op_replace s anc A n d kids B l : place s anc (A ++ W n d kids :: B) ->
    Forall (holds s) l -> incl (all_ids l) (all_ids kids) -> NoDup (all_ids l) ->
    let s' := put_heap s (replace_children (w_heap s) n (map wid l)) in
    made_of (W n d kids) [W n d l] /\
    below s' (owner anc) (A ++ W n d l :: B) /\ only (owner anc) (all_ids (A ++ W n d kids :: B)) s s'.
  Proof.
    intros P Hl I Nl s'. pose proof (place_node _ _ _ _ _ P) as (p & d' & rest & -> & e1 & e2 & e3 & e4 & e5 & Ht & n1 & n2 & n3 & NA & Nt & NB & D1 & D2).
    cbn [ids] in Nt. fold (all_ids kids) in Nt. apply NoDup_cons_iff in Nt. destruct Nt as [Nn Nk].
    assert (Nself : ~ In n (map wid l)) by (intros H; apply Nn, I, map_wid_all, H).
    destruct (replace_children_fields (w_heap s) n (map wid l) (nodup_tops _ Nl) Nself) as (Hseg & Hf & Hla & (a1 & a2 & a3) & Hout & Hfl).
    split; [|apply op_inner; auto].
    - split.
      + unfold all_ids at 1. cbn [flat_map ids]. rewrite app_nil_r. intros m [<-|Hm]; [left; reflexivity|right; apply I, Hm].
      + unfold all_ids. cbn [flat_map ids]. rewrite app_nil_r. constructor; [|exact Nl]. intros H. apply Nn, I, H.
    - inversion Ht as [i dd kk Hd Hlk Hk]; subst i kk. constructor; [exact Hd|split; [exact Hf|split; [exact Hla|exact Hseg]]|].
      rewrite Forall_forall in *. intros u Hu. assert (Iu : forall m, In m (ids u) -> In m (all_ids kids)).
      { intros m Hm. apply I, in_flat_map. exists u. auto. }
      eapply holds_frame; [apply Hl, Hu| |].
      + intros m Hm. split; [reflexivity|]. apply Hfl. intros ->. apply Nn, Iu, Hm.
      + intros m Hm. assert (Hm' : In m (ids u)) by (rewrite ids_eq; right; exact Hm).
        unfold s', put_heap. cbn [w_heap]. rewrite Hout; [auto| |].
        * intros ->. apply Nn, Iu, Hm'.
        * eapply deep_not_top; eauto.
    - intros m Hm. split; [|reflexivity]. unfold s', put_heap. cbn [w_heap]. apply Hout.
      + intros ->. apply Hm. left. reflexivity.
      + intros H. apply Hm. right. apply I, map_wid_all, H.
  Qed.

  (** Reading the children. *)
  Lemma collect_linked s p : forall l f a it, fwd it l -> seg (w_heap s) p a l None -> NoDup l -> length l < f ->
    collect f (w_heap s) it = Some l.
  Proof.
    induction l as [|c r IH]; intros f a it Hi Hs N Hf; (destruct f as [|f]; [cbn in Hf; lia|]); cbn [collect].
    - pose proof (fwd_nil s it Hi) as E. destruct (iter_next (w_heap s) it) as [it' o]. cbn in E. subst o. reflexivity.
    - destruct (fwd_cons s p a c r it Hi Hs N) as (it' & -> & Hi'). cbn [seg] in Hs. apply NoDup_cons_iff in N.
      rewrite (IH f (Some c) it'); [reflexivity|exact Hi'|tauto|tauto|cbn in Hf; lia].
  Qed.
  Lemma collect_children s p l f : linked s p l -> NoDup l -> length l < f ->
    collect f (w_heap s) (child_nodes_iter (w_heap s) p) = Some l.
  Proof. intros L N Hf. eapply collect_linked; eauto; [apply fwd_start, L|apply L]. Qed.

  Fixpoint depths (k : nat) (t : wtree D) : list (nat * nat) := match t with W n _ l => (k, n) :: flat_map (depths (S k)) l end.

  Lemma read_S f s k n : read (S f) s k n = option_map (cons (k, n)) (read_all f s (S k) (child_nodes_iter (w_heap s) n)).
  Proof. reflexivity. Qed.
  Lemma read_all_S f s k it : read_all (S f) s k it =
    match iter_next (w_heap s) it with (_, None) => Some [] | (it, Some c) =>
      match read f s k c, read_all f s k it with Some a, Some b => Some (a ++ b) | _, _ => None end end.
  Proof. reflexivity. Qed.

  Lemma read_all_of s k p : forall l a it, Forall (fun t => exists f0, forall f, f0 <= f -> read f s k (wid t) = Some (depths k t)) l ->
    fwd it (map wid l) -> seg (w_heap s) p a (map wid l) None -> NoDup (map wid l) ->
    exists f0, forall f, f0 <= f -> read_all f s k it = Some (flat_map (depths k) l).
  Proof.
    induction l as [|t r IH]; intros a it HF Hi Hs N.
    - exists 1. intros f Hf. destruct f as [|f]; [lia|]. rewrite read_all_S. pose proof (fwd_nil s it Hi) as E.
      destruct (iter_next (w_heap s) it) as [it' o]. cbn in E. subst o. reflexivity.
    - cbn [map] in *. destruct (fwd_cons s p a (wid t) (map wid r) it Hi Hs N) as (it' & E & Hi'). cbn [seg] in Hs. apply NoDup_cons_iff in N.
      inversion HF as [|? ? (f1 & H1) HF']; subst. destruct (IH (Some (wid t)) it' HF' Hi' ltac:(tauto) ltac:(tauto)) as (f2 & H2).
      exists (S (f1 + f2)). intros f Hf. destruct f as [|f]; [lia|]. rewrite read_all_S, E, H1, H2 by lia. reflexivity.
  Qed.
  (** A document that holds a tree is written as that tree. *)
  Theorem read_holds s t : holds s t -> NoDup (ids t) -> forall k, exists f0, forall f, f0 <= f -> read f s k (wid t) = Some (depths k t).
  Proof.
    revert t. apply (wtree_ind' (fun t => holds s t -> NoDup (ids t) -> forall k, exists f0, forall f, f0 <= f -> read f s k (wid t) = Some (depths k t))).
    intros n d kids IH H N k. inversion H as [i dd kk Hd Hlk Hk]; subst i dd kk. cbn [ids] in N. fold (all_ids kids) in N. apply NoDup_cons_iff in N. destruct N as [Nn Nk].
    destruct (read_all_of s (S k) n kids None (child_nodes_iter (w_heap s) n)) as (f0 & Hf).
    - rewrite Forall_forall in *. intros u Hu. apply IH; auto.
      clear -Nk Hu. induction kids as [|x r IHk]; [destruct Hu|]. rewrite all_ids_cons in Nk. apply nodup_app_iff in Nk.
      destruct Hu as [->|Hu]; [tauto|]. apply IHk; tauto.
    - apply fwd_start, Hlk.
    - apply Hlk.
    - apply nodup_tops, Nk.
    - exists (S f0). intros f H1. destruct f as [|f]; [lia|]. cbn [wid]. rewrite read_S, Hf by lia. reflexivity.
  Qed.
  Theorem read_below s p l : below s p l -> NoDup (all_ids l) -> forall k, exists f0, forall f, f0 <= f -> read_all f s k (child_nodes_iter (w_heap s) p) = Some (flat_map (depths k) l).
  Proof.
    intros (Hlk & Hk) N k. apply (read_all_of s k p l None).
    - rewrite Forall_forall in *. intros u Hu. apply read_holds; auto.
      clear -N Hu. induction l as [|x r IHk]; [destruct Hu|]. rewrite all_ids_cons in N. apply nodup_app_iff in N.
      destruct Hu as [->|Hu]; [tauto|]. apply IHk; tauto.
    - apply fwd_start, Hlk.
    - apply Hlk.
    - apply nodup_tops, N.
  Qed.
End Ops.

Section Document.
  Context {D X : Type}.
  Variable is_elem : D -> bool.
  Variable enter_r : X -> @around D -> wtree D -> X -> @enter_act D -> Prop.
  Variable exit_r leaf_r : X -> @around D -> wtree D -> X -> list (wtree D) -> Prop.
  Variable gone_r : X -> wtree D -> X -> Prop.
  Variable enter : nat -> wstate D X -> nat -> option (wstate D X * bool).
  Variable exit leaf : nat -> wstate D X -> nat -> option (wstate D X).
  Hypothesis Henter : enter_ok enter_r enter.
  Hypothesis Hexit : put_ok exit exit_r.
  Hypothesis Hleaf : put_ok leaf leaf_r.
  Hypothesis Hgone : gone_ok gone_r exit.

  (** The walk from a document node whose children are the trees [l]. *)
  Theorem document_correct root d x l x' out :
    runs_list is_elem enter_r exit_r leaf_r gone_r [(root, d)] [] x l x' out ->
    exists f0, forall f s, f0 <= f -> w_aux s = x -> w_info s root = d -> below s root l -> NoDup (root :: all_ids l) ->
    exists s', visit_document D X is_elem enter exit leaf f s root = Some s' /\ w_aux s' = x' /\ below s' root out /\
      incl (all_ids out) (all_ids l) /\ NoDup (all_ids out) /\ only root (all_ids l) s s'.
  Proof.
    intros R. destruct (proj2 (walk_correct is_elem enter_r exit_r leaf_r gone_r enter exit leaf Henter Hexit Hleaf Hgone) _ _ _ _ _ _ R) as (f0 & H).
    exists f0. intros f s Hf Hx Hd Hb N. destruct (H f s (child_nodes_iter (w_heap s) root) Hf Hx) as ((I & No) & s' & E & Ex & Eb & Eo).
    - cbn [place above app map fst]. split; [auto|]. split; [exact Hb|exact N].
    - apply fwd_start, Hb.
    - exists s'. unfold visit_document. auto 8.
  Qed.
End Document.

Section Keep.
  Context {D X : Type}.
  Implicit Types (s : wstate D X) (t : wtree D) (A B : list (wtree D)).
  Lemma place_made s anc A t B d : place s anc (A ++ t :: B) -> made_of t [W (wid t) d (wkids t)].
  Proof.
    intros P. destruct (place_node _ _ _ _ _ P) as (p & d' & rest & -> & _ & _ & _ & _ & _ & _ & _ & _ & _ & _ & Nt & _).
    unfold made_of. replace (all_ids [W (wid t) d (wkids t)]) with (ids t); [split; [apply incl_refl|exact Nt]|].
    unfold all_ids. cbn [flat_map]. rewrite app_nil_r. destruct t; reflexivity.
  Qed.
  Lemma only_refl p l s : only p l s s.
  Proof. split; [auto|]. split; auto. Qed.
  Lemma place_holds s anc A t B : place s anc (A ++ t :: B) -> holds s t.
  Proof. intros P. destruct (place_node _ _ _ _ _ P) as (p & d' & rest & -> & _ & _ & _ & _ & _ & H & _). exact H. Qed.
  Lemma holds_info s t : holds s t -> w_info s (wid t) = wdata t.
  Proof. intros H. inversion H; subst. reflexivity. Qed.
  Lemma keep_ok s anc A t B : place s anc (A ++ t :: B) ->
    made_of t [t] /\ below s (owner anc) (A ++ [t] ++ B) /\ only (owner anc) (all_ids (A ++ t :: B)) s s.
  Proof.
    intros P. split; [|split; [|apply only_refl]].
    - rewrite (wtree_eta t) at 2. eapply place_made, P.
    - destruct anc as [|[p d] r]; [destruct P|]. apply P.
  Qed.
End Keep.
