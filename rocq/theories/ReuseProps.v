(** C89: equal paths become uses of one. *)
From Coq Require Import String List NArith Bool Arith.
From Verif Require Import Chars ReuseModel ReuseSpec ReuseProofs ReuseProofs2 ReuseProofs3 ReuseProofs4.
Import ListNotations.

(** A document is drawn in one way. *)
Theorem C89_one_picture : forall d o o', picture d o -> picture d o' -> o = o'.
Proof. exact (fun d o o' H H' => proj1 (draws_det d) blank (shape d) o H o' H'). Qed.
Print Assumptions C89_one_picture.

(** In a document with one svg, where the repeated paths are nothing but paths and are not in defs, where ids are unique and not those of the job, and where nothing refers to
    a repeated path, what is drawn stays the same: every shape with its paint, its transformations and its other attributes, in the same order. *)
Theorem C89_same_partial : forall d o, simple d -> picture d o -> picture (reuse_paths true d) o.
Proof. exact same_picture. Qed.
Print Assumptions C89_same_partial.

(** Without a path that has a shape nothing changes at all. *)
Theorem C89_nothing : forall d, (forall k, In k (keys (shape d)) -> fst (cells d k) = Path -> a_d (snd (cells d k)) = None) -> reuse_paths true d = d.
Proof. exact no_paths. Qed.
Print Assumptions C89_nothing.
Theorem C89_off : forall d, reuse_paths false d = d.
Proof. exact (fun d => eq_refl). Qed.
Print Assumptions C89_off.

(** Documents for the examples. *)
Definition mkd (l : list (nat * cell)) (t : tree) (n : nat) : doc :=
  mkDoc (fun k => match find (fun p => Nat.eqb (fst p) k) l with Some p => snd p | None => (Other, bare) end) t n [].
Definition at_path (i : option text) (d : nat) (fill turn style : option nat) : attrs := mkAttrs i (Some d) fill None None turn None style [] false.
Definition at_use (i : text) (turn : option nat) : attrs := mkAttrs None None None None (Some (url i)) turn None None [] true.
Definition at_id (i : text) : attrs := mkAttrs (Some i) None None None None None None None [] false.

(** Two equal paths in groups with transformations, and another. *)
Definition good : doc := mkd [(0, (Svg, bare)); (1, (Group, mkAttrs None None (Some 4) None None (Some 9) None None [] false)); (2, (Path, at_path (Some (lit "a")) 7 None (Some 1) None));
    (3, (Path, at_path None 7 None None None)); (4, (Path, at_path None 8 None None None)); (5, (Use, at_use (lit "g") None)); (6, (Group, at_id (lit "g"))); (7, (Path, at_path None 7 None (Some 3) None))]
  (Node 0 [Node 1 [Node 2 []; Node 4 []]; Node 3 []; Node 6 [Node 7 []]; Node 5 []]) 8.
Definition good_picture : list drawn :=
  [mkDrawn 7 (mkEnv (Some 4) None [Turn 9; Turn 1] []); mkDrawn 8 (mkEnv (Some 4) None [Turn 9] []); mkDrawn 7 (mkEnv None None [] []); mkDrawn 7 (mkEnv None None [Turn 3] []);
   mkDrawn 7 (mkEnv None None [Turn 3] [])].
Example C89_ex_picture : picture good good_picture.
Proof. apply (draw_sound 9). vm_compute. reflexivity. Qed.
Example C89_ex_same : picture (reuse_paths true good) good_picture.
Proof. apply (draw_sound 9). vm_compute. reflexivity. Qed.
Example C89_ex_reused : map (fun k => fst (cells (reuse_paths true good) k)) (keys (shape (reuse_paths true good))) = [Svg; Defs; Path; Group; Use; Path; Use; Group; Use; Use].
Proof. vm_compute. reflexivity. Qed.
Example C89_ex_simple : simple good.
Proof.
  refine (conj (conj _ _) (conj _ (conj _ (conj _ _)))).
  - repeat (apply NoDup_cons; [vm_compute; intuition discriminate|]). apply NoDup_nil.
  - vm_compute. repeat (apply Forall_cons; [repeat constructor|]). apply Forall_nil.
  - intros k k' i K K' H H'. cbn in K, K'.
    repeat (destruct K as [<-|K]; [try (vm_compute in H; discriminate)|]); try destruct K;
    (repeat (destruct K' as [<-|K']; [try (vm_compute in H'; discriminate)|]); try destruct K'); try reflexivity; vm_compute in H, H'; congruence.
  - intros k a K H. cbn in K. repeat (destruct K as [<-|K]; [try (vm_compute in H; discriminate); reflexivity|]). destruct K.
  - intros n. split; [intros (k & K & H)|intros k K H]; cbn in K; repeat (destruct K as [<-|K]; [cbn in H; discriminate|]); destruct K.
  - intros k (K & k' & K' & Nk & a & a' & C & _ & _). cbn in K.
    assert (Nr : forall i, has_id good k i -> ~ referred good i).
    { intros i H (j & J & R). cbn in J. repeat (destruct J as [<-|J]; [try (vm_compute in R; discriminate)|]); try destruct J.
      repeat (destruct K as [<-|K]; [vm_compute in C, H, R; congruence|]). destruct K. }
    refine (conj _ (conj _ (conj _ (conj _ (conj _ Nr))))).
    + intros l L. cbn in L. repeat (destruct L as [L|L]; [injection L; intros; subst; try reflexivity; vm_compute in C; discriminate|]). destruct L.
    + intros j b J (l & s & L & _). cbn in L. repeat (destruct L as [L|L]; [injection L; intros; subst; vm_compute in J; discriminate|]). destruct L.
    + repeat (destruct K as [<-|K]; [try reflexivity; vm_compute in C; discriminate|]). destruct K.
    + repeat (destruct K as [<-|K]; [try reflexivity; vm_compute in C; discriminate|]). destruct K.
    + repeat (destruct K as [<-|K]; [try reflexivity; vm_compute in C; discriminate|]). destruct K.
Qed.

(** A path in a group (or in a clipPath) inside of defs is removed, where it has no attribute but its shape and its paint, and the use of the group draws nothing. *)
Theorem C89_lost_refuted : exists d o o', picture d o /\ picture (reuse_paths true d) o' /\ o <> o'.
Proof.
  exists (mkd [(0, (Svg, bare)); (1, (Defs, bare)); (2, (Group, at_id (lit "x"))); (3, (Path, at_path None 7 None None None)); (4, (Use, at_use (lit "x") None)); (5, (Path, at_path None 7 None (Some 1) None))]
    (Node 0 [Node 1 [Node 2 [Node 3 []]]; Node 4 []; Node 5 []]) 6), [mkDrawn 7 (mkEnv None None [] []); mkDrawn 7 (mkEnv None None [Turn 1] [])], [mkDrawn 7 (mkEnv None None [Turn 1] [])].
  split; [apply (draw_sound 9); vm_compute; reflexivity|]. split; [apply (draw_sound 9); vm_compute; reflexivity|discriminate].
Qed.
Print Assumptions C89_lost_refuted.
(** The id of the first of the paths goes to the new one, so that what refers to it loses its transformation. *)
Theorem C89_referred_refuted : exists d o o', picture d o /\ picture (reuse_paths true d) o' /\ o <> o'.
Proof.
  exists (mkd [(0, (Svg, bare)); (1, (Path, at_path (Some (lit "a")) 7 None (Some 1) None)); (2, (Path, at_path None 7 None None None)); (3, (Use, at_use (lit "a") (Some 2)))]
    (Node 0 [Node 1 []; Node 2 []; Node 3 []]) 4),
    [mkDrawn 7 (mkEnv None None [Turn 1] []); mkDrawn 7 (mkEnv None None [] []); mkDrawn 7 (mkEnv None None [Turn 2; Turn 1] [])],
    [mkDrawn 7 (mkEnv None None [Turn 1] []); mkDrawn 7 (mkEnv None None [] []); mkDrawn 7 (mkEnv None None [Turn 2] [])].
  split; [apply (draw_sound 9); vm_compute; reflexivity|]. split; [apply (draw_sound 9); vm_compute; reflexivity|discriminate].
Qed.
Print Assumptions C89_referred_refuted.
(** The style of a path is weaker than the attribute that it had. *)
Theorem C89_style_refuted : exists d o o', picture d o /\ picture (reuse_paths true d) o' /\ o <> o'.
Proof.
  exists (mkd [(0, (Svg, bare)); (1, (Path, at_path None 7 (Some 5) None (Some 6))); (2, (Path, at_path None 7 (Some 5) None None))] (Node 0 [Node 1 []; Node 2 []]) 3),
    [mkDrawn 7 (mkEnv (Some 6) None [] []); mkDrawn 7 (mkEnv (Some 5) None [] [])], [mkDrawn 7 (mkEnv (Some 5) None [] []); mkDrawn 7 (mkEnv (Some 5) None [] [])].
  split; [apply (draw_sound 9); vm_compute; reflexivity|]. split; [apply (draw_sound 9); vm_compute; reflexivity|discriminate].
Qed.
Print Assumptions C89_style_refuted.
(** [x] and [y], which mean nothing on a path, move the use. *)
Theorem C89_shift_refuted : exists d o o', picture d o /\ picture (reuse_paths true d) o' /\ o <> o'.
Proof.
  exists (mkd [(0, (Svg, bare)); (1, (Path, mkAttrs None (Some 7) None None None None (Some 6) None [] false)); (2, (Path, at_path None 7 None None None))] (Node 0 [Node 1 []; Node 2 []]) 3),
    [mkDrawn 7 (mkEnv None None [] []); mkDrawn 7 (mkEnv None None [] [])], [mkDrawn 7 (mkEnv None None [Shift 6] []); mkDrawn 7 (mkEnv None None [] [])].
  split; [apply (draw_sound 9); vm_compute; reflexivity|]. split; [apply (draw_sound 9); vm_compute; reflexivity|discriminate].
Qed.
Print Assumptions C89_shift_refuted.
(** The new name may be in use, and what has it is drawn in the place of the paths. *)
Theorem C89_name_refuted : exists d o o', picture d o /\ picture (reuse_paths true d) o' /\ o <> o'.
Proof.
  exists (mkd [(0, (Svg, bare)); (1, (Defs, bare)); (2, (Path, at_path (Some (lit "reuse-0")) 8 None None None)); (3, (Path, at_path None 7 None None None)); (4, (Path, at_path None 7 None None None))]
    (Node 0 [Node 1 [Node 2 []]; Node 3 []; Node 4 []]) 5),
    [mkDrawn 7 (mkEnv None None [] []); mkDrawn 7 (mkEnv None None [] [])], [mkDrawn 8 (mkEnv None None [] []); mkDrawn 8 (mkEnv None None [] [])].
  split; [apply (draw_sound 9); vm_compute; reflexivity|]. split; [apply (draw_sound 9); vm_compute; reflexivity|discriminate].
Qed.
Print Assumptions C89_name_refuted.
(** With an svg in an svg the paths are taken again when the outer one is left, although they are uses by then, and all of them are gone. *)
Theorem C89_nested_refuted : exists d o, picture d o /\ o <> [] /\ picture (reuse_paths true d) [].
Proof.
  exists (mkd [(0, (Svg, bare)); (1, (Svg, bare)); (2, (Path, at_path (Some (lit "a")) 7 None None None)); (3, (Path, at_path None 7 None None None))] (Node 0 [Node 1 [Node 2 []; Node 3 []]]) 4),
    [mkDrawn 7 (mkEnv None None [] []); mkDrawn 7 (mkEnv None None [] [])].
  split; [apply (draw_sound 9); vm_compute; reflexivity|]. split; [discriminate|]. apply (draw_sound 9). vm_compute. reflexivity.
Qed.
Print Assumptions C89_nested_refuted.
(** What is in a path, such as its title or an animation, is gone. *)
Theorem C89_children_refuted : exists d k, In k (keys (shape d)) /\ fst (cells d k) = Other /\ ~ In k (keys (shape (reuse_paths true d))).
Proof.
  exists (mkd [(0, (Svg, bare)); (1, (Path, at_path None 7 None None None)); (2, (Path, at_path None 7 None None None)); (3, (Other, bare))] (Node 0 [Node 1 [Node 3 []]; Node 2 []]) 4), 3.
  split; [vm_compute; tauto|]. split; [reflexivity|]. vm_compute. intuition discriminate.
Qed.
Print Assumptions C89_children_refuted.
(** The prefix of [xlink:href] is declared for defs only, where the uses are not. *)
Theorem C89_prefix_refuted : exists d, bound d false (shape d) /\ ~ bound (reuse_paths true d) false (shape (reuse_paths true d)).
Proof.
  exists (mkd [(0, (Svg, bare)); (1, (Path, at_path None 7 None None None)); (2, (Path, at_path None 7 None None None))] (Node 0 [Node 1 []; Node 2 []]) 3). split.
  - cbn [shape mkd]. constructor; [intros H; exfalso; apply H; reflexivity|]. repeat (apply Forall_cons; [constructor; [intros H; exfalso; apply H; reflexivity|apply Forall_nil]|]). apply Forall_nil.
  - set (d' := reuse_paths true _). assert (E : shape d' = Node 0 [Node 3 [Node 4 []]; Node 1 []; Node 2 []]) by (vm_compute; reflexivity).
    intros B. rewrite E in B. inversion B as [b k l H1 H2]. subst. rewrite Forall_forall in H2. specialize (H2 (Node 1 []) (or_intror (or_introl eq_refl))).
    inversion H2 as [b k l H3 H4]. subst. specialize (H3 ltac:(vm_compute; discriminate)). vm_compute in H3. discriminate.
Qed.
Print Assumptions C89_prefix_refuted.
