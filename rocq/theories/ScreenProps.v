(** Comparing pictures, and writing them. *)
From Coq Require Import String List NArith Bool Arith Lia.
From Verif Require Import Chars ShellModel ExportModel ScreenModel ScreenSpec ScreenProofs.
Import ListNotations.

(** ** C118: visual regression *)
(** Pictures that are the same are never reported. *)
Theorem C118_same : forall l, compare (bytes_of l) (bytes_of l) = Some Ok.
Proof. exact compare_same. Qed.
Print Assumptions C118_same.
(** Which of two pictures is the original does not matter. *)
Theorem C118_symmetric : forall a b, compare a b = compare b a.
Proof. exact compare_sym. Qed.
Print Assumptions C118_symmetric.
(** There is no alarm when no more than 8/7 of one per cent of the pixels differ. *)
Theorem C118_alarm_partial : forall l r e m k, compare (bytes_of l) (bytes_of r) = Some (Broken e m) -> places differ k l r -> 2 * (4 * List.length l) < 100 * (7 * k).
Proof. exact compare_alarm. Qed.
Print Assumptions C118_alarm_partial.
(** There is one when more than eight per cent of the pixels are apart. *)
Theorem C118_missed_partial : forall l r k, compare (bytes_of l) (bytes_of r) = Some Ok -> places apart k l r -> 100 * k <= 8 * List.length l.
Proof. exact compare_missed. Qed.
Print Assumptions C118_missed_partial.
(** A document is reported exactly when it and its output can be drawn and the pictures are told apart. *)
Theorem C118_reported_partial : forall draw source output n m, regress draw source output = Some [Regressed n m] <->
  exists optimised a b, output = Some (Some optimised) /\ draw source = Some a /\ draw optimised = Some b /\ compare a b = Some (Broken n m).
Proof. exact regress_spec. Qed.
Print Assumptions C118_reported_partial.
(** Pictures of any number of blocks that differ in less than two per cent of their pixels, and are reported. *)
Theorem C118_alarm_refuted : forall n, 0 < n -> exists l r k e m, List.length l = 64 * n /\ places differ k l r /\ 100 * k < 2 * List.length l /\ compare (bytes_of l) (bytes_of r) = Some (Broken e m).
Proof.
  intros n Z. destruct (alarm_blocks n Z) as [P C]. exists (blocks n (block64 (255, 255, 255, 255)%N)), (blocks n (block64 white_pixel)), n, (7 * n), (256 * n).
  rewrite blocks_length. change (List.length (block64 (255, 255, 255, 255)%N)) with 64. split; [lia|]. split; [exact P|]. split; [lia|exact C].
Qed.
Print Assumptions C118_alarm_refuted.
(** And pictures with more than two per cent of their pixels apart that are not. *)
Theorem C118_missed_refuted : forall n, 0 < n -> exists l r k, List.length l = 32 * n /\ places apart k l r /\ 2 * List.length l < 100 * k /\ compare (bytes_of l) (bytes_of r) = Some Ok.
Proof.
  intros n Z. destruct (missed_blocks n) as [P C]. exists (blocks n (block32 (26, 26, 26, 26)%N)), (blocks n (block32 white_pixel)), n.
  rewrite blocks_length. change (List.length (block32 (26, 26, 26, 26)%N)) with 32. split; [lia|]. split; [exact P|]. split; [lia|exact C].
Qed.
Print Assumptions C118_missed_refuted.
(** An output that cannot be drawn at all is not reported. *)
Theorem C118_undrawn_refuted : exists draw source optimised, draw source <> None /\ draw optimised = None /\ regress draw source (Some (Some optimised)) = Some [].
Proof. exists (fun t => match t with [] => None | _ => Some [0; 0; 0; 0]%N end), [60%N], []. split; [discriminate|]. split; reflexivity. Qed.
Print Assumptions C118_undrawn_refuted.
Example C118_example : compare (bytes_of [(1, 2, 3, 4); (5, 6, 7, 8)]%N) (bytes_of [(1, 2, 3, 4); (5, 6, 60, 8)]%N) = Some (Broken 2 8)
  /\ compare (bytes_of [(1, 2, 3, 4); (5, 6, 7, 8)]%N) (bytes_of [(1, 2, 3, 4); (5, 6, 58, 8)]%N) = Some Ok /\ compare [1; 2; 3]%N [1; 2; 3]%N = None /\ compare [1; 2; 3; 4]%N [] = None.
Proof. repeat split; vm_compute; reflexivity. Qed.
Example C118_example_counts : places apart 1 [(0, 0, 0, 255); (9, 9, 9, 9)]%N [(0, 0, 52, 255); (9, 9, 60, 9)]%N.
Proof. apply places_yes; [vm_compute; reflexivity|]. apply places_no; [vm_compute; discriminate|]. constructor. Qed.

(** ** C119: rendering *)
(** One file for a document, at the output or else beside the document, named [png], with the bytes of the picture; or else the command tells that it failed. *)
Theorem C119_written_partial : forall draw denied source input output, match render draw denied source input output with
  | (Some (p, d), failed) => failed = false /\ draw source = Some d /\ exists q, (output = Some q \/ (output = None /\ input = Some q)) /\ p = set_extension q (lit "png")
  | (None, failed) => failed = true
  end.
Proof. exact render_spec. Qed.
Print Assumptions C119_written_partial.
(** The command succeeds exactly when there is a file for each document. *)
Theorem C119_status_partial : forall draw denied l, snd (render_all draw denied l) = true <-> List.length (fst (render_all draw denied l)) = List.length l.
Proof.
  intros draw denied l. unfold render_all. cbn [fst snd]. rewrite negb_true_iff. induction l as [|[[s i] o] l IH]; [cbn; tauto|]. cbn [existsb flat_map List.length fst snd]. rewrite app_length.
  assert (B : forall l, List.length (flat_map (fun x => match fst (render draw denied (fst (fst x)) (snd (fst x)) (snd x)) with Some w => [w] | None => [] end) l) <= List.length l).
  { clear. induction l as [|x l IH]; [cbn; lia|]. cbn [flat_map List.length]. rewrite app_length. destruct (fst (render _ _ _ _ _)); cbn [List.length]; lia. }
  specialize (B l). pose proof (render_spec draw denied s i o) as R. destruct (render draw denied s i o) as [[[p d]|] f]; cbn [fst snd List.length Nat.add].
  - destruct R as [-> _]. cbn [orb]. rewrite IH. lia.
  - subst f. cbn [orb]. split; [discriminate|lia].
Qed.
Print Assumptions C119_status_partial.
(** What is written is not a PNG, whatever the document. *)
Theorem C119_png_refuted : (forall draw denied source input output p l failed, render draw denied source input output = (Some (p, bytes_of l), failed) -> Forall premultiplied l -> ~ is_png (bytes_of l)) /\
  exists draw denied source input p l, render draw denied source (Some input) None = (Some (p, bytes_of l), false) /\ Forall premultiplied l /\ p = [lit "a"; lit "b.png"].
Proof.
  split; [intros; apply not_png; assumption|]. exists (fun _ => Some (bytes_of [(1, 2, 3, 4)%N])), (fun _ => false), [], [lit "a"; lit "b.svg"]. eexists. exists [(1, 2, 3, 4)%N].
  split; [vm_compute; reflexivity|]. split; [|reflexivity]. repeat constructor; vm_compute; discriminate.
Qed.
Print Assumptions C119_png_refuted.
Example C119_example : render_all (fun t => match t with [] => None | _ => Some [7]%N end) (fun _ => false)
  [([60%N], Some [lit "x.min.svg"], None); ([], Some [lit "y.svg"], None); ([60%N], Some [lit "z.svg"], Some [lit "o"; lit "z.svg"]); ([60%N], None, None)]
  = ([([lit "x.min.png"], [7%N]); ([lit "o"; lit "z.png"], [7%N])], false).
Proof. vm_compute. reflexivity. Qed.
Example C119_example_png : is_png (signature ++ [0; 0]%N).
Proof. exists [0; 0]%N. reflexivity. Qed.
