(** C84: removing paths off the canvas does not change what is seen. *)
From Coq Require Import List QArith Qminmax Bool Arith.
From Verif Require Import GjkModel GjkSpec OffCanvasModel OffCanvasSpec OffCanvasProofs.
Import ListNotations.
Local Open Scope Q_scope.

(** The paths that go paint nothing within the canvas, and others stay, in their order, and are the same but for the closing of subpaths.
    Partial: in documents without references, nested coordinate systems, transforms in [style] and strokes, with the proportions of the viewport. *)
Theorem C84_seen_partial : forall c on r, Forall plain (r_children r) -> fitted c r -> thinned c r (drawings r) (drawings (job on r)).
Proof. exact job_thinned. Qed.
Print Assumptions C84_seen_partial.
(** Other elements stay. *)
Theorem C84_frame : forall on r, flat_map frame (r_children (job on r)) = flat_map frame (r_children r).
Proof. exact job_frame. Qed.
Print Assumptions C84_frame.
(** A path that starts on the canvas stays as it is. *)
Theorem C84_starts : forall v d p, In p (moves d) -> min_x v <= px p <= min_x v + width v -> min_y v <= py p <= min_y v + height v -> path_element v d = Some d.
Proof. exact start_stays. Qed.
Print Assumptions C84_starts.
(** Nothing changes when the size of the canvas is not known, or all of it is transformed. *)
Theorem C84_unknown : forall on r, r_viewbox r = None -> (forall n, r_width r <> Some (Pixels n)) \/ (forall n, r_height r <> Some (Pixels n)) -> job on r = r.
Proof. exact job_unknown. Qed.
Print Assumptions C84_unknown.
Theorem C84_transformed : forall on r t, r_transform r = Some t -> job on r = r.
Proof. exact job_moved. Qed.
Print Assumptions C84_transformed.

Definition triangle (x y w : Q) : path := mkPath [P x y] [mkSegment (P x y) [LineTo (P (x + w) y); LineTo (P x (y + w))]] 4 true.
Definition doc : root := mkRoot None None (Some (mkBox 0 0 10 10)) None
  [Inner Grouping None None [Path 1 None None 0 (triangle 2 2 3); Path 2 None None 0 (triangle (-(9)) 2 3)]; Inner Grouping (Some (P 5 5)) None [Path 3 None None 0 (triangle (-(4)) (-(4)) 1)]; Path 4 None None 0 (triangle (-(2)) 2 5)].
Example C84_doc : Forall plain (r_children doc) /\ fitted (P 30 30) doc /\ map (fun x => moves (snd x)) (drawings doc) = [[P 2 2]; [P (-(9)) 2]; [P (-(4)) (-(4))]; [P (-(2)) 2]] /\
  map (fun x => moves (snd x)) (drawings (job true doc)) = [[P 2 2]; [P (-(4)) (-(4))]; [P (-(2)) 2]].
Proof.
  split; [|split; [reflexivity|split; vm_compute; reflexivity]].
  assert (A : forall x y w, Forall arcs_ok (segs (triangle x y w))) by (intros x y w; constructor; [intros l L; cbn in L; destruct L as [L|[L|[]]]; discriminate|constructor]).
  repeat (constructor; [cbn [plain]; repeat match goal with |- _ /\ _ => split | |- True => exact Logic.I | |- Forall arcs_ok _ => apply A | |- _ == _ => reflexivity | |- _ = _ => reflexivity end|]). constructor.
Qed.

(** A stroke that reaches into the canvas goes. *)
Theorem C84_stroke_refuted : exists c r, (exists x, drawings r = [x] /\ seen c r x) /\ drawings (job true r) = [].
Proof. exists (P 10 10), (square [Path 1 None None 4 (mkPath [P (-(5)) (-(1))] [mkSegment (P (-(5)) (-(1))) [LineTo (P 15 (-(1)))]] 2 false)]). split; [|vm_compute; reflexivity]. eexists. split; [reflexivity|apply below_seen]. Qed.
(** So does a path that is used elsewhere, *)
Theorem C84_use_refuted : exists c r, (exists x, drawings r = [x] /\ seen c r x) /\ drawings (job true r) = [].
Proof. exists (P 10 10), (square [Inner Definitions None None [Path 1 None None 0 away]; Inner (Use 1 (-(20)) (-(20))) None None []]). split; [|vm_compute; reflexivity]. eexists. split; [reflexivity|apply away_seen]. Qed.
(** or in an inner [svg], *)
Theorem C84_nested_refuted : exists c r, (exists x, drawings r = [x] /\ seen c r x) /\ drawings (job true r) = [].
Proof. exists (P 10 10), (square [Inner (Nested (-(20)) (-(20))) None None [Path 1 None None 0 away]]). split; [|vm_compute; reflexivity]. eexists. split; [reflexivity|apply away_seen]. Qed.
(** or moved by [style="transform:translate(-20px,-20px)"], *)
Theorem C84_style_refuted : exists c r, (exists x, drawings r = [x] /\ seen c r x) /\ drawings (job true r) = [].
Proof. exists (P 10 10), (square [Path 1 None (Some (P (-(20)) (-(20)))) 0 away]). split; [|vm_compute; reflexivity]. eexists. split; [reflexivity|apply away_seen]. Qed.
(** or beside the view box, where the viewport has other proportions. *)
Theorem C84_proportion_refuted : exists c r, (exists x, drawings r = [x] /\ seen c r x) /\ drawings (job true r) = [].
Proof. exists (P 10 10), wide. split; [|vm_compute; reflexivity]. eexists. split; [reflexivity|apply beside_seen]. Qed.
(** A line that stays is closed, so that its ends are drawn as corners. *)
Theorem C84_closed_refuted : exists r i w d d', r_children r = [Path i None None w d] /\ r_children (job true r) = [Path i None None w d'] /\ closed d = false /\ closed d' = true.
Proof. exists (square [Path 1 None None 2 (mkPath [P (-(5)) 5] [mkSegment (P (-(5)) 5) [LineTo (P 5 5)]] 2 false)]). do 4 eexists. split; [reflexivity|]. vm_compute. repeat split. Qed.
Print Assumptions C84_stroke_refuted.
Print Assumptions C84_proportion_refuted.
