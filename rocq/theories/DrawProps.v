(** C24, from segments to text and back. *)
From Coq Require Import Ascii String List NArith ZArith QArith Qcanon Bool Arith Lia.
From Verif Require Import Chars ParseModel ShapeModel PathModel PathSpec SegmentModel SegmentSpec SegmentProofs SegmentProofs2 SegmentProofs3 SegmentProofs4 DrawSpec DrawProofs.
From Verif Require SegmentProps.
Import ListNotations.
Local Close Scope Q_scope.
Local Close Scope string_scope.
Local Open Scope nat_scope.

(** Whatever segments are written, the text that is printed is read back as exactly the commands that
    were chosen, including those the letter of which is left out. Missing: arcs, more than five
    decimal places, numbers from ten to the sixteenth on. *)
Theorem C24_text_partial : forall (finite : dec -> bool) t gs o, (forall d, PathSpec.plain d -> finite d = true) ->
  to_svg t gs = Some o -> gs <> [] -> precision t <= 5 -> Forall (fun c => Forall moderate (numbers (snd c))) o ->
  forall fuel, List.length o <= fuel ->
  exists l q, parse_path finite fuel (format_path (map (to_data (precision t)) o)) = Ok l q /\ cmds_of l = Some (map snd o).
Proof. exact text_back. Qed.
Print Assumptions C24_text_partial.

(** From commands to text: the printed text draws what the commands did, under the conditions of
    [C24_optimize_partial]. *)
Theorem C24_text_drawing_partial : forall (finite : dec -> bool) t l gs, (forall d, PathSpec.plain d -> finite d = true) ->
  from_svg t l = Some gs -> smooth_matches l -> arcs_ok l -> ends_apart t l -> writable t gs ->
  gs <> [] -> precision t <= 5 ->
  exists o, optimize t l = Some o /\
    (Forall (fun c => Forall moderate (numbers (snd c))) o -> forall fuel, List.length o <= fuel ->
     exists m q cs, parse_path finite fuel (format_path (map (to_data (precision t)) o)) = Ok m q /\ cmds_of m = Some cs /\
       same_drawing (drawing l) (drawing cs)).
Proof. exact text_drawing. Qed.
Print Assumptions C24_text_drawing_partial.

Example C24_text_example :
  exists o, optimize SegmentProps.usual SegmentProps.figure = Some o /\ SegmentProps.read SegmentProps.figure <> [] /\
    Forall (fun c => Forall moderate (numbers (snd c))) o /\ existsb fst o = true /\
    exists l q, parse_path (fun _ => true) 20 (format_path (map (to_data 3) o)) = Ok l q /\ cmds_of l = Some (map snd o).
Proof.
  exists (got [] (optimize SegmentProps.usual SegmentProps.figure)).
  assert (A : optimize SegmentProps.usual SegmentProps.figure = Some (got [] (optimize SegmentProps.usual SegmentProps.figure)))
    by (apply got_some; vm_compute; reflexivity).
  assert (N : SegmentProps.read SegmentProps.figure <> []) by (apply nonempty_by; vm_compute; reflexivity).
  assert (M : Forall (fun c : SegmentModel.out => Forall moderate (numbers (snd c))) (got [] (optimize SegmentProps.usual SegmentProps.figure))).
  { apply moderate_by. vm_compute. reflexivity. }
  split; [exact A|]. split; [exact N|]. split; [exact M|]. split; [vm_compute; reflexivity|].
  apply (text_back (fun _ => true) SegmentProps.usual (SegmentProps.read SegmentProps.figure)); try exact A; try exact N; try exact M; [reflexivity|apply Nat.leb_le; reflexivity|apply Nat.leb_le; vm_compute; reflexivity].
Qed.
