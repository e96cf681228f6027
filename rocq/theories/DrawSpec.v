(** What it takes for the text of a written path to be read back. *)
From Coq Require Import List NArith ZArith QArith Qcanon Bool Arith.
From Verif Require Import ParseModel PathModel PathSpec SegmentModel SegmentSpec.
Import ListNotations.
Local Close Scope Q_scope.

(** Numbers below ten to the sixteenth. *)
Definition moderate (x : Qc) : Prop := (- Q2Qc (inject_Z (10 ^ 16)) < x)%Qc /\ (x < Q2Qc (inject_Z (10 ^ 16)))%Qc.
(** The numbers of a command. *)
Definition numbers (c : cmd) : list Qc :=
  match c with
  | Close => []
  | Move _ p | Line _ p | SmoothQuad _ p => [px p; py p]
  | Hor _ x | Ver _ x => [x]
  | Smooth _ c p | Quad _ c p => [px c; py c; px p; py p]
  | Cubic _ c d p => [px c; py c; px d; py d; px p; py p]
  | Arc _ rx ry rot _ _ p => [rx; ry; rot; px p; py p]
  end.
