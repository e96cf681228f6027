(** What a configuration and a run of jobs mean, independently of the functions of the model. *)
From Coq Require Import String List NArith Bool Arith.
From Verif Require Import Chars JobsModel.
Import ListNotations.

Section Spec.
  Context {P D : Type}.

  (** The jobs that are configured, in table order. *)
  Definition configured (c : job -> option P) : list job :=
    filter (fun j => match c j with Some _ => true | None => false end) all_jobs.

  (** The jobs [js], run one after the other with their settings, take [d] to [d'] with outcomes [os]. *)
  Inductive runs (start : job -> P -> D -> outcome * D) (c : job -> option P) : list job -> D -> list outcome -> D -> Prop :=
  | runs_nil d : runs start c [] d [] d
  | runs_cons j js p d o d1 os d2 : c j = Some p -> start j p d = (o, d1) -> runs start c js d1 os d2 -> runs start c (j :: js) d (o :: os) d2.

  Definition fatal (o : outcome) : Prop := exists e, o = Failed e /\ e <> ComputedStylesError.
  Definition counted (o : outcome) : bool := match o with Finished false => true | _ => false end.

  (** The text names the job, in the spelling of SVGO's plugins: the field name with each underscore removed and the
      letter after it capitalised. *)
  Inductive camel : text -> text -> Prop :=
  | camel_nil : camel [] []
  | camel_cap c s t : (97 <= c <= 122)%N -> camel s t -> camel (95%N :: c :: s) ((c - 32)%N :: t)
  | camel_keep c s t : c <> 95%N -> ~ (65 <= c <= 90)%N -> camel s t -> camel (c :: s) (c :: t).
  Definition names (svgo : text) (j : job) : Prop := camel (field_name j) svgo.

  (** The entry of a plugin list asks for the job. *)
  Definition asks (svgo : text) (j : job) : Prop :=
    names svgo j \/ (svgo = lit "preset-default" /\ is_default j = true) \/ (names svgo ConvertPathData /\ j = ApplyTransforms).
End Spec.
