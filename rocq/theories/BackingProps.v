(** cleanupEnableBackground only removes backgrounds that no filter can see (C103). *)
From Coq Require Import String List NArith QArith Bool.
From Verif Require Import Chars ViewModel BackingModel BackingSpec BackingProofs.
Import ListNotations.

(** Without a filter every enable-background goes, and nothing else. *)
Theorem C103_no_filter t : ~ has_filter t -> alike without_filter t (cleanup true t).
Proof. exact (without_ok t). Qed.
Print Assumptions C103_no_filter.
(** With one, exactly the attributes that are as large as their element change. *)
Theorem C103_filter t : has_filter t -> alike with_filter t (cleanup true t).
Proof. exact (with_ok t). Qed.
Print Assumptions C103_filter.
(** With a filter the backgrounds are the same, if they are given by attributes and begin at the origin. *)
Theorem C103_effect_partial t : has_filter t -> (forall e, element_of t e -> attributes_only e /\ at_origin e) -> alike same_effect t (cleanup true t).
Proof. exact (effect_kept t). Qed.
Print Assumptions C103_effect_partial.
(** A mask of an inch by ten pixels. *)
Example C103_ex_mask : has_filter sample_mask /\ (forall e, element_of sample_mask e -> attributes_only e /\ at_origin e) /\
  cleanup true sample_mask = BNode (plain BSvg) [BNode (mkBelem BMask (Some (BStyle [] [DKnown 1])) (Some (BDefined (BNew None))) (Some (LIn 1)) (Some (LPx 10)) 7) []; BNode (plain BFilter) []].
Proof. exact mask_sample. Qed.
(** Running the job again changes nothing; switched off it does nothing. *)
Theorem C103_twice b t : cleanup b (cleanup b t) = cleanup b t.
Proof. exact (twice b t). Qed.
Print Assumptions C103_twice.
Theorem C103_disabled t : cleanup false t = t.
Proof. exact (disabled_ok t). Qed.
Print Assumptions C103_disabled.
(** A background that is declared in a style is lost, filter or not. *)
Theorem C103_style_refuted : exists t, has_filter t /\ background (root_of t) <> None /\ b_back (root_of t) = None /\ background (root_of (cleanup true t)) = None.
Proof. exact style_refuted. Qed.
Print Assumptions C103_style_refuted.
(** So is one that does not begin at the origin. *)
Theorem C103_shifted_refuted : exists t, has_filter t /\ ~ at_origin (root_of t) /\ background (root_of t) = Some (inr (BDefined (BNew (Some (5, 5, 100, 100)%Q)))) /\ background (root_of (cleanup true t)) = None.
Proof. exact shifted_refuted. Qed.
Print Assumptions C103_shifted_refuted.
