(** convertColors makes a document follow the text colour, but for its masks (C104). *)
From Coq Require Import List NArith Bool.
From Verif Require Import TintModel TintSpec TintProofs.
Import ListNotations.

(** Outside masks every colour that is given becomes the text colour, which is the one from outside the document; every other value is kept. *)
Theorem C104_converted_partial inherits t p es outer q : chain t p = Some es -> Forall (fun e => c_mask e = false) es -> Forall no_fallback es ->
  exists es', chain (convert (Some CurrentColor) t) p = Some es' /\ colour_at outer es' = outer /\ value_at inherits q None es' = option_map to_current (value_at inherits q None es).
Proof. exact (converted_ok inherits t p es outer q). Qed.
Print Assumptions C104_converted_partial.
(** In masks every value is kept that does not come from outside the mask. *)
Theorem C104_masks_partial inherits t p outside m below outer q : chain t p = Some (outside ++ m :: below) -> Forall (fun e => c_mask e = false) outside -> c_mask m = true ->
  (forall c c', colour_at c (m :: below) = colour_at c' (m :: below)) -> (forall v v', value_at inherits q v (m :: below) = value_at inherits q v' (m :: below)) ->
  exists es', chain (convert (Some CurrentColor) t) p = Some es' /\ colour_at outer es' = colour_at outer (outside ++ m :: below) /\ value_at inherits q None es' = value_at inherits q None (outside ++ m :: below).
Proof. exact (masks_ok inherits t p outside m below outer q). Qed.
Print Assumptions C104_masks_partial.
(** A document with a mask that meets both hypotheses. *)
Example C104_sample : (exists es, chain sample [0] = Some es /\ Forall (fun e => c_mask e = false) es /\ Forall no_fallback es) /\
  (exists outside m below, chain sample [1; 0] = Some (outside ++ m :: below) /\ Forall (fun e => c_mask e = false) outside /\ c_mask m = true /\
    (forall c c', colour_at c (m :: below) = colour_at c' (m :: below)) /\ forall v v', value_at inherited 1 v (m :: below) = value_at inherited 1 v' (m :: below)) /\
  convert (Some CurrentColor) sample = CNode (mkCelem false [AAttr 0 (VColor Current); AStyle [(1, VPaint (PUrl 4 (Some (FColor Current))))]]%N) [leaf [AAttr 2 (VPaint PNone)]; CNode (mkCelem true [fill 6; AAttr 0 (VColor (Rgb 8))]) [leaf []]].
Proof. exact sample_ok. Qed.
(** By default nothing changes; running the job again changes nothing. *)
Theorem C104_default t : convert None t = t /\ convert (Some Lightning) t = t.
Proof. exact (default_ok t). Qed.
Print Assumptions C104_default.
Theorem C104_twice m t : convert m (convert m t) = convert m t.
Proof. exact (twice m t). Qed.
Print Assumptions C104_twice.
(** What is drawn in a mask changes if its colour comes from outside. *)
Theorem C104_inherit_refuted : exists t p outside m below, chain t p = Some (outside ++ m :: below) /\ c_mask m = true /\ exists es', chain (convert (Some CurrentColor) t) p = Some es' /\ value_at inherited 1 None es' <> value_at inherited 1 None (outside ++ m :: below).
Proof. exact inherit_refuted. Qed.
Print Assumptions C104_inherit_refuted.
(** The colour for a missing paint server stays in an attribute. *)
Theorem C104_fallback_refuted : exists t p es u n, chain t p = Some es /\ Forall (fun e => c_mask e = false) es /\ exists es', chain (convert (Some CurrentColor) t) p = Some es' /\ value_at inherited 1 None es' = Some (VPaint (PUrl u (Some (FColor (Rgb n))))).
Proof. exact fallback_refuted. Qed.
Print Assumptions C104_fallback_refuted.
