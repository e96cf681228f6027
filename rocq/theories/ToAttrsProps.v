(** C85: what the conversion of declarations to attributes keeps. *)
From Coq Require Import String List Bool.
From Verif Require Import ToAttrsModel ToAttrsSpec ToAttrsProofs.
Import ListNotations.
Local Open Scope string_scope.

(** A property about which stylesheets say nothing, and the element only with the property itself, keeps its value. *)
Theorem C85_value_partial : forall minify, sound minify -> forall k s e p, normal s p = None -> (k = true \/ strong s p = None) ->
  (forall b d, style e = Some b -> In d (declarations (minify b) ++ important (minify b)) -> about p d = true -> prop d = p /\ parsed d = true) ->
  p <> "font" -> p <> "marker" -> (p <> "fill" \/ ~ In (name e) animations) -> value s (job minify k e) p = value s e p.
Proof. exact value_kept. Qed.
Print Assumptions C85_value_partial.
(** Other attributes stay as they are. *)
Theorem C85_attributes : forall minify k e n, ~ In n convertible -> attribute n (attrs (job minify k e)) = attribute n (attrs e).
Proof. exact attribute_kept. Qed.
Print Assumptions C85_attributes.
(** What can be converted is, important declarations if so asked; an empty [style] goes. *)
Theorem C85_rest : forall minify k e b, style (job minify k e) = Some b -> Forall (fun d => vendor d = true \/ parsed d = false \/ ~ In (prop d) convertible) (declarations b) /\
  (k = false -> Forall (fun d => vendor d = true \/ parsed d = false \/ ~ In (prop d) convertible) (important b)) /\ (declarations b <> [] \/ important b <> []).
Proof. exact rest. Qed.
Print Assumptions C85_rest.
(** Important declarations stay if so asked. *)
Theorem C85_important : forall minify e b, style e = Some b -> match style (job minify true e) with Some b' => important b' | None => [] end = important (minify b).
Proof. exact important_stays. Qed.
Print Assumptions C85_important.
(** Declarations that cannot be converted stay, in their order. *)
Theorem C85_stay : forall minify k e b, style e = Some b -> let b' := match style (job minify k e) with Some b' => b' | None => mkBlock [] [] end in
  let fixed := filter (fun d => vendor d || negb (parsed d) || negb (existsb (String.eqb (prop d)) convertible)) in
  fixed (declarations b') = fixed (declarations (minify b)) /\ fixed (important b') = fixed (important (minify b)).
Proof. exact fixed_stay. Qed.
Print Assumptions C85_stay.

Definition nothing_said : sheets := mkSheets (fun _ => None) (fun _ => None).
Definition d (p : string) (v : nat) : declaration := mkDecl p false true v.
(** [<rect width="5" fill="1" style="stroke:2;fill:3;fill:4!important;line-height:7"/>] *)
Definition rect : element := mkElement "rect" [("width", 5); ("fill", 1)] (Some (mkBlock [d "stroke" 2; d "fill" 3; d "line-height" 7] [d "fill" 4])).
Example C85_rect : job (fun b => b) false rect = mkElement "rect" [("width", 5); ("fill", 4); ("stroke", 2)] (Some (mkBlock [d "line-height" 7] [])) /\
  job (fun b => b) true rect = mkElement "rect" [("width", 5); ("fill", 3); ("stroke", 2)] (Some (mkBlock [d "line-height" 7] [d "fill" 4])).
Proof. split; vm_compute; reflexivity. Qed.
Example C85_rect_values : value nothing_said rect "fill" = Some 4 /\ value nothing_said (job (fun b => b) false rect) "fill" = Some 4 /\ value nothing_said (job (fun b => b) false rect) "stroke" = Some 2 /\
  value nothing_said (job (fun b => b) false rect) "line-height" = Some 7.
Proof. repeat split; vm_compute; reflexivity. Qed.
Example C85_minify : sound (fun b => b). Proof. intros b p. split; reflexivity. Qed.

(** [<style>*{fill:blue}</style><rect style="fill:red"/>] turns blue. *)
Theorem C85_sheet_refuted : exists s e, (forall p, strong s p = None) /\ value s (job (fun b => b) false e) "fill" <> value s e "fill".
Proof. exists (mkSheets (fun p => if String.eqb p "fill" then Some 9 else None) (fun _ => None)), (mkElement "rect" [] (Some (mkBlock [d "fill" 1] []))). split; [reflexivity|]. vm_compute. discriminate. Qed.
Print Assumptions C85_sheet_refuted.
(** As it does with [!important] by default. *)
Theorem C85_important_refuted : exists s e, value s (job (fun b => b) false e) "fill" <> value s e "fill" /\ value s (job (fun b => b) true e) "fill" = value s e "fill".
Proof. exists (mkSheets (fun p => if String.eqb p "fill" then Some 9 else None) (fun _ => None)), (mkElement "rect" [] (Some (mkBlock [] [d "fill" 1]))). split; vm_compute; [discriminate|reflexivity]. Qed.
Print Assumptions C85_important_refuted.
(** [<g style="font:15px serif"/>] becomes [<g font="15px serif"/>], which says nothing of the size; [marker] likewise. *)
Theorem C85_font_refuted : exists e, value nothing_said e "font-size" = Some 1 /\ value nothing_said (job (fun b => b) false e) "font-size" = None.
Proof. exists (mkElement "g" [] (Some (mkBlock [d "font" 1] []))). split; vm_compute; reflexivity. Qed.
Print Assumptions C85_font_refuted.
Theorem C85_marker_refuted : exists e, value nothing_said e "marker-end" = Some 1 /\ value nothing_said (job (fun b => b) false e) "marker-end" = None.
Proof. exists (mkElement "path" [] (Some (mkBlock [d "marker" 1] []))). split; vm_compute; reflexivity. Qed.
Print Assumptions C85_marker_refuted.
(** [<animate fill="freeze" style="fill:red"/>] ends as [<animate fill="red"/>], which no longer freezes. *)
Theorem C85_animate_refuted : exists e, at_the_end e = Some 1 /\ at_the_end (job (fun b => b) false e) = Some 2.
Proof. exists (mkElement "animate" [("fill", 1)] (Some (mkBlock [d "fill" 2] []))). split; vm_compute; reflexivity. Qed.
Print Assumptions C85_animate_refuted.
