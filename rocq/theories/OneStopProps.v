(** convertOneStopGradients: what is painted looks the same (C77). *)
From Coq Require Import List Bool Arith.
From Verif Require Import OneStopModel OneStopSpec OneStopProofs.
Import ListNotations.

(** Partial: of documents with one [svg] element; false with several, with stops that are not opaque or have no colour of their own,
    with longer chains of references, and with references from style elements (below). *)
Theorem C77_look_partial : forall d r n, sound d -> 2 <= n -> exists d', run (map Elem d ++ [End r]) = Some d' /\
  (forall e, In e d -> ~ one_stop d e -> exists e', In e' d' /\ uid e' = uid e /\ looks n d' e' = looks n d e) /\
  (forall e', In e' d' -> exists e, In e d /\ ~ one_stop d e /\ uid e' = uid e).
Proof. exact look_kept. Qed.
Print Assumptions C77_look_partial.
(** Partial: of documents with one [svg] element. *)
Theorem C77_declared_partial : forall d r d' e x, NoDup (map uid d) -> run (map Elem d ++ [End r]) = Some d' -> In e d' -> xlink e <> None ->
  In x d' -> exists y, In y d /\ uid y = uid x /\ declares y = declares x.
Proof. exact declared. Qed.
Print Assumptions C77_declared_partial.

Definition opaque (c : stop_color) : stop := mkStop c 7 5 100.
Definition red : stop_color := Fixed (Rgb 1).
Definition svg (u : nat) : element := mkElement u None None None None None [] [] [] 0 false true.
Definition shape (u : nat) (a s c : list paint) : element := mkElement u None None None None None a s c 3 false false.
Definition grad (u i : nat) (l : list stop) (h : option reference) : element := mkElement u (Some i) (Some l) (Some u) None h [] [] [] 0 false false.
(** With [xlink:href]. *)
Definition xgrad (u i : nat) (l : list stop) (h : reference) : element := mkElement u (Some i) (Some l) None (Some h) None [] [] [] 0 false false.
Definition use (u : nat) : element := mkElement u None None None (Some (Local 99)) None [] [] [] 0 false false.
(** A gradient with one stop, one that refers to it, one with two stops, and shapes that use them. *)
Definition sample : list element :=
  [svg 0; grad 1 10 [opaque red] None; xgrad 2 20 [] (Local 10); grad 3 30 [opaque red; opaque (Fixed (Rgb 2))] None; shape 4 [Url 10 None; Url 30 None] [Url 20 (Some CurrentColor)] [Url 30 None]].
Example C77_example : sound sample /\
  run (map Elem sample ++ [End 0]) =
    Some [mkElement 0 None None None None None [] [] [] 0 false false; grad 3 30 [opaque red; opaque (Fixed (Rgb 2))] None; shape 4 [Color (Rgb 1); Url 30 None] [Color (Rgb 1)] [Url 30 None]].
Proof.
  split; [|vm_compute; reflexivity]. constructor.
  - vm_compute. repeat (constructor; [intros X; repeat (destruct X as [X|X]; [discriminate|]); destruct X|]). constructor.
  - intros e f i He Hf. repeat (destruct He as [<-|He]; [repeat (destruct Hf as [<-|Hf]; [cbn; intros; congruence|]); destruct Hf|]). destruct He.
  - intros e a b He. repeat (destruct He as [<-|He]; [cbn; intros; congruence|]). destruct He.
  - intros e r i He. repeat (destruct He as [<-|He]; [cbn; intros G [X|X] Y; try discriminate; injection X as <-; injection Y as <-; vm_compute; discriminate|]). destruct He.
  - intros e s He. repeat (destruct He as [<-|He]; [intros X; vm_compute in X; first [discriminate|injection X as <-; split; [reflexivity|exists 1; reflexivity]]|]). destruct He.
  - intros e t He. repeat (destruct He as [<-|He]; [intros G X; vm_compute in X; try discriminate; intros _; exists (opaque red); reflexivity|]). destruct He.
  - intros e i f g He. repeat (destruct He as [<-|He]; [intros X; repeat (destruct X as [X|X]; [try discriminate; injection X as <- <-; intros L; vm_compute in L; injection L as <-; intros [s Y]; vm_compute in Y; discriminate|]); destruct X|]). destruct He.
Qed.

(** The shape of a document looks otherwise afterwards. *)
Definition changed (l : list item) (u : nat) (before after : list rendered) : Prop :=
  option_map (looks 9 (elements l)) (find (fun e => Nat.eqb (uid e) u) (elements l)) = Some before /\
  match run l with Some d => option_map (looks 9 d) (find (fun e => Nat.eqb (uid e) u) d) | None => None end = Some after /\ before <> after.
Ltac witness l u b a := exists l, u, b, a; split; [reflexivity|split; [reflexivity|discriminate]].
(** [<stop offset="0"/>] is black; the gradient is removed and nothing is painted. *)
Theorem C77_unset_refuted : exists l u b a, changed l u b a.
Proof. witness [Elem (svg 0); Elem (grad 1 10 [opaque Unset] None); Elem (shape 2 [Url 10 None] [] []); End 0] 2 [Solid 0 100] [Nothing]. Qed.
(** A colour that depends on the media. *)
Theorem C77_dynamic_refuted : exists l u b a, changed l u b a.
Proof. witness [Elem (svg 0); Elem (grad 1 10 [opaque (Dynamic 4)] None); Elem (shape 2 [Url 10 None] [] []); End 0] 2 [Solid 4 100] [Nothing]. Qed.
(** [stop-opacity] is not looked at. *)
Theorem C77_opacity_refuted : exists l u b a, changed l u b a.
Proof. witness [Elem (svg 0); Elem (grad 1 10 [mkStop red 0 0 50] None); Elem (shape 2 [Url 10 None] [] []); End 0] 2 [Solid 1 50] [Solid 1 100]. Qed.
(** [currentColor] is that of the stop. *)
Theorem C77_current_refuted : exists l u b a, changed l u b a.
Proof. witness [Elem (svg 0); Elem (grad 1 10 [opaque (Fixed CurrentColor)] None); Elem (shape 2 [Url 10 None] [] []); End 0] 2 [Solid 5 100] [Solid 3 100]. Qed.
(** [rect{fill:url(#g)}] in a style element. *)
Theorem C77_sheet_refuted : exists l u b a, changed l u b a.
Proof. witness [Elem (svg 0); Elem (grad 1 10 [opaque red] None); Elem (shape 2 [] [] [Url 10 None]); End 0] 2 [Solid 1 100] [Nothing]. Qed.
(** A gradient with no stops whose template has none but has a template with one. *)
Theorem C77_chain_refuted : exists l u b a, changed l u b a.
Proof. witness [Elem (svg 0); Elem (grad 1 10 [opaque red] None); Elem (grad 2 20 [] (Some (Local 10))); Elem (grad 3 30 [] (Some (Local 20))); Elem (shape 4 [Url 30 None] [] []); End 0] 4 [Solid 1 100] [Nothing]. Qed.
(** A gradient with two stops that takes its coordinates from one with one stop. *)
Theorem C77_template_refuted : exists l u b a, changed l u b a.
Proof.
  witness [Elem (svg 0); Elem (grad 1 10 [opaque red] None); Elem (xgrad 2 20 [opaque red; opaque (Fixed (Rgb 2))] (Local 10)); Elem (shape 3 [Url 20 None] [] []); End 0] 3
    [Ramp [(1, 100); (2, 100)] (Some 1)] [Ramp [(1, 100); (2, 100)] None].
Qed.
(** A gradient that refers to nothing paints nothing; without it, the colour beside the reference is used. *)
Theorem C77_missing_refuted : exists l u b a, changed l u b a.
Proof. witness [Elem (svg 0); Elem (grad 1 10 [] (Some (Local 50))); Elem (shape 2 [Url 10 (Some (Rgb 6))] [] []); End 0] 2 [Nothing] [Solid 6 100]. Qed.
(** [href] has precedence over [xlink:href]. *)
Theorem C77_href_refuted : exists l u b a, changed l u b a.
Proof.
  witness [Elem (svg 0); Elem (grad 1 10 [opaque red] None); Elem (grad 2 20 [opaque (Fixed (Rgb 2))] None);
    Elem (mkElement 3 (Some 30) (Some []) None (Some (Local 10)) (Some (Local 20)) [] [] [] 0 false false); Elem (shape 4 [Url 30 None] [] []); End 0] 4 [Solid 2 100] [Solid 1 100].
Qed.
(** A template within an inner [svg] element is removed before what comes after that element is looked at. *)
Theorem C77_inner_refuted : exists l u b a, changed l u b a.
Proof. witness [Elem (svg 0); Elem (svg 1); Elem (grad 2 20 [opaque red] None); End 1; Elem (grad 3 30 [] (Some (Local 20))); Elem (shape 4 [Url 30 None] [] []); End 0] 4 [Solid 1 100] [Nothing]. Qed.
(** The count of [xlink:href] goes below zero: a panic, or in release builds a count that is never zero. *)
Theorem C77_panic_refuted : exists l, run l = None.
Proof. exists [Elem (svg 0); Elem (svg 1); Elem (grad 2 20 [opaque red] None); Elem (xgrad 3 30 [] (Local 20)); End 1; End 0]. reflexivity. Qed.
(** For the same reason the declaration of [xlink] is removed though [xlink:href] is in use. *)
Theorem C77_declared_refuted : exists l d e, run l = Some d /\ In e d /\ xlink e <> None /\ Forall (fun x => declares x = false) d /\ existsb declares (elements l) = true.
Proof.
  exists [Elem (svg 0); Elem (mkElement 1 None None None None None [] [] [] 0 false false); Elem (grad 2 20 [opaque red] None); Elem (xgrad 3 30 [] (Local 20)); End 1; Elem (use 4); End 0].
  eexists. exists (use 4). split; [vm_compute; reflexivity|]. split; [right; right; left; reflexivity|]. split; [discriminate|]. split; [repeat constructor|reflexivity].
Qed.
(** It is also removed where only other attributes of XLink are in use. *)
Theorem C77_titled_refuted : exists l d e, run l = Some d /\ In e d /\ titled e = true /\ Forall (fun x => declares x = false) d /\ existsb declares (elements l) = true.
Proof.
  exists [Elem (svg 0); Elem (mkElement 1 None None None None None [] [] [] 0 true false); End 0].
  eexists. exists (mkElement 1 None None None None None [] [] [] 0 true false). split; [vm_compute; reflexivity|]. split; [right; left; reflexivity|]. split; [reflexivity|]. split; [repeat constructor|reflexivity].
Qed.
