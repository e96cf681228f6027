From Coq Require Import String List NArith Bool Arith Lia.
From Verif Require Import Chars HiddenModel HiddenSpec HiddenProofs HiddenProofs2.
Import ListNotations.
Local Open Scope list_scope.

(** C54: there is a reason for each subtree that is taken out ([why] in HiddenSpec), for every order of the hash set. *)
Theorem C54_reasons : forall style_of o deoptimized order doc f anc t, (forall l, incl (order l) l) -> NoDup (all_numbers doc) ->
  remove_hidden style_of o deoptimized order doc = Done f ->
  at_ doc anc t -> In (num t) (gone f) -> (forall a, In a anc -> ~ In (num a) (gone f)) -> why style_of o doc deoptimized (gone f) anc t.
Proof. exact (fun st o d ord doc f anc t I N => reasons st o d ord doc I f anc t (numbers_unique doc N)). Qed.
Print Assumptions C54_reasons.
(** C54: a gradient, clip path, symbol and so on that holds an id referred to by what is left, stays.  Missing: those in an element that is removed, and references below
    hidden elements that are themselves used (both refuted below). *)
Theorem C54_definition_partial : forall style_of o deoptimized order doc f anc n e kids, (forall l, incl (order l) l) -> NoDup (all_numbers doc) ->
  remove_hidden style_of o deoptimized order doc = Done f ->
  at_ doc anc (Elem n e kids) -> (forall a, In a anc -> ~ In (num a) (gone f)) -> non_rendering (e_kind e) = true ->
  ~ unseen style_of o doc (gone f) (Elem n e kids :: anc) (Elem n e kids) ->
  (exists u i, within (gone f) (Elem n e kids) u /\ name_of u = Some i /\ referenced style_of doc (gone f) i) ->
  left_in (gone f) anc (Elem n e kids).
Proof. exact (fun st o d ord doc f anc n e k I N => definition_stays st o d ord doc I f anc n e k (numbers_unique doc N)). Qed.
Print Assumptions C54_definition_partial.
(** C54: an element that holds an id some use left outside of definitions refers to, stays, hidden or not, if it is not transparent and has an extent.
    Missing: those in a transparent element, and uses in definitions (both refuted below). *)
Theorem C54_used_partial : forall style_of o deoptimized order doc f anc n e kids, (forall l, incl (order l) l) -> NoDup (all_numbers doc) ->
  remove_hidden style_of o deoptimized order doc = Done f ->
  at_ doc anc (Elem n e kids) -> (forall a, In a anc -> ~ In (num a) (gone f)) ->
  non_rendering (e_kind e) = false -> e_kind e <> KDefs -> e_kind e <> KUse ->
  (forall st, style_of (Elem n e kids :: anc) = Some st -> (o_opacity o = true -> s_opacity0 st = false) /\ ~ void o (gone f) (Elem n e kids) st e) ->
  (e_kind e = KPath -> o_opacity o = false \/ forall j st, style_of (firstn (S j) (Elem n e kids :: anc)) = Some st -> s_opacity0 st = false) ->
  (exists u i, within (gone f) (Elem n e kids) u /\ name_of u = Some i /\ used doc (gone f) i) ->
  left_in (gone f) anc (Elem n e kids).
Proof. exact (fun st o d ord doc f anc n e k I N => used_stays st o d ord doc I f anc n e k (numbers_unique doc N)). Qed.
Print Assumptions C54_used_partial.
(** C54: no panic if every href of a use starts with a character of one byte.  Missing: other ones (refuted below). *)
Theorem C54_no_panic_partial : forall style_of o deoptimized order doc,
  (forall anc n e kids h, at_ doc anc (Elem n e kids) -> e_kind e = KUse -> In h (e_hrefs e) -> ascii_start h) -> remove_hidden style_of o deoptimized order doc <> Panic.
Proof. exact no_panic. Qed.
Print Assumptions C54_no_panic_partial.

(** Documents for examples: styles are given by number. *)
Definition all_on := mkOptions true true true true true true true true true true true true true true true.
Definition plain (k : kind) : elem := mkElem k None [] [] false false false false false false (Some 2) true.
Definition with_id (k : kind) (i : string) : elem := mkElem k (Some (lit i)) [] [] false false false false false false (Some 2) true.
Definition with_ref (k : kind) (i : string) : elem := mkElem k None [] [lit i] false false false false false false (Some 2) true.
Definition use_of (h : text) : elem := mkElem KUse None [h] (match h with _ :: i => [i] | [] => [] end) false false false false false false None false.
Definition usual := mkStyle false false false false.
Definition transparent := mkStyle true false false false.
Definition hidden := mkStyle false true false false.
Definition no_display := mkStyle false false true false.
Definition styled (n : nat) (s : style) (l : list tree) : option style := match l with t :: _ => Some (if num t =? n then s else usual) | [] => None end.
Definition run (n : nat) (s : style) (doc : list tree) : outcome state := remove_hidden (styled n s) all_on false (fun l => l) doc.
Ltac find_at := match goal with |- deep _ ?t _ ?u => first [apply deep_self | eapply deep_kid; [cbn; repeat (first [left; reflexivity|right])|]; find_at] end.

(** C54: the job panics on a use with an empty href. *)
Theorem C54_panic_refuted : exists doc, run 0 usual doc = Panic.
Proof. exists [Elem 1 (plain KElse) [Elem 2 (use_of []) []]]. vm_compute. reflexivity. Qed.
Print Assumptions C54_panic_refuted.
(** What is left refers to an id, and the element with the id is not left. *)
Definition lost (n : nat) (s : style) (doc : list tree) : Prop :=
  NoDup (all_numbers doc) /\ exists f anc t i anc' m e kids,
    run n s doc = Done f /\ at_ doc anc t /\ name_of t = Some i /\ ~ left_in (gone f) anc t /\
    at_ doc anc' (Elem m e kids) /\ left_in (gone f) anc' (Elem m e kids) /\ In i (e_refs e).
Ltac nodup := repeat (constructor; [cbn; intuition discriminate|]); constructor.
(** A path in a transparent group, used. *)
Definition doc_transparent := [Elem 1 (plain KElse) [Elem 2 (plain KElse) [Elem 3 (with_id KPath "a") []]; Elem 4 (use_of (lit "#a")) []]].
Theorem C54_transparent_refuted : lost 2 transparent doc_transparent.
Proof.
  split; [nodup|]. eexists _, _, (Elem 3 (with_id KPath "a") []), (lit "a"), _, 4, (use_of (lit "#a")), []. split; [vm_compute; reflexivity|].
  split; [exists (hd (Node 0 true) doc_transparent); split; [left; reflexivity|]; eapply deep_kid; [left; reflexivity|]; eapply deep_kid; [left; reflexivity|]; apply deep_self|].
  split; [reflexivity|]. split; [intros L; apply (L (Elem 2 (plain KElse) [Elem 3 (with_id KPath "a") []])); [cbn; tauto|cbn; tauto]|].
  split; [exists (hd (Node 0 true) doc_transparent); split; [left; reflexivity|]; eapply deep_kid; [right; left; reflexivity|]; apply deep_self|].
  split; [intros a [<-|[<-|[]]]; cbn; intuition discriminate|left; reflexivity].
Qed.
Print Assumptions C54_transparent_refuted.
(** A gradient in a group that is not displayed, used to fill. *)
Definition doc_display := [Elem 1 (plain KElse) [Elem 2 (plain KElse) [Elem 3 (with_id KDef "a") []]; Elem 4 (with_ref KRect "a") []]].
Theorem C54_display_refuted : lost 2 no_display doc_display.
Proof.
  split; [nodup|]. eexists _, _, (Elem 3 (with_id KDef "a") []), (lit "a"), _, 4, (with_ref KRect "a"), []. split; [vm_compute; reflexivity|].
  split; [exists (hd (Node 0 true) doc_display); split; [left; reflexivity|]; eapply deep_kid; [left; reflexivity|]; eapply deep_kid; [left; reflexivity|]; apply deep_self|].
  split; [reflexivity|]. split; [intros L; apply (L (Elem 2 (plain KElse) [Elem 3 (with_id KDef "a") []])); [cbn; tauto|cbn; tauto]|].
  split; [exists (hd (Node 0 true) doc_display); split; [left; reflexivity|]; eapply deep_kid; [right; left; reflexivity|]; apply deep_self|].
  split; [intros a [<-|[<-|[]]]; cbn; intuition discriminate|left; reflexivity].
Qed.
Print Assumptions C54_display_refuted.
(** A path in a group that is not displayed, used in a clip path. *)
Definition doc_clip := [Elem 1 (plain KElse) [Elem 2 (plain KElse) [Elem 3 (with_id KPath "a") []]; Elem 5 (with_id KDef "c") [Elem 4 (use_of (lit "#a")) []]; Elem 6 (with_ref KRect "c") []]].
Theorem C54_clip_refuted : lost 2 no_display doc_clip.
Proof.
  split; [nodup|]. eexists _, _, (Elem 3 (with_id KPath "a") []), (lit "a"), _, 4, (use_of (lit "#a")), []. split; [vm_compute; reflexivity|].
  split; [exists (hd (Node 0 true) doc_clip); split; [left; reflexivity|]; eapply deep_kid; [left; reflexivity|]; eapply deep_kid; [left; reflexivity|]; apply deep_self|].
  split; [reflexivity|]. split; [intros L; apply (L (Elem 2 (plain KElse) [Elem 3 (with_id KPath "a") []])); [cbn; tauto|cbn; tauto]|].
  split; [exists (hd (Node 0 true) doc_clip); split; [left; reflexivity|]; eapply deep_kid; [right; left; reflexivity|]; eapply deep_kid; [left; reflexivity|]; apply deep_self|].
  split; [intros a [<-|[<-|[<-|[]]]]; cbn; intuition discriminate|left; reflexivity].
Qed.
Print Assumptions C54_clip_refuted.
(** A gradient that fills a rectangle in a hidden group which is used: the rectangle may be visible by its style attribute. *)
Definition doc_shield := [Elem 1 (plain KElse) [Elem 2 (with_id KElse "g") [Elem 3 (with_ref KRect "a") []]; Elem 4 (use_of (lit "#g")) []; Elem 5 (with_id KDef "a") []]].
Theorem C54_shield_refuted : lost 2 hidden doc_shield.
Proof.
  split; [nodup|]. eexists _, _, (Elem 5 (with_id KDef "a") []), (lit "a"), _, 3, (with_ref KRect "a"), []. split; [vm_compute; reflexivity|].
  split; [exists (hd (Node 0 true) doc_shield); split; [left; reflexivity|]; eapply deep_kid; [right; right; left; reflexivity|]; apply deep_self|].
  split; [reflexivity|]. split; [intros L; apply (L (Elem 5 (with_id KDef "a") [])); [cbn; tauto|cbn; tauto]|].
  split; [exists (hd (Node 0 true) doc_shield); split; [left; reflexivity|]; eapply deep_kid; [left; reflexivity|]; eapply deep_kid; [left; reflexivity|]; apply deep_self|].
  split; [intros a [<-|[<-|[<-|[]]]]; cbn; intuition discriminate|left; reflexivity].
Qed.
Print Assumptions C54_shield_refuted.

(** A gradient that is used stays, one that is not goes, a hidden group that holds something used stays, and an empty path goes. *)
Definition doc_ex := [Elem 1 (plain KElse)
  [Elem 2 (plain KDefs) [Elem 3 (with_id KDef "a") [Elem 4 (plain KElse) []]; Elem 5 (with_id KDef "b") []];
   Elem 6 (plain KElse) [Elem 7 (with_id KRect "r") []]; Elem 8 (use_of (lit "#r")) []; Elem 9 (with_ref KRect "a") [];
   Elem 10 (mkElem KPath None [] [lit "b"] false false false false false false (Some 0) false) []; Node 11 true]].
Example C54_witness : NoDup (all_numbers doc_ex) /\ exists f, run 6 hidden doc_ex = Done f /\ (forall n, In n (gone f) <-> In n [5; 10]) /\
  referenced (styled 6 hidden) doc_ex (gone f) (lit "a") /\ used doc_ex (gone f) (lit "r") /\
  (forall anc n e kids h, at_ doc_ex anc (Elem n e kids) -> e_kind e = KUse -> In h (e_hrefs e) -> ascii_start h).
Proof.
  split; [nodup|]. eexists. split; [vm_compute; reflexivity|]. split; [intros n; cbn; intuition|].
  assert (O : ~ shielded (styled 6 hidden) doc_ex doc_ex).
  { intros (t & anc & st & i & E & _ & _ & N & _). unfold doc_ex in E. injection E as <- _. discriminate. }
  split; [|split].
  - exists doc_ex, 9, (with_ref KRect "a"), []. split; [exists (hd (Node 0 true) doc_ex); split; [left; reflexivity|]; eapply deep_kid; [right; right; right; left; reflexivity|]; apply deep_self|].
    split; [intros a [<-|[<-|[]]]; cbn; intuition discriminate|]. split; [split; [exact O|exact Logic.I]|left; reflexivity].
  - exists doc_ex, (Elem 8 (use_of (lit "#r")) []). split; [exists (hd (Node 0 true) doc_ex); split; [left; reflexivity|]; eapply deep_kid; [right; right; left; reflexivity|]; apply deep_self|].
    split; [intros a [<-|[<-|[]]]; cbn; intuition discriminate|]. split.
    + constructor; [|constructor]. intros n e kids E. injection E as _ <- _. split; [reflexivity|discriminate].
    + exists 8, (use_of (lit "#r")), [], 35%N. repeat split. left. reflexivity.
  - intros anc n e kids h A K Hh. apply at_elems in A. cbn in A.
    repeat (destruct A as [<-|A]; [try discriminate K; destruct Hh as [<-|[]]; exists 35%N, (lit "r"); split; reflexivity|]). destruct A.
Qed.
