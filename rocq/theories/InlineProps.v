(** inlineStyles: what elements look like stays the same (C74). *)
From Coq Require Import List Bool Arith.
From Verif Require Import CascadeModel CascadeSpec InlineModel InlineSpec InlineProofs.
Import ListNotations.

(** Partial: that the look stays is false in general (below).  It stays if no selector that is left tells what an element has lost, style elements have no condition,
    and the rules that say something about a property of an element are either all left or all moved. *)
Theorem C74_look_partial : forall context, by_tokens context -> forall pseudo presentation o referenced d ss d' ss',
  wellformed ss -> unconditional ss -> run context o referenced d ss = (d', ss') -> untold d d' ss' ->
  forall on i p,
    (forall f, f = b_important \/ f = b_normal ->
       declared context pseudo on f d ss' i p = declared context pseudo on f d ss i p \/ declared context pseudo on f d ss' i p = []) ->
    value_of context pseudo presentation on d' ss' i p = value_of context pseudo presentation on d ss i p.
Proof. exact value_kept. Qed.
Print Assumptions C74_look_partial.

(** Rules within at-rules are kept, and their selectors match the elements they did before. *)
Theorem C74_media : forall context, by_tokens context -> forall pseudo o referenced d ss d' ss',
  wellformed ss -> unconditional ss -> run context o referenced d ss = (d', ss') ->
  forall s q rs x, In s ss -> In (SMedia q rs) (rules s) -> In x (ones [] (SMedia q rs)) ->
  In x (all_ones ss') /\
  ((forall t, In t (tokens_of (o_sel x)) -> ordinary t) -> forall i, selects context pseudo d' (o_sel x) i = selects context pseudo d (o_sel x) i).
Proof. exact rules_kept. Qed.
Print Assumptions C74_media.

Definition never : nat -> nat -> bool := fun _ _ => false.
Definition every : nat -> prop -> bool := fun _ _ => true.
Definition sel (t : list token) (k : nat) : selector := mkSelector t [] 0 k.
Definition look (d : list element) (ss : list sheet) (i : nat) (p : prop) : option value := value_of child never every (fun _ => true) d ss i p.

(** [<style>.a{fill:1;stroke:2} .b.b{fill:3} @media q{.c{fill:5}}</style> <g class="a b" fill="9"/> <g class="c"/>]. *)
Definition ex_doc : list element := [mkElement 0 [1; 2] None [(7, 9)] None; mkElement 0 [3] None [] None].
Definition ex_sheets : list sheet :=
  [mkSheet None [SRule [sel [TClass 2; TClass 2] 2] (mkBlock [] [(7, 3)]); SRule [sel [TClass 1] 1] (mkBlock [] [(7, 1); (8, 2)]); SMedia 0 [SRule [sel [TClass 3] 1] (mkBlock [] [(7, 5)])]]].
Example C74_example :
  let '(d', ss') := run child default_options [] ex_doc ex_sheets in
  by_tokens child /\ wellformed ex_sheets /\ unconditional ex_sheets /\ untold ex_doc d' ss' /\
  (forall f, f = b_important \/ f = b_normal -> declared child never (fun _ => true) f ex_doc ss' 0 7 = []) /\
  d' = [mkElement 0 [] None [] (Some (mkBlock [] [(7, 1); (8, 2); (7, 3)])); mkElement 0 [3] None [] None] /\
  look d' ss' 0 7 = Some 3 /\ look d' ss' 0 8 = Some 2 /\ look d' ss' 1 7 = Some 5.
Proof.
  cbv zeta beta. match goal with |- let '(_, _) := ?r in _ => let v := eval vm_compute in r in replace r with v by (vm_compute; reflexivity) end. cbv beta iota. split; [exact child_by_tokens|].
  split; [intros x J; vm_compute in J; repeat (destruct J as [<-|J]; [discriminate|]); contradiction|]. split; [intros s [<-|[]]; reflexivity|]. split.
  - intros x t i e e' J Jt E E'. vm_compute in J. destruct J as [<-|[]]. vm_compute in Jt. destruct Jt as [<-|[]].
    destruct i as [|[|i]]; vm_compute in E, E'; [| |destruct i; discriminate]; injection E as <-; injection E' as <-; cbn; intuition congruence.
  - split; [intros f [-> | ->]; reflexivity|]. repeat split.
Qed.
Example C74_media_example :
  let '(d', ss') := run child default_options [] ex_doc ex_sheets in
  In (mkOne (sel [TClass 3] 1) (mkBlock [] [(7, 5)]) [0]) (all_ones ss') /\ selects child never d' (sel [TClass 3] 1) 1 = true /\ ordinary (TClass 3).
Proof. vm_compute. repeat split. left. reflexivity. Qed.

(** [.a{fill:1} .b{fill:2}] with [.b] on two elements: [.a] is moved to the style attribute and wins. *)
Theorem C74_order_refuted : exists d ss, wellformed ss /\ unconditional ss /\
  let '(d', ss') := run child default_options [] d ss in look d ss 0 7 = Some 2 /\ look d' ss' 0 7 = Some 1.
Proof.
  exists [mkElement 0 [1; 2] None [] None; mkElement 0 [2] None [] None], [mkSheet None [SRule [sel [TClass 1] 1] (mkBlock [] [(7, 1)]); SRule [sel [TClass 2] 1] (mkBlock [] [(7, 2)])]].
  split; [intros x J; vm_compute in J; repeat (destruct J as [<-|J]; [discriminate|]); contradiction|]. split; [intros s [<-|[]]; reflexivity|]. vm_compute. split; reflexivity.
Qed.
(** [.a{fill:1} .a.b{stroke:2}] with [.a] on two elements: the class [a] is lost with [.a.b]. *)
Theorem C74_compound_refuted : exists d ss, wellformed ss /\ unconditional ss /\
  let '(d', ss') := run child default_options [] d ss in look d ss 0 7 = Some 1 /\ look d' ss' 0 7 = None.
Proof.
  exists [mkElement 0 [1; 2] None [] None; mkElement 0 [1] None [] None], [mkSheet None [SRule [sel [TClass 1] 1] (mkBlock [] [(7, 1)]); SRule [sel [TClass 1; TClass 2] 2] (mkBlock [] [(8, 2)])]].
  split; [intros x J; vm_compute in J; repeat (destruct J as [<-|J]; [discriminate|]); contradiction|]. split; [intros s [<-|[]]; reflexivity|]. vm_compute. split; reflexivity.
Qed.
(** [.a .b{fill:1} .b{stroke:2}]: the class [b] is lost, though [.a .b] is left. *)
Theorem C74_combinator_refuted : exists d ss, wellformed ss /\ unconditional ss /\
  let '(d', ss') := run child default_options [] d ss in look d ss 1 7 = Some 1 /\ look d' ss' 1 7 = None.
Proof.
  exists [mkElement 0 [1] None [] None; mkElement 0 [2] None [] None], [mkSheet None [SRule [mkSelector [TClass 2] [[TClass 1]] 0 2] (mkBlock [] [(7, 1)]); SRule [sel [TClass 2] 1] (mkBlock [] [(8, 2)])]].
  split; [intros x J; vm_compute in J; repeat (destruct J as [<-|J]; [discriminate|]); contradiction|]. split; [intros s [<-|[]]; reflexivity|]. vm_compute. split; reflexivity.
Qed.
(** [:not(.b){fill:1} .b{stroke:2}]: the element with [class="b"] starts to match. *)
Theorem C74_not_refuted : exists d ss, wellformed ss /\ unconditional ss /\
  let '(d', ss') := run child default_options [] d ss in look d ss 0 7 = None /\ look d' ss' 0 7 = Some 1.
Proof.
  exists [mkElement 0 [2] None [] None; mkElement 0 [] None [] None; mkElement 0 [] None [] None], [mkSheet None [SRule [sel [TNot 2] 1] (mkBlock [] [(7, 1)]); SRule [sel [TClass 2] 1] (mkBlock [] [(8, 2)])]].
  split; [intros x J; vm_compute in J; repeat (destruct J as [<-|J]; [discriminate|]); contradiction|]. split; [intros s [<-|[]]; reflexivity|]. vm_compute. split; reflexivity.
Qed.
(** [<style media="print">.a{fill:1}</style>]: holds without the condition afterwards. *)
Theorem C74_condition_refuted : exists d ss on, wellformed ss /\
  let '(d', ss') := run child default_options [] d ss in value_of child never every on d ss 0 7 = Some 9 /\ value_of child never every on d' ss' 0 7 = Some 1.
Proof.
  exists [mkElement 0 [1] None [(7, 9)] None], [mkSheet (Some 0) [SRule [sel [TClass 1] 1] (mkBlock [] [(7, 1)])]], (fun _ => false).
  split; [intros x J; vm_compute in J; repeat (destruct J as [<-|J]; [discriminate|]); contradiction|]. vm_compute. split; reflexivity.
Qed.
(** [[fill]{stroke:1} .a{fill:2}] with two elements that have [fill]: the attribute is lost and the rule does not match. *)
Theorem C74_attribute_refuted : exists d ss, wellformed ss /\ unconditional ss /\
  let '(d', ss') := run child default_options [] d ss in look d ss 0 8 = Some 1 /\ look d' ss' 0 8 = None.
Proof.
  exists [mkElement 0 [1] None [(7, 9)] None; mkElement 0 [] None [(7, 9)] None], [mkSheet None [SRule [sel [TAttr 7 None] 1] (mkBlock [] [(8, 1)]); SRule [sel [TClass 1] 1] (mkBlock [] [(7, 2)])]].
  split; [intros x J; vm_compute in J; repeat (destruct J as [<-|J]; [discriminate|]); contradiction|]. split; [intros s [<-|[]]; reflexivity|]. vm_compute. split; reflexivity.
Qed.
(** An id that is referred to from a stylesheet only, as in [fill:url(#g)], is lost; what is referred to is not in attributes. *)
Theorem C74_id_refuted : exists d ss, wellformed ss /\ unconditional ss /\
  let '(d', ss') := run child default_options [] d ss in option_map id (nth_error d 0) = Some (Some 4) /\ option_map id (nth_error d' 0) = Some None.
Proof.
  exists [mkElement 0 [] (Some 4) [] None], [mkSheet None [SRule [sel [TId 4] 100] (mkBlock [] [(7, 1)]); SRule [sel [TClass 9] 1] (mkBlock [] [(7, 4)])]].
  split; [intros x J; vm_compute in J; repeat (destruct J as [<-|J]; [discriminate|]); contradiction|]. split; [intros s [<-|[]]; reflexivity|]. vm_compute. split; reflexivity.
Qed.
(** An attribute that is no presentation attribute of the element is lost if it is named like a property, as the [width] of a mask. *)
Theorem C74_geometry_refuted : exists presentation d ss, wellformed ss /\ unconditional ss /\ presentation 5 7 = false /\
  let '(d', ss') := run child default_options [] d ss in
  match nth_error d 0, nth_error d' 0 with Some e, Some e' => el_name e = 5 /\ find_prop 7 (attrs e) = Some 9 /\ find_prop 7 (attrs e') = None | _, _ => False end.
Proof.
  exists (fun n _ => negb (Nat.eqb n 5)), [mkElement 5 [1] None [(7, 9)] None], [mkSheet None [SRule [sel [TClass 1] 1] (mkBlock [] [(7, 1)])]].
  split; [intros x J; vm_compute in J; repeat (destruct J as [<-|J]; [discriminate|]); contradiction|]. split; [intros s [<-|[]]; reflexivity|]. vm_compute. repeat split.
Qed.
(** With [removeMatchedSelectors: false] selectors that match are removed all the same. *)
Theorem C74_option_refuted : exists d ss, snd (run child (mkOptions true false) [] d ss) = [mkSheet None [SRule [] (mkBlock [] [])]] /\ ss = [mkSheet None [SRule [sel [TClass 1] 1] (mkBlock [] [(7, 1)])]].
Proof. exists [mkElement 0 [1] None [] None], [mkSheet None [SRule [sel [TClass 1] 1] (mkBlock [] [(7, 1)])]]. split; vm_compute; reflexivity. Qed.
