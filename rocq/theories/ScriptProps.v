(** C93: what the check before cleaning refuses, and what counts as a script. *)
From Coq Require Import String List NArith Bool.
From Verif Require Import Chars NameModel AttrTable ElemModel ElemSpec TextModel ScriptModel ScriptSpec ScriptProofs ScriptProofs2 ScriptProofs3.
Import ListNotations.

(** With the check on, exactly the documents without scripts, events, animations, conditions and xlink references, as far as the
    table of names goes, are accepted. *)
Theorem C93_accepted_partial : forall fail_fast d, well d -> usual d -> (precheck fail_fast true (read d) = None <-> plain_document d).
Proof. exact accepted_iff. Qed.
Print Assumptions C93_accepted_partial.
(** A problem that is reported is there. *)
Theorem C93_reported : forall fail_fast d p, well d -> usual d -> precheck fail_fast true (read d) = Some p -> shows d p.
Proof. exact reported. Qed.
Print Assumptions C93_reported.
(** The check is off by default, and then accepts everything; the option to fail fast makes no difference. *)
Theorem C93_off : forall fail_fast fail_fast' n, precheck fail_fast false n = None /\ forall on, precheck fail_fast on n = precheck fail_fast' on n.
Proof. exact precheck_off. Qed.
Print Assumptions C93_off.
(** The search for scripts finds exactly script elements, events of the table, and plain links to script URLs in lower case. *)
Theorem C93_has_scripts_partial : forall d, well d -> usual d -> (has_scripts (read d) = true <-> scripted d).
Proof. exact has_scripts_iff. Qed.
Print Assumptions C93_has_scripts_partial.

(** Each kind of problem is met. *)
Example C93_refusals : 
  precheck true true (read (in_svg (svg_el "script" []))) = Some Scripting /\ precheck true true (read (in_svg (svg_el "rect" [plain_attr "onclick" "f()"]))) = Some Scripting /\
  precheck true true (read (in_svg (svg_el "set" []))) = Some Animation /\ precheck true true (read (in_svg (svg_el "rect" [plain_attr "systemLanguage" "en"]))) = Some Conditional /\
  precheck true true (read (in_svg (svg_el "rect" [plain_attr "systemLanguage" ""]))) = None /\ precheck true true (read (in_svg (svg_el "rect" [plain_attr "fill" "red"]))) = None /\
  has_scripts (read (in_svg (svg_el "a" [plain_attr "href" " javascript:f()"]))) = true /\ has_scripts (read (in_svg (svg_el "rect" [plain_attr "onclick" "f()"]))) = true.
Proof. vm_compute. repeat (split; [reflexivity|]). reflexivity. Qed.

(** An event handler that the table does not have is not seen by either. *)
Theorem C93_handler_refuted : exists d, well d /\ usual d /\ runs_code d /\ precheck true true (read d) = None /\ has_scripts (read d) = false.
Proof.
  exists (in_svg (svg_el "rect" [plain_attr "onblur" "f()"])).
  destruct (in_svg_ok "rect" [plain_attr "onblur" "f()"] (bound_one _ (bound_plain _ _))) as [W U]. split; [exact W|]. split; [exact U|].
  split; [|split; vm_compute; reflexivity].
  eexists _, _, _, (fst (plain_attr "onblur" "f()")), (lit "f()"). split; [apply in_svg_within|]. split; [left; reflexivity|]. split; [reflexivity|].
  left. split; [reflexivity|]. split; [reflexivity|]. left. reflexivity.
Qed.
Print Assumptions C93_handler_refuted.
(** A link of xlink to a script is not seen by either, nor is a plain link with the scheme in another case. *)
Theorem C93_link_refuted : exists d d', well d /\ usual d /\ well d' /\ usual d' /\ runs_code d /\ runs_code d' /\
  precheck true true (read d) = None /\ has_scripts (read d) = false /\ precheck true true (read d') = None /\ has_scripts (read d') = false.
Proof.
  exists (in_svg (svg_el "a" [xlink_attr "href" "javascript:f()"])), (in_svg (svg_el "a" [plain_attr "href" "JavaScript:f()"])).
  destruct (in_svg_ok "a" [xlink_attr "href" "javascript:f()"] (bound_one _ (bound_xlink _ _))) as [W U]. split; [exact W|]. split; [exact U|].
  destruct (in_svg_ok "a" [plain_attr "href" "JavaScript:f()"] (bound_one _ (bound_plain _ _))) as [W' U']. split; [exact W'|]. split; [exact U'|].
  split; [|split; [|vm_compute; repeat (split; [reflexivity|]); reflexivity]].
  - eexists _, _, _, (fst (xlink_attr "href" "javascript:f()")), (lit "javascript:f()"). split; [apply in_svg_within|]. split; [left; reflexivity|]. split; [reflexivity|].
    right. split; [reflexivity|]. split; [split; [reflexivity|right; reflexivity]|]. exists (lit "f()"). reflexivity.
  - eexists _, _, _, (fst (plain_attr "href" "JavaScript:f()")), (lit "JavaScript:f()"). split; [apply in_svg_within|]. split; [left; reflexivity|]. split; [reflexivity|].
    right. split; [reflexivity|]. split; [split; [reflexivity|left; reflexivity]|]. exists (lit "f()"). reflexivity.
Qed.
Print Assumptions C93_link_refuted.
(** A document whose only reference is to itself is refused as external, and one that uses another document by a plain reference is accepted. *)
Theorem C93_external_refuted : exists d d', well d /\ usual d /\ well d' /\ usual d' /\ ~ uses_external d /\ precheck true true (read d) = Some (External (lit "#a")) /\
  uses_external d' /\ precheck true true (read d') = None.
Proof.
  exists (in_svg (svg_el "use" [xlink_attr "href" "#a"])), (in_svg (svg_el "use" [plain_attr "href" "http://example.org/b.svg#a"])).
  destruct (in_svg_ok "use" [xlink_attr "href" "#a"] (bound_one _ (bound_xlink _ _))) as [W U]. split; [exact W|]. split; [exact U|].
  destruct (in_svg_ok "use" [plain_attr "href" "http://example.org/b.svg#a"] (bound_one _ (bound_plain _ _))) as [W' U']. split; [exact W'|]. split; [exact U'|].
  split; [|split; [vm_compute; reflexivity|split; [|vm_compute; reflexivity]]].
  - intros (n & df & attrs & a & v & Hw & Hin & _ & _ & Hl). apply Hl. inversion Hw; subst; [contradiction|].
    match goal with H : In _ [_] |- _ => destruct H as [<-|[]] end. match goal with H : within (svg_el _ _) _ _ _ |- _ => inversion H; subst end; [|contradiction].
    destruct Hin as [E|[]]. injection E as <- <-. exists (lit "a"). reflexivity.
  - eexists _, _, _, (fst (plain_attr "href" "http://example.org/b.svg#a")), (lit "http://example.org/b.svg#a"). split; [apply in_svg_within|]. split; [left; reflexivity|].
    split; [split; [reflexivity|left; reflexivity]|]. split; [split; [reflexivity|left; reflexivity]|]. intros (r & E). vm_compute in E. discriminate.
Qed.
Print Assumptions C93_external_refuted.
(** With another default namespace, an event of a prefixed SVG element, which XML puts in no namespace, is not seen. *)
Theorem C93_default_refuted : exists d, well d /\ runs_code d /\ precheck true true (read d) = None /\ has_scripts (read d) = false.
Proof.
  exists (SEl (mkS svg_space (Some (lit "s")) (lit "rect")) (lit "http://www.w3.org/1999/xhtml") [plain_attr "onclick" "f()"] []).
  split; [|split; [|split; vm_compute; reflexivity]].
  - intros m df b W. inversion W; subst; [|contradiction]. split; [intros _; apply svg_space_nil|apply bound_one, bound_plain].
  - eexists _, _, _, (fst (plain_attr "onclick" "f()")), (lit "f()"). split; [constructor|]. split; [left; reflexivity|]. split; [reflexivity|].
    left. split; [reflexivity|]. split; [reflexivity|]. right. left. reflexivity.
Qed.
Print Assumptions C93_default_refuted.
