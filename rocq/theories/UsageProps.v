(** C68: minifying styles. *)
From Coq Require Import String List NArith Bool Arith.
From Verif Require Import Chars TextModel UsageModel UsageSpec UsageProofs.
Import ListNotations.

(** Whatever is looked at, it is the same for every element, if it was not changed by minification of a stylesheet.
    Not covered: documents with elements of other namespaces, and documents of which a stylesheet is removed. *)
Theorem C68_applied_partial {V} : forall minify minify_block other (see : place -> list single -> V) o n n',
  (forall i p, In (i, p) (document n) -> i_svg i = true) -> invisible other see minify ->
  run minify minify_block o n = Some (Some n') -> List.length (sheets n') = List.length (sheets n) ->
  Forall2 (same_but_style minify_block) (document n) (document n') /\
  forall i p m m', In (i, p) (document n) -> applied other p (sheets n) m -> applied other p (sheets n') m' -> see p m' = see p m.
Proof. intros minify minify_block. exact (run_keeps minify minify_block). Qed.
Print Assumptions C68_applied_partial.

(** When the job panics. *)
Theorem C68_panics : forall minify minify_block o n,
  run minify minify_block o n = None <-> exists i t, within i n /\ i_style i = Unread t.
Proof. intros minify minify_block o n. exact (finish_panics minify minify_block _ n). Qed.
Print Assumptions C68_panics.

(** Rules are only minified when removal is off, or there is a script. *)
Theorem C68_off : forall minify minify_block o n n', run minify minify_block o n = Some (Some n') ->
  (o = RuFalse \/ o = RuTrue /\ exists i p, In (i, p) (document n) /\ runs_script i /\ i_xlink i = None) ->
  sheets n' = filter (fun rs => match rs with [] => false | _ => true end) (map minify (sheets n)).
Proof. intros minify minify_block o n n'. exact (run_off minify minify_block o n (Some n')). Qed.
Print Assumptions C68_off.

(** Otherwise no selector is left of which each part is a name, id or class that is nowhere in the document. *)
Theorem C68_unused : forall minify minify_block o n n' sels b s rs,
  (forall rs sels b s, In (RStyle sels b) (minify rs) -> In s sels -> exists sels' b', In (RStyle sels' b') rs /\ In s sels') ->
  o = RuForce \/ (o = RuTrue /\ forall i p, In (i, p) (document n) -> i_name i <> lit "script" /\ i_handler i = false /\ i_href i = None) ->
  run minify minify_block o n = Some (Some n') -> In rs (sheets n') -> In (RStyle sels b) rs -> In s sels -> hit n s.
Proof. exact run_unused. Qed.
Print Assumptions C68_unused.

(** ** Examples *)
Definition elem (k : nat) (name : string) : info := mkInfo k true (lit name) None [] NoStyle false None None.
(** [<svg><style>.a{..} .b, rect{..} .b{..}</style><g class="a" style="1;2"><rect/></g></svg>] *)
Definition ex : node :=
  El (elem 0 "svg")
    [Sheet (elem 1 "style") [RStyle [Last [CClass (lit "a")]] [1]; RStyle [Last [CClass (lit "b")]; More [CLocal (lit "rect")] Child (Last [CLocal (lit "g")])] [2]; RStyle [Last [CClass (lit "b")]] [3]];
     El (mkInfo 2 true (lit "g") None [lit "a"] (Declared [1; 2]) false None None) [El (elem 3 "rect") []]].
Definition ex' : node :=
  El (elem 0 "svg")
    [Sheet (elem 1 "style") [RStyle [Last [CClass (lit "a")]] [1]; RStyle [More [CLocal (lit "rect")] Child (Last [CLocal (lit "g")])] [2]];
     El (mkInfo 2 true (lit "g") None [lit "a"] (Declared [1; 2]) false None None) [El (elem 3 "rect") []]].
Definition at_rect : place := Inside (face_of (elem 3 "rect")) [] (Inside (mkFace 2 (lit "g") None [lit "a"]) [face_of (elem 1 "style")] (Root (face_of (elem 0 "svg")))).
Example C68_example :
  (forall i p, In (i, p) (document ex) -> i_svg i = true) /\ invisible (fun _ _ => false) (fun _ l => l) drop_empty /\
  run drop_empty (fun l => l) RuTrue ex = Some (Some ex') /\ List.length (sheets ex') = List.length (sheets ex) /\
  In (elem 3 "rect", at_rect) (document ex) /\
  applied (fun _ _ => false) at_rect (sheets ex) [([], More [CLocal (lit "rect")] Child (Last [CLocal (lit "g")]), [2])].
Proof.
  split; [|split; [apply drop_empty_invisible|split; [vm_compute; reflexivity|split; [reflexivity|split; [right; right; right; left; reflexivity|]]]]].
  - intros i p [[= <- <-]|[[= <- <-]|[[= <- <-]|[[= <- <-]|[]]]]]; reflexivity.
  - unfold applied. cbn. apply a_no; [|apply a_no; [|apply a_yes; [|apply a_no; [|apply a_none]]]].
    + cbn. intros [_ H]. destruct (H _ (or_introl eq_refl)).
    + cbn. intros [_ H]. destruct (H _ (or_introl eq_refl)).
    + cbn. split; [discriminate|]. split; [intros x [<-|[]]; reflexivity|]. eexists. split; [apply r_child; reflexivity|]. split; [discriminate|]. intros x [<-|[]]. reflexivity.
    + cbn. intros [_ H]. destruct (H _ (or_introl eq_refl)).
Qed.
Example C68_unused_example : exists rs, In rs (sheets ex') /\ In (RStyle [Last [CClass (lit "a")]] [1]) rs /\ hit ex (Last [CClass (lit "a")]).
Proof.
  eexists. split; [left; reflexivity|]. split; [left; reflexivity|].
  exists (CClass (lit "a")). split; [left; reflexivity|]. right. eexists. eexists. split; [right; right; left; reflexivity|]. split; [reflexivity|]. left. reflexivity.
Qed.
(** With a script, all three rules stay. *)
Example C68_off_example : exists n', run drop_empty (fun l => l) RuTrue (El (elem 0 "svg") [ex; El (elem 4 "script") []]) = Some (Some n') /\
  runs_script (elem 4 "script") /\ sheets n' = sheets ex.
Proof. eexists. split; [vm_compute; reflexivity|]. split; [split; [reflexivity|left; reflexivity]|reflexivity]. Qed.

(** ** What is false *)
(** [<rect style="foo"/>]: the job panics, whatever its options. *)
Theorem C68_panic_refuted : exists n, forall minify minify_block o, run minify minify_block o n = None.
Proof. exists (El (mkInfo 0 true (lit "rect") None [] (Unread (lit "foo")) false None None) []). reflexivity. Qed.
Print Assumptions C68_panic_refuted.

(** [<style>p{..} rect{..}</style><rect/><foreignObject><p xmlns=".."/></foreignObject>]: a rule applied to [p] is removed. *)
Theorem C68_xhtml_refuted : exists n n' i p x,
  run drop_empty (fun l => l) RuTrue n = Some (Some n') /\ In (i, p) (document n) /\ In (i, p) (document n') /\
  applied (fun _ _ => false) p (sheets n) [x] /\ applied (fun _ _ => false) p (sheets n') [].
Proof.
  exists (El (elem 0 "svg") [Sheet (elem 1 "style") [RStyle [Last [CLocal (lit "p")]] [1]; RStyle [Last [CLocal (lit "svg")]] [2]];
    El (elem 3 "foreignObject") [El (mkInfo 4 false (lit "p") None [] NoStyle false None None) []]]).
  eexists. eexists. eexists. eexists. split; [vm_compute; reflexivity|]. split; [right; right; right; left; reflexivity|].
  split; [right; right; right; left; reflexivity|]. split; unfold applied; cbn.
  - apply a_yes; [|apply a_no; [|apply a_none]].
    + split; [discriminate|]. intros x [<-|[]]. reflexivity.
    + intros [_ H]. specialize (H _ (or_introl eq_refl)). discriminate H.
  - apply a_no; [|apply a_none]. intros [_ H]. specialize (H _ (or_introl eq_refl)). discriminate H.
Qed.
Print Assumptions C68_xhtml_refuted.

(** [<style>.a{..}</style><rect/><style>style + rect{..}</style>]: the first element goes, and the rule of the second no longer applies. *)
Theorem C68_position_refuted : exists n n' i p p' x,
  run drop_empty (fun l => l) RuTrue n = Some (Some n') /\ (forall i p, In (i, p) (document n) -> i_svg i = true) /\
  In (i, p) (document n) /\ In (i, p') (document n') /\ (forall q, In (i, q) (document n') -> q = p') /\
  applied (fun _ _ => false) p (sheets n) [x] /\ applied (fun _ _ => false) p' (sheets n') [].
Proof.
  exists (El (elem 0 "svg") [Sheet (elem 1 "style") [RStyle [Last [CClass (lit "a")]] [1]]; El (elem 2 "rect") [];
    Sheet (elem 3 "style") [RStyle [More [CLocal (lit "rect")] NextSibling (Last [CLocal (lit "style")])] [2]]]).
  eexists. exists (elem 2 "rect"). eexists. eexists. eexists. split; [vm_compute; reflexivity|].
  split; [intros i p [[= <- <-]|[[= <- <-]|[[= <- <-]|[[= <- <-]|[]]]]]; reflexivity|].
  split; [right; right; left; reflexivity|]. split; [right; left; reflexivity|]. split; [|split].
  - intros q [[=]|[[= <-]|[[=]|[]]]]. reflexivity.
  - unfold applied. cbn. apply a_no; [|apply a_yes; [|apply a_none]].
    + intros [_ H]. destruct (H _ (or_introl eq_refl)).
    + split; [discriminate|]. split; [intros x [<-|[]]; reflexivity|]. eexists. split; [apply r_next; reflexivity|]. split; [discriminate|]. intros x [<-|[]]. reflexivity.
  - unfold applied. cbn. apply a_no; [|apply a_none]. intros (_ & _ & q & H & _). inversion H; subst. discriminate.
Qed.
Print Assumptions C68_position_refuted.

(** [<a xlink:href="javascript:..">] is a script, and a rule is removed. *)
Theorem C68_script_refuted : exists n n' i p,
  run drop_empty (fun l => l) RuTrue n = Some (Some n') /\ In (i, p) (document n) /\ runs_script i /\ sheets n' <> map drop_empty (sheets n).
Proof.
  exists (El (elem 0 "svg") [Sheet (elem 1 "style") [RStyle [Last [CClass (lit "b")]] [1]; RStyle [Last [CLocal (lit "svg")]] [2]];
    El (mkInfo 2 true (lit "a") None [] NoStyle false None (Some (lit "javascript:f()"))) []]).
  eexists. eexists. eexists. split; [vm_compute; reflexivity|]. split; [right; right; left; reflexivity|]. split.
  - split; [reflexivity|]. right. right. split; [reflexivity|]. eexists. split; [right; reflexivity|]. exists (lit "f()"). reflexivity.
  - vm_compute. discriminate.
Qed.
Print Assumptions C68_script_refuted.
