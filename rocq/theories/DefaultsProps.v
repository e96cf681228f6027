From Coq Require Import String List NArith Bool Arith Sorted Lia.
From Verif Require Import Chars NameModel AttrTable KnownModel CascadeModel CascadeSpec CascadeProofs DefaultsModel DefaultsSpec DefaultsProofs.
Import ListNotations.
Local Open Scope list_scope.

(** C65: with stylesheets whose selectors do not look at presentation attributes, and that computed styles get right (C35), the job ends without an error and every
    property of every element has the value it had, whichever media queries hold.
    Missing, and refuted below: elements seen through [use], selectors that look at the attributes, and what C35 refutes. *)
Theorem C65_values_partial : forall matches inheritable non_group inh_type select default initial default_attrs useless_overrides sheets,
  (forall p v, default p = Some v -> v = initial p) ->
  (forall p, inheritable p = true -> inh_type p = true) ->
  (forall s e l, matches s (mkElem (e_id e) l (e_style e)) = matches s e) ->
  (forall s e l, select s (mkElem (e_id e) l (e_style e)) = select s e) ->
  forallb none_skipped sheets = true ->
  forall t,
  Forall (fun e => selectors_read matches select sheets e /\ Forall (none_after matches e) sheets /\
                   forall p, by_specificity matches sheets e p /\ apart matches sheets e p /\ once (e_attrs e) p) (elements t) ->
  exists t', clean select inheritable non_group inh_type default default_attrs useless_overrides sheets [] t = Some t' /\
             Forall2 (fun c c' => forall on p, final matches inheritable initial on sheets c p = final matches inheritable initial on sheets c' p) (chains [] t) (chains [] t').
Proof. exact clean_final. Qed.
Print Assumptions C65_values_partial.
(** C65: an element with an [id] keeps all its attributes. *)
Theorem C65_id : forall inheritable non_group inh_type default default_attrs useless_overrides s a,
  retain inheritable non_group inh_type default default_attrs useless_overrides true s a = true.
Proof. exact retain_id. Qed.
Print Assumptions C65_id.
(** C65: the attributes the job takes to be inherited are those SVG says are; the [fill] of animations is another one than that of shapes. *)
Theorem C65_inherited : forall k, In k attr_table -> kind_prefix k = SVG -> kind_id k <> lit "FillAnimate" ->
  (N.testbit (id_info (ABase (BKnown k))) 2 = true <-> In (kind_local k) (map lit inherited_properties)) /\
  (N.testbit (id_info (ABase (BKnown k))) 2 = true -> inheritable_type (ABase (BKnown k)) = true).
Proof. exact inherited_table. Qed.
Print Assumptions C65_inherited.

(** Property 1 is inherited and starts at 10, property 2 is not and starts at 20; 10 and 20 are in the table. *)
Definition inh (p : prop) : bool := p =? 1.
Definition typ (p : prop) : bool := p <=? 2.
Definition dflt (p : prop) : option value := match p with 1 => Some 10 | 2 => Some 20 | _ => None end.
Definition init (p : prop) : value := match p with 1 => 10 | 2 => 20 | _ => 0 end.
Definition no_selectors (_ : text) (_ : elem) : option bool := Some true.
Definition all_match (_ : sel) (_ : elem) : bool := true.
Definition el n l := mkElem n l None.
(** [<svg><g 1="11" 2="20"><path 1="11" 2="20"/><path 1="10"/></g><path 1="10"/></svg>] under a rule for another property, in a query. *)
Definition sheet := [RMedia 5 [RStyle [mkSel (lit "*") 0] (mkBlock [] [(3, 30)])]].
Definition doc := Node (el 0 []) false [Node (el 1 [(1, 11); (2, 20)]) false [Node (el 2 [(1, 11); (2, 20)]) false []; Node (el 3 [(1, 10)]) false []];
                                        Node (el 4 [(1, 10)]) false []; Node (el 5 [(1, 10)]) true []].
Example C65_witness :
  (forall p v, dflt p = Some v -> v = init p) /\ (forall p, inh p = true -> typ p = true) /\ forallb none_skipped sheet = true /\
  Forall (fun e => selectors_read all_match no_selectors sheet e /\ Forall (none_after all_match e) sheet /\
                   forall p, by_specificity all_match sheet e p /\ apart all_match sheet e p /\ once (e_attrs e) p) (elements doc) /\
  clean no_selectors inh (fun _ => false) typ dflt true true sheet [] doc =
    Some (Node (el 0 []) false [Node (el 1 [(1, 11)]) false [Node (el 2 []) false []; Node (el 3 [(1, 10)]) false []]; Node (el 4 []) false []; Node (el 5 [(1, 10)]) true []]).
Proof.
  split; [|split; [|split; [reflexivity|split; [|vm_compute; reflexivity]]]].
  - intros [|[|[|p]]] v E; try discriminate E; injection E; intros <-; reflexivity.
  - intros [|[|p]]; intros E; [reflexivity|reflexivity|discriminate E].
  - cbn [elements flat_map chains doc app].
    repeat (constructor; [split; [intros g Hg; reflexivity|split; [repeat constructor; intros a g h b _; reflexivity|]];
      intros p; split; [intros f [-> | ->]; destruct p as [|[|[|[|p]]]]; cbv; repeat constructor|split;
        [destruct p as [|[|[|[|p]]]]; first [left; reflexivity|right; reflexivity]|destruct p as [|[|[|[|p]]]]; cbv; lia]]|]).
    constructor.
Qed.

(** C65: not so for what a [use] draws: [<svg><g id="a"><path stroke-width="1"/></g><use href="#a" stroke-width="5"/></svg>]. *)
Theorem C65_use_refuted : exists t t' target inner user c c' on p,
  clean no_selectors inh (fun _ => false) typ dflt true true [] [] t = Some t' /\ has_id_at t target = true /\
  instance t target inner user = Some c /\ instance t' target inner user = Some c' /\
  final all_match inh init on [] c p <> final all_match inh init on [] c' p.
Proof.
  exists (Node (el 0 []) false [Node (el 1 []) true [Node (el 2 [(1, 10)]) false []]; Node (el 3 [(1, 50)]) false []]).
  eexists. exists [0], [0], [1]. eexists. eexists. exists (fun _ => true), 1. split; [vm_compute; reflexivity|]. split; [reflexivity|]. split; [vm_compute; reflexivity|].
  split; [vm_compute; reflexivity|]. vm_compute. congruence.
Qed.
Print Assumptions C65_use_refuted.
(** C65: not so where a selector looks at the attribute: [[stroke-width="1"] { fill: red }]. *)
Definition sees (_ : sel) (e : elem) : bool := existsb (fun a => (fst a =? 1) && (snd a =? 10)) (e_attrs e).
Definition select_sees (_ : text) (e : elem) : option bool := Some (sees (mkSel [] 0) e).
Theorem C65_selector_refuted : exists sheets t t' on p,
  Forall (fun e => selectors_read sees select_sees sheets e /\ Forall (none_after sees e) sheets) (elements t) /\ forallb none_skipped sheets = true /\
  clean select_sees inh (fun _ => false) typ dflt true true sheets [] t = Some t' /\
  map (fun c => final sees inh init on sheets c p) (chains [] t) <> map (fun c => final sees inh init on sheets c p) (chains [] t').
Proof.
  exists [RStyle [mkSel (lit "*") 0] (mkBlock [] [(3, 30)])], (Node (el 0 [(1, 10)]) false []). eexists. exists (fun _ => true), 3. split.
  - constructor; [|constructor]. split; [intros g _; reflexivity|]. constructor; [|constructor]. intros a g h b E. destruct a as [|? [|]]; discriminate E.
  - split; [reflexivity|]. split; [vm_compute; reflexivity|]. vm_compute. congruence.
Qed.
Print Assumptions C65_selector_refuted.
(** C65: not so where a parent has both an attribute and a rule: [<g class="a" fill="12"><path fill="12"/></g>] with [.a { fill: 11 }]. *)
Definition first_only (t : text) (e : elem) : option bool := Some (e_id e =? 1).
Theorem C65_rule_refuted : exists sheets t t' on p, let matches := fun (_ : sel) e => e_id e =? 1 in
  Forall (fun e => selectors_read matches first_only sheets e /\ Forall (none_after matches e) sheets) (elements t) /\ forallb none_skipped sheets = true /\
  clean first_only inh (fun _ => false) typ dflt true true sheets [] t = Some t' /\
  map (fun c => final matches inh init on sheets c p) (chains [] t) <> map (fun c => final matches inh init on sheets c p) (chains [] t').
Proof.
  exists [RStyle [mkSel (lit ".a") 1] (mkBlock [] [(1, 11)])], (Node (el 0 []) false [Node (el 1 [(1, 12)]) false [Node (el 2 [(1, 12)]) false []]]). eexists. exists (fun _ => true), 1.
  cbv zeta. split.
  - repeat (constructor; [split; [intros g _; reflexivity|]; constructor; [|constructor]; intros a g h b E; destruct a as [|? [|]]; discriminate E|]). constructor.
  - split; [reflexivity|]. split; [vm_compute; reflexivity|]. vm_compute. congruence.
Qed.
Print Assumptions C65_rule_refuted.
