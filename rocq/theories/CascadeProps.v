From Coq Require Import String List NArith Bool Arith Sorted Lia.
From Verif Require Import Chars CascadeModel CascadeSpec CascadeProofs.
Import ListNotations.
Local Open Scope list_scope.

(** C35: for an element with its ancestors, the styles are found, and what they say of a property is what the cascade says: a static value whatever conditions hold,
    none if there is none whatever conditions hold, and otherwise the value when all conditions hold.
    Missing, and refuted below: declarations not in order of specificity; selectors after one that does not match, in a rule with all it holds; selectors that cannot be read;
    blocks that are skipped; a property twice in the style attribute; ancestors with a property both in an attribute and in a normal rule. *)
Theorem C35_cascade_partial : forall matches inheritable select rs p e rest,
  forallb none_skipped rs = true ->
  Forall (fun a => selectors_read matches select rs a /\ Forall (none_after matches a) rs /\ by_specificity matches rs a p) (e :: rest) ->
  Forall (fun a => apart matches rs a p) rest -> once (e_attrs e) p -> style_once e p ->
  exists s, with_all select rs (e :: rest) = Some s /\ agrees (get inheritable s p) (fun on => computed matches inheritable on rs (e :: rest) p).
Proof. exact cascade. Qed.
Print Assumptions C35_cascade_partial.
(** C35: stylesheets are in document order if style elements are children of the root.  Missing: other ones (refuted below). *)
Theorem C35_order_partial : forall l, Forall shallow l -> exists fuel, forall n, fuel <= n -> levels n l = Some (flat_map in_order l).
Proof. exact levels_order. Qed.
Print Assumptions C35_order_partial.

(** Selectors of classes named by one letter, and the universal one. *)
Fixpoint classes (t : text) : option (list N) :=
  match t with
  | [] => Some []
  | dot :: c :: t => if N.eqb dot 46 then option_map (cons c) (classes t) else None
  | _ => None
  end.
Definition parse_sel (t : text) : option (list N) := match t with 42%N :: t => classes t | _ => classes t end.
Definition class_of (n : nat) : list N := match n with 1 => lit "a" | 2 => lit "b" | 3 => lit "ab" | _ => [] end.
Definition select_class (t : text) (e : elem) : option bool :=
  option_map (forallb (fun c => existsb (N.eqb c) (class_of (e_id e)))) (parse_sel t).
Definition matches_class (x : sel) (e : elem) : bool := match select_class (sel_text x) e with Some b => b | None => false end.
Definition dot_a := mkSel (lit ".a") 1.
Definition dot_b := mkSel (lit ".b") 1.
Definition dot_ab := mkSel (lit ".a.b") 2.
Definition any := mkSel (lit "*") 0.
Definition normal l := mkBlock [] l.
Definition inherits (p : prop) : bool := p <=? 10.

(** A class rule, a rule for both classes in a query, and an important one; the parent has an attribute. *)
Definition sheet_ex := [RStyle [any] (normal [(1, 100)]); RStyle [dot_a; dot_b] (mkBlock [(2, 200)] [(1, 101)]); RMedia 7 [RStyle [dot_ab] (normal [(1, 102); (3, 103)])]].
Definition child_ex := mkElem 3 [(4, 400)] (Some (normal [(2, 201); (5, 500)])).
Definition parent_ex := mkElem 1 [(6, 600); (11, 601)] None.
Example C35_witness :
  (forallb none_skipped sheet_ex = true /\
   Forall (fun a => selectors_read matches_class select_class sheet_ex a /\ Forall (none_after matches_class a) sheet_ex /\
                    forall p, p < 12 -> by_specificity matches_class sheet_ex a p) [child_ex; parent_ex] /\
   (forall p, p < 12 -> apart matches_class sheet_ex parent_ex p /\ once (e_attrs child_ex) p /\ style_once child_ex p)) /\
  option_map (fun s => map (get inherits s) [1; 2; 3; 4; 5; 6; 11]) (with_all select_class sheet_ex [child_ex; parent_ex]) =
    Some [Some (102, Dynamic); Some (200, Static); Some (103, Dynamic); Some (400, Static); Some (500, Static); Some (600, Static); None].
Proof.
  assert (N : forall a, In a [child_ex; parent_ex] -> Forall (none_after matches_class a) sheet_ex).
  { intros a Ha. unfold sheet_ex. constructor; [|constructor; [|constructor; [|constructor]]]; intros x g h y E; cbn in E;
      (destruct x as [|x1 x]; [injection E; intros; subst; try discriminate; destruct Ha as [<-|[<-|[]]]; reflexivity|]);
      (destruct x as [|x2 x]; [injection E; intros; subst; try discriminate; destruct Ha as [<-|[<-|[]]]; reflexivity|]); try discriminate;
      injection E; intros; destruct x; discriminate. }
  assert (R : forall a, selectors_read matches_class select_class sheet_ex a).
  { intros a g Hg. cbn in Hg. unfold matches_class. destruct Hg as [<-|[<-|[<-|[<-|[]]]]]; cbn [g_sel]; unfold select_class; reflexivity. }
  assert (B : forall a p, In a [child_ex; parent_ex] -> p < 12 -> by_specificity matches_class sheet_ex a p).
  { intros a p Ha Hp f [-> | ->]; destruct Ha as [<-|[<-|[]]]; do 12 (destruct p as [|p]; [cbv; repeat constructor|]); lia. }
  split; [|vm_compute; reflexivity]. split; [reflexivity|]. split.
  - constructor; [|constructor; [|constructor]]; (split; [apply R|]); (split; [apply N; cbn; tauto|]); intros p Hp; apply B; cbn; tauto.
  - intros p Hp. do 12 (destruct p as [|p]; [split; [first [left; reflexivity|right; reflexivity]|split; [cbv; lia|cbv; lia]]|]). lia.
Qed.

(** C35: not so in general: where selectors are all read and matched as CSS says, the styles say another value than the cascade. *)
Definition wrong (rs : list rule) (chain : list elem) (p : prop) : Prop :=
  Forall (selectors_read matches_class select_class rs) chain /\
  exists s, with_all select_class rs chain = Some s /\ exists on, option_map fst (get inherits s p) <> computed matches_class inherits on rs chain p /\
            (get inherits s p = None \/ exists v, get inherits s p = Some (v, Static)).
Ltac show_wrong b :=
  split; [repeat constructor; intros g Hg; cbn in Hg; unfold matches_class, select_class; repeat (destruct Hg as [<-|Hg]; [reflexivity|]); destruct Hg
         |eexists; split; [vm_compute; reflexivity|]; exists (fun _ => b); split; [vm_compute; congruence|vm_compute; eauto]].
(** Specificity is not compared: the later rule wins. *)
Theorem C35_specificity_refuted : exists rs e, wrong rs [e] 1.
Proof. exists [RStyle [dot_a] (normal [(1, 10)]); RStyle [any] (normal [(1, 20)])], (mkElem 1 [] None). show_wrong true. Qed.
Print Assumptions C35_specificity_refuted.
(** A selector that does not match is put before the next one: [.a, .b] is [.a, .a.b]. *)
Theorem C35_selector_list_refuted : exists rs e, wrong rs [e] 1.
Proof. exists [RStyle [dot_a; dot_b] (normal [(1, 10)])], (mkElem 2 [] None). show_wrong true. Qed.
Print Assumptions C35_selector_list_refuted.
(** Of two declarations in a style attribute the first is taken. *)
Theorem C35_inline_refuted : exists e, wrong [] [e] 1.
Proof. exists (mkElem 1 [] (Some (normal [(1, 10); (1, 20)]))). show_wrong true. Qed.
Print Assumptions C35_inline_refuted.
(** An attribute of the parent is inherited in place of a rule that matches the parent. *)
Theorem C35_inherited_refuted : exists rs e a, wrong rs [e; a] 1.
Proof. exists [RStyle [dot_a] (normal [(1, 10)])], (mkElem 0 [] None), (mkElem 1 [(1, 20)] None). show_wrong true. Qed.
Print Assumptions C35_inherited_refuted.
(** Rules in other blocks are left out, and yet the value is said to be static. *)
Theorem C35_skipped_refuted : exists rs e, wrong rs [e] 1.
Proof. exists [RStyle [any] (normal [(1, 10)]); RSkipped 1 [RStyle [dot_a] (normal [(1, 20)])]], (mkElem 1 [] None). show_wrong true. Qed.
Print Assumptions C35_skipped_refuted.
(** Two rules in a query, each with a selector that is read, end in an error. *)
Theorem C35_error_refuted : exists rs e, selectors_read matches_class select_class rs e /\ with_all select_class rs [e] = None.
Proof.
  exists [RMedia 1 [RStyle [dot_a] (normal []); RStyle [any] (normal [])]], (mkElem 2 [] None). split; [|vm_compute; reflexivity].
  intros g Hg. cbn in Hg. unfold matches_class, select_class. repeat (destruct Hg as [<-|Hg]; [reflexivity|]). destruct Hg.
Qed.
Print Assumptions C35_error_refuted.
(** A stylesheet in a group comes after one later in the document. *)
Theorem C35_order_refuted : exists l rs, levels 3 l = Some rs /\ rs <> flat_map in_order l.
Proof.
  exists [NElem [NStyle [RStyle [any] (normal [(1, 10)])]]; NStyle [RStyle [any] (normal [(1, 20)])]]. eexists. split; [vm_compute; reflexivity|]. vm_compute. congruence.
Qed.
Print Assumptions C35_order_refuted.
Example C35_order_witness : exists l, Forall shallow l /\ flat_map in_order l <> [] /\ levels 3 l = Some (flat_map in_order l).
Proof.
  exists [NElem []; NStyle [RStyle [any] (normal [(1, 10)])]; NElem [NElem []]; NStyle [RStyle [dot_a] (normal [(1, 20)])]].
  split; [repeat constructor|]. split; [discriminate|vm_compute; reflexivity].
Qed.
