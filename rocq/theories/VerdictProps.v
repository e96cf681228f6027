From Coq Require Import String List NArith Bool.
From Verif Require Import Chars NameModel AttrTable ElemTable ElemModel KnownModel KnownSpec ExcerptModel VerdictModel VerdictSpec VerdictProofs.
Import ListNotations.

(** C107: what a rule finds is reported with the severity of the rule, nothing is reported for one that is off, and the severity of one rule changes nothing in what others report. *)
Theorem C107_severity : forall r parent e attrs p s,
  In (p, s) (report r parent e attrs) <-> s = severity_of r p /\ s <> Off /\ In (p, Err) (report all_on parent e attrs).
Proof. exact severities. Qed.
Print Assumptions C107_severity.
(** C107: nothing is reported for an element of SVG 2, at the root or in a parent it may be in, whose attributes are ones SVG 2 gives it, with values that are valid and not the ones they have when left out.
    Missing, and refuted below or in C66 and C67: [discard], [tspan] and [textPath] in [a], three attributes the code does not know, and those it takes to have another default. *)
Theorem C107_clean_partial : forall r parent element attrs, (exists e own, In (e, own) own_attributes /\ lit e = element) -> element <> lit "discard" ->
  match parent with Some p => svg2_child p element /\ ~ (p = lit "a" /\ (element = lit "tspan" \/ element = lit "textPath")) | None => True end ->
  (forall av, In av attrs -> fine element av) ->
  report r (option_map svg parent) (svg element) (map (fun av => attribute element (fst av) (snd av)) attrs) = [].
Proof. exact clean. Qed.
Print Assumptions C107_clean_partial.
(** C107: an attribute without a prefix that is in no table is reported on a known element, among whatever others. *)
Theorem C107_unknown_attribute : forall r parent element local v rest l, r_attributes r <> Off -> (exists k, In k elem_table /\ e_local k = element) ->
  (forall k, In k attr_table -> kind_prefix k = SVG -> kind_local k <> local) ->
  In (mkAttr (parse_attr_id (svg element) (PKnown SVG) local) v rest) l ->
  In (UnknownAttribute (ABase (BUnknown (mkName (PKnown SVG) local))) (svg element), r_attributes r) (report r parent (svg element) l).
Proof. exact unknown_reported. Qed.
Print Assumptions C107_unknown_attribute.
(** C107: an element of the namespace of SVG that is in no table is reported in any element of SVG 2, but for the ones that hold anything and [discard]. *)
Theorem C107_unknown_child : forall r parent child attrs, r_elements r <> Off -> (exists e own, In (e, own) own_attributes /\ lit e = parent) -> parent <> lit "discard" ->
  ~ In parent (map lit holds_any) -> (forall k, In k elem_table -> e_local k <> child) ->
  In (UnknownElement (svg parent) (svg child), r_elements r) (report r (Some (svg parent)) (svg child) attrs).
Proof. exact child_reported. Qed.
Print Assumptions C107_unknown_child.
(** C107: an attribute is reported as one of XLink exactly when its namespace is the one of XLink, whatever its prefix, name and value, and on any element. *)
Theorem C107_xlink : forall r parent e uri name local v rest l, r_xlink r <> Off ->
  ((exists q s, In (NoXLink q, s) (report r parent e [mkAttr (parse_attr_id e (prefix_new uri name) local) v rest])) <-> uri = lit "http://www.w3.org/1999/xlink")
  /\ (In (mkAttr (parse_attr_id e (prefix_new uri name) local) v rest) l -> uri = lit "http://www.w3.org/1999/xlink" -> exists q s, In (NoXLink q, s) (report r parent e l)).
Proof. exact xlink_reported. Qed.
Print Assumptions C107_xlink.
(** C107: a known attribute whose value is not one of its type, or is a path that stops being one, is reported.  Missing, and refuted below: attributes with a prefix other than the usual one. *)
Theorem C107_invalid_partial : forall r parent e k v rest l, r_invalid r <> Off -> In (mkAttr (ABase (BKnown k)) v rest) l -> (rest = true \/ exists t, v = Unparsed t) ->
  In (InvalidAttribute (ABase (BKnown k)), r_invalid r) (report r parent e l).
Proof. exact invalid_reported. Qed.
Print Assumptions C107_invalid_partial.
(** C107: elements SVG 2 dropped are reported.  Missing, and refuted below: five of them. *)
Theorem C107_dropped_partial : forall r parent s attrs, r_deprecated r <> Off -> In s dropped -> ~ In s still_there ->
  In (DeprecatedElement (svg (lit s)), r_deprecated r) (report r parent (svg (lit s)) attrs).
Proof. exact dropped_reported. Qed.
Print Assumptions C107_dropped_partial.

(** C107: with all rules off nothing is reported. *)
Theorem C107_off : forall parent e attrs, report rules_off parent e attrs = [].
Proof. reflexivity. Qed.
Print Assumptions C107_off.
(** C107: declarations of prefixes are not reported as unknown attributes. *)
Theorem C107_declarations : forall r parent e local v rest a e' s,
  ~ In (UnknownAttribute a e', s) (report r parent e [mkAttr (parse_attr_id e (prefix_new (lit "http://www.w3.org/2000/xmlns/") (Some (lit "xmlns"))) local) v rest]).
Proof. exact declarations_fine. Qed.
Print Assumptions C107_declarations.
(** C107: what is said of [xlink:show] is what it does. *)
Theorem C107_show : forall r parent rest, r_xlink r <> Off -> let show := parse_attr_id (svg (lit "a")) (prefix_new (lit "http://www.w3.org/1999/xlink") (Some (lit "xlink"))) (lit "show") in
  In (NoXLink ShowNew, r_xlink r) (report r parent (svg (lit "a")) [mkAttr show (Typed (lit "new")) rest]) /\
  In (NoXLink ShowReplace, r_xlink r) (report r parent (svg (lit "a")) [mkAttr show (Typed (lit "replace")) rest]).
Proof. exact show_said. Qed.
Print Assumptions C107_show.

Ltac listed := repeat first [left; reflexivity | right].
(** [<g><rect rx="3" width="2"/></g>] is fine; other attributes of the rectangle are not. *)
Example C107_sample :
  (forall av, In av [(lit "rx", lit "3"); (lit "width", lit "2")] -> fine (lit "rect") av) /\ svg2_child (lit "g") (lit "rect") /\
  map (fun x => (x, List.length (report rules_recommended (Some (svg (lit "g"))) (svg (lit "rect")) [attribute (lit "rect") (lit (fst x)) (lit (snd x))])))
    [("rx", "3"); ("width", "2"); ("stroke-width", "1"); ("colour", "red"); ("enable-background", "new")]%string =
    [(("rx", "3"), 0); (("width", "2"), 0); (("stroke-width", "1"), 1); (("colour", "red"), 1); (("enable-background", "new"), 1)]%string /\
  report rules_recommended (Some (svg (lit "g"))) (svg (lit "rectangle")) [] = [(UnknownElement (svg (lit "g")) (svg (lit "rectangle")), Err)].
Proof.
  split; [|split; [|split; vm_compute; reflexivity]].
  - assert (N : forall n w, (forall r, In r initial_rows -> text_eqb (lit (fst (fst r))) (lit n) = true -> existsb (fun v => text_eqb (lit v) (lit w)) (snd r) = false) -> ~ initial (lit "rect") (lit n) (lit w)).
    { intros n w H (a & els & vs & e & v & Hin & Ha & _ & Hv & Hvv). specialize (H _ Hin). cbn [fst snd] in H. rewrite Ha, text_eqb_refl in H. specialize (H eq_refl).
      assert (T : existsb (fun v => text_eqb (lit v) (lit w)) vs = true) by (apply existsb_exists; exists v; rewrite Hvv, text_eqb_refl; auto). congruence. }
    assert (NB : forall n w, forallb (fun r => if text_eqb (lit (fst (fst r))) (lit n) then negb (existsb (fun v => text_eqb (lit v) (lit w)) (snd r)) else true) initial_rows = true -> ~ initial (lit "rect") (lit n) (lit w)).
    { intros n w H. apply N. intros r Hr E. apply (proj1 (forallb_forall _ _)) with (x := r) in H; [|exact Hr]. cbv beta in H. rewrite E in H. apply negb_true_iff in H. exact H. }
    intros av [<-|[<-|[]]]; (split; [|split; [|split; [|split]]]).
    + exists "rect"%string. eexists. exists "rx"%string. split; [unfold own_attributes; listed|]. split; [reflexivity|]. split; [|reflexivity]. apply in_or_app. right. listed.
    + unfold known_kept. vm_compute. intuition discriminate.
    + vm_compute. intuition discriminate.
    + split; [vm_compute; intuition discriminate|discriminate].
    + apply NB. vm_compute. reflexivity.
    + exists "rect"%string. eexists. exists "width"%string. split; [unfold own_attributes; listed|]. split; [reflexivity|]. split; [|reflexivity]. apply in_or_app. right. listed.
    + unfold known_kept. vm_compute. intuition discriminate.
    + vm_compute. intuition discriminate.
    + split; [vm_compute; intuition discriminate|discriminate].
    + apply NB. vm_compute. reflexivity.
  - exists "g"%string. eexists. exists "rect"%string. split; [unfold svg2_children; listed|]. split; [reflexivity|]. split; [listed|reflexivity].
Qed.
(** [xlink:href], with the prefix and with another; what the rules say of each. *)
Example C107_xlink_sample : let use := svg (lit "use") in let uri := lit "http://www.w3.org/1999/xlink" in
  let say p local v := report rules_recommended None use [mkAttr (parse_attr_id use (prefix_new uri (Some (lit p))) (lit local)) v false] in
  say "xlink"%string "href"%string (Typed (lit "#a")) = [(NoXLink Href, Warn)] /\ say "x"%string "href"%string (Typed (lit "#a")) = [(NoXLink Href, Warn)] /\
  List.length (say "xlink"%string "other"%string (Unparsed (lit "#a"))) = 2.
Proof. vm_compute. auto. Qed.
Example C107_invalid_sample : let path := svg (lit "path") in let d := parse_attr_id path (PKnown SVG) (lit "d") in
  match d with ABase (BKnown _) => True | _ => False end /\
  report rules_recommended None path [mkAttr d (Typed (lit "M0 0")) true] = [(InvalidAttribute d, Err)].
Proof. vm_compute. auto. Qed.

(** The inherited value is not looked at: for [<g stroke-width="5"><rect stroke-width="1"/></g>] the width is reported as one that can be left out; without it the stroke is five wide. *)
Theorem C107_default_refuted : exists attrs, attrs = [attribute (lit "rect") (lit "stroke-width") (lit "1")] /\
  (exists a, In (DefaultAttribute a, Warn) (report rules_recommended (Some (svg (lit "g"))) (svg (lit "rect")) attrs)) /\
  comes_to (Some (lit "1")) (Some (lit "5")) (lit "1") <> comes_to None (Some (lit "5")) (lit "1").
Proof. eexists. split; [reflexivity|]. split; [eexists; vm_compute; left; reflexivity|discriminate]. Qed.
Print Assumptions C107_default_refuted.
(** [divisor="1"] is reported as the default; left out, the sum of the kernel divides. *)
Theorem C107_divisor_refuted : exists element local v, svg2_attribute (lit element) (lit local) /\ ~ initial (lit element) (lit local) (lit v) /\
  exists a, In (DefaultAttribute a, Warn) (report rules_recommended None (svg (lit element)) [attribute (lit element) (lit local) (lit v)]).
Proof.
  exists "feConvolveMatrix"%string, "divisor"%string, "1"%string. split; [|split; [|eexists; vm_compute; left; reflexivity]].
  - exists "feConvolveMatrix"%string. eexists. exists "divisor"%string. split; [unfold own_attributes; listed|]. split; [reflexivity|]. split; [|reflexivity]. apply in_or_app. right. listed.
  - intros (a & els & vs & e & v & Hin & Ha & _).
    assert (C : forallb (fun r => negb (text_eqb (lit (fst (fst r))) (lit "divisor"))) initial_rows = true) by (vm_compute; reflexivity).
    apply (proj1 (forallb_forall _ _)) with (x := (a, els, vs)) in C; [|exact Hin]. cbn [fst] in C. rewrite Ha, text_eqb_refl in C. discriminate.
Qed.
Print Assumptions C107_divisor_refuted.
(** [mask-type] on a mask is reported as unknown, and so is any data attribute, which SVG 2 (5.4) allows everywhere. *)
Theorem C107_attributes_refuted : exists element local, svg2_attribute (lit element) (lit local) /\
  exists a, In (UnknownAttribute a (svg (lit element)), Err) (report rules_recommended None (svg (lit element)) [attribute (lit element) (lit local) (lit "alpha")]).
Proof.
  exists "mask"%string, "mask-type"%string. split; [|eexists; vm_compute; left; reflexivity].
  exists "mask"%string. eexists. exists "mask-type"%string. split; [unfold own_attributes; listed|]. split; [reflexivity|]. split; [|reflexivity]. apply in_or_app. left. unfold common_attributes. listed.
Qed.
Print Assumptions C107_attributes_refuted.
Theorem C107_data_refuted : exists local a, local = (lit "data-" ++ lit "name")%list /\
  In (UnknownAttribute a (svg (lit "rect")), Err) (report rules_recommended None (svg (lit "rect")) [attribute (lit "rect") local (lit "x")]).
Proof. eexists. eexists. split; [reflexivity|]. vm_compute. left. reflexivity. Qed.
Print Assumptions C107_data_refuted.
(** [animateColor] is not reported, nor is [font] when its prefix is not the usual one. *)
Theorem C107_dropped_refuted : exists s, In s dropped /\ report all_on None (svg (lit s)) [] = [].
Proof. exists "animateColor"%string. split; [unfold dropped; listed|vm_compute; reflexivity]. Qed.
Print Assumptions C107_dropped_refuted.
Theorem C107_prefix_refuted : exists p, p = prefix_new (lit "http://www.w3.org/2000/svg") (Some (lit "s")) /\ report all_on None (elem_new p (lit "font")) [] = [] /\
  report all_on None (svg (lit "font")) [] = [(DeprecatedElement (svg (lit "font")), Err)].
Proof. eexists. split; [reflexivity|]. split; vm_compute; reflexivity. Qed.
Print Assumptions C107_prefix_refuted.
(** [x:show="bogus"] is not reported as invalid; [xlink:show="bogus"] is. *)
Theorem C107_invalid_refuted : exists a b, let use := svg (lit "a") in let uri := lit "http://www.w3.org/1999/xlink" in
  a = mkAttr (parse_attr_id use (prefix_new uri (Some (lit "x"))) (lit "show")) (Unparsed (lit "bogus")) false /\
  b = mkAttr (parse_attr_id use (prefix_new uri (Some (lit "xlink"))) (lit "show")) (Unparsed (lit "bogus")) false /\
  (forall k s, ~ In (InvalidAttribute k, s) (report all_on None use [a])) /\ (exists k s, In (InvalidAttribute k, s) (report all_on None use [b])).
Proof.
  eexists. eexists. cbv zeta. split; [reflexivity|]. split; [reflexivity|]. split.
  - intros k s H. vm_compute in H. destruct H as [H|[]]. discriminate H.
  - eexists. eexists. vm_compute. right. left. reflexivity.
Qed.
Print Assumptions C107_invalid_refuted.
