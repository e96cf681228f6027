From Coq Require Import String List NArith Bool Arith.
From Verif Require Import Chars NameModel AttrTable ElemModel ElemProps DomModel DomSpec WalkModel WalkSpec WalkProofs WalkOps3 WalkDoc NodeModel ScriptsModel ScriptsSpec ScriptsProofs.
Import ListNotations.

(** C38, for documents in which a link to a script has text only before and after its other children (and after them
    only if a node follows the link): what is left is every node that is not a script, not inside one, not such a link
    and not text directly inside such a link, in order and under the nearest node left above it; nothing left is a
    script, links to one by a url starting with "javascript:" or carries an attribute of the event groups.  Missing:
    other documents (refuted below), attributes and urls the job does not recognise (refuted below). *)
Theorem C38_scripts_partial : forall root d l, tidy_all l -> Forall leafy l ->
  exists f0, forall f s, f0 <= f -> w_info s root = d -> below s root l -> NoDup (root :: all_ids l) ->
  exists s' out, remove_scripts true f s root = Some s' /\ below s' root out /\
    flat_map (rows root) out = flat_map (left_over root false) l /\ Forall (all_nodes harmless) out /\
    exists g, read_all g s' 0 (child_nodes_iter (w_heap s') root) = Some (flat_map (depths 0) out).
Proof. exact scripts_partial. Qed.
Print Assumptions C38_scripts_partial.
Theorem C38_disabled : forall f s root, remove_scripts false f s root = Some s.
Proof. exact (fun f s root => eq_refl). Qed.
Print Assumptions C38_disabled.

Local Open Scope string_scope.
Definition el (n : string) (attrs : list (string * string)) : ninfo :=
  NElem (svg_elem n) (map (fun a => (parse_attr_id (svg_elem n) (prefix_new svg_uri None) (lit (fst a)), lit (snd a))) attrs).
Definition tx (s : string) : ninfo := NText (lit s).
Definition start (l : list (wtree ninfo)) : wstate ninfo unit := layout (NText []) 0 (NOther 9 []) tt l.
(** The ids written, given the depth of each. *)
Definition output (f : nat) (o : option (wstate ninfo unit)) : option (list (nat * nat)) :=
  match o with Some s => read_all f s 0 (child_nodes_iter (w_heap s) 0) | None => None end.

(** A link to a script, a script, a handler. *)
Definition ok_doc : list (wtree ninfo) :=
  [W 1 (el "svg" [("onload", "go()"); ("width", "4")])
     [W 2 (el "a" [("href", " javascript:go()")]) [W 3 (tx "t") []; W 4 (el "rect" [("onclick", "f()")]) [W 5 (el "title" []) []]; W 6 (tx "u") []];
      W 7 (el "script" []) [W 8 (tx "f()") []];
      W 9 (el "text" []) [W 10 (tx "kept") []]]].
Example C38_hypotheses_met : tidy_all ok_doc /\ Forall leafy ok_doc /\ below (start ok_doc) 0 ok_doc /\ NoDup (0 :: all_ids ok_doc).
Proof.
  assert (N : NoDup (0 :: all_ids ok_doc)).
  { repeat (constructor; [cbn; intuition discriminate|]). constructor. }
  split; [|split; [|split; [apply layout_below, N|exact N]]].
  - unfold ok_doc, tidy_all. cbn [tidy]. split; [|exact Logic.I]. split; [intros _ H; vm_compute in H; discriminate|].
    split; [split|repeat split].
    + intros _ _. exists [W 3 (tx "t") []], [W 4 (el "rect" []) [W 5 (el "title" []) []]], [W 6 (tx "u") []].
      split; [vm_compute; reflexivity|]. repeat (split; [repeat constructor|]). auto.
    + repeat split; intros H H'; vm_compute in H, H'; discriminate.
    + intros H H'; vm_compute in H, H'; discriminate.
    + intros H H'; vm_compute in H, H'; discriminate.
    + intros H H'; vm_compute in H, H'; discriminate.
    + intros H H'; vm_compute in H, H'; discriminate.
  - unfold ok_doc. repeat (constructor; [first [intros H; vm_compute in H; discriminate | reflexivity | intros _; reflexivity]|]); repeat constructor; intros H; vm_compute in H; discriminate.
Qed.
Example C38_result : output 30 (remove_scripts true 30 (start ok_doc) 0) = Some [(0, 1); (1, 4); (2, 5); (1, 9); (2, 10)].
Proof. vm_compute. reflexivity. Qed.

(** Text between two elements of a link to a script: the text stays, the second element and everything after the link is lost. *)
Definition lossy_doc : list (wtree ninfo) :=
  [W 1 (el "svg" [])
     [W 2 (el "a" [("href", "javascript:go()")]) [W 3 (el "rect" []) []; W 4 (tx "t") []; W 5 (el "rect" []) []];
      W 6 (el "circle" []) []]].
Theorem C38_content_lost_refuted : exists l f, NoDup (0 :: all_ids l) /\ below (start l) 0 l /\
  In (1, 6, el "circle" []) (flat_map (left_over 0 false) l) /\
  output f (remove_scripts true f (start l) 0) = Some [(0, 1); (1, 3); (1, 4)].
Proof.
  exists lossy_doc, 30.
  assert (N : NoDup (0 :: all_ids lossy_doc)) by (repeat (constructor; [cbn; intuition discriminate|]); constructor).
  split; [exact N|]. split; [apply layout_below, N|]. split; [|vm_compute; reflexivity].
  right. right. right. left. vm_compute. reflexivity.
Qed.
Print Assumptions C38_content_lost_refuted.

(** What the job does not recognise stays: an event handler missing in the table, a known handler on an element that
    does not list it, a url with another case, a script in the XHTML namespace. *)
Definition html_script : ninfo := NElem (elem_new (prefix_new (lit "http://www.w3.org/1999/xhtml") (Some (lit "html"))) (lit "script")) [].
Definition active_doc : list (wtree ninfo) :=
  [W 1 (el "svg" [])
     [W 2 (el "rect" [("onpointerdown", "f()")]) [];
      W 3 (el "foreignObject" []) [W 4 html_script [W 5 (tx "f()") []]];
      W 6 (el "a" [("href", "JavaScript:f()")]) [];
      W 7 (el "clipPath" [("onclick", "f()")]) []]].
Theorem C38_scripts_left_refuted : exists l f s', NoDup (0 :: all_ids l) /\ below (start l) 0 l /\
  remove_scripts true f (start l) 0 = Some s' /\
  output f (Some s') = Some [(0, 1); (1, 2); (1, 3); (2, 4); (3, 5); (1, 6); (1, 7)] /\
  w_info s' 2 = el "rect" [("onpointerdown", "f()")] /\ w_info s' 4 = html_script /\
  w_info s' 6 = el "a" [("href", "JavaScript:f()")] /\ w_info s' 7 = el "clipPath" [("onclick", "f()")].
Proof.
  assert (N : NoDup (0 :: all_ids active_doc)) by (repeat (constructor; [cbn; intuition discriminate|]); constructor).
  destruct (remove_scripts true 30 (start active_doc) 0) as [s'|] eqn:E.
  - exists active_doc, 30, s'. split; [exact N|]. split; [apply layout_below, N|]. split; [exact E|].
    assert (H : match remove_scripts true 30 (start active_doc) 0 with None => True | Some s' =>
      output 30 (Some s') = Some [(0, 1); (1, 2); (1, 3); (2, 4); (3, 5); (1, 6); (1, 7)] /\
      w_info s' 2 = el "rect" [("onpointerdown", "f()")] /\ w_info s' 4 = html_script /\
      w_info s' 6 = el "a" [("href", "JavaScript:f()")] /\ w_info s' 7 = el "clipPath" [("onclick", "f()")] end).
    { vm_compute. repeat split. }
    rewrite E in H. exact H.
  - exfalso. assert (H : match remove_scripts true 30 (start active_doc) 0 with None => False | Some _ => True end) by (vm_compute; exact Logic.I).
    rewrite E in H. exact H.
Qed.
Print Assumptions C38_scripts_left_refuted.
