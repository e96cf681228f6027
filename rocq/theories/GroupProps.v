(** C26, C27, C28, C62: moving attributes between groups and their children. *)
From Coq Require Import String List NArith ZArith Bool Arith.
From Verif Require Import Chars GroupModel GroupSpec GroupProofs GroupProofs2 GroupProofs3 GroupProofs4.
Import ListNotations.

Definition val (s : string) : value := Val (lit s) false.
Definition scale2 : tf := TF 1 [2%Z; 2%Z].
Definition move5 : tf := TF 0 [5%Z; 0%Z].
Definition quarter : tf := TF 2 [90%Z].
Definition fill : prop := Inh 0.

(** ** C26 *)
(** The total transform of every element other than the groups is kept, for transforms given by
    attributes only. *)
Theorem C26_totals_partial n : every (fun _ => each_once) n -> every plain_transforms n -> totals (push_down None n) = totals n.
Proof. exact (push_totals n). Qed.
Print Assumptions C26_totals_partial.

(** Nothing but [transform] attributes changes, for every tree. *)
Theorem C26_rest n : without_transforms (push_down None n) = without_transforms n.
Proof. exact (push_rest n None). Qed.
Print Assumptions C26_rest.

(** What a [use] draws of an element with an [id] keeps its transforms, wherever the [use] is. *)
Theorem C26_used_partial env n : every (fun _ => each_once) n -> every plain_transforms n -> used_totals env (push_down None n) = used_totals env n.
Proof. exact (push_used_totals env n). Qed.
Print Assumptions C26_used_partial.

(** [<g transform="scale(2)"><path style="transform:translate(5px)"/></g>]: the style hides the
    attribute the path is given. *)
Theorem C26_style_refuted : exists n,
  n = GE EG [ATransform [scale2]] [GE ED [AStyle [STransform [move5]]] []] /\ every (fun _ => each_once) n /\
  totals n = [(ED, [scale2; move5])] /\ totals (push_down None n) = [(ED, [move5])].
Proof.
  eexists. split; [reflexivity|]. split; [|split; vm_compute; reflexivity].
  split; [|split; [|exact Logic.I]]; (split; [repeat constructor; intros []|exact Logic.I]) || (repeat constructor; intros []).
Qed.
Print Assumptions C26_style_refuted.

(** [<g transform="rotate(90)" transform-origin="5 5"><path/></g>]: the origin stays on the group. *)
Theorem C26_origin_refuted : exists n,
  n = GE EG [ATransform [quarter]; AOrigin 5 5] [GE ED [] []] /\
  totals n = [(ED, [translate 5 5; quarter; translate (-5) (-5)])] /\ totals (push_down None n) = [(ED, [quarter])].
Proof. eexists. split; [reflexivity|]. split; vm_compute; reflexivity. Qed.
Print Assumptions C26_origin_refuted.

Definition C26_tree : gnode :=
  GE (EOther 0) [] [GE EG [ATransform [scale2]; AProp fill (PDef (val "red"))]
    [GE ED [ATransform [move5]] []; GT (lit " "); GE EG [ATransform [quarter]] [GE EText [] [GT (lit "t")]; GE (EOther 1) [AOther KId (val "a")] []]]].
Example C26_example : every (fun _ => each_once) C26_tree /\ every plain_transforms C26_tree /\
  push_down None C26_tree =
    GE (EOther 0) [] [GE EG [AProp fill (PDef (val "red"))]
      [GE ED [ATransform [scale2; move5]] []; GT (lit " "); GE EG [ATransform [scale2; quarter]] [GE EText [] [GT (lit "t")]; GE (EOther 1) [AOther KId (val "a")] []]]] /\
  totals C26_tree = [(EOther 0, []); (ED, [scale2; move5]); (EText, [scale2; quarter]); (EOther 1, [scale2; quarter])] /\
  used_totals ([move5], []) C26_tree = [(lit "a", [(EOther 1, [move5])])].
Proof.
  split; [|split; [|split; [|split]; vm_compute; reflexivity]].
  - repeat (split; [first [exact Logic.I|(unfold each_once; cbn [map name_of]; repeat constructor; cbn [In]; intuition discriminate)|idtac]|]); try exact Logic.I;
    repeat split; (unfold each_once; cbn [map name_of]; repeat constructor; cbn [In]; intuition discriminate).
  - repeat split; intros a Ha; repeat (destruct Ha as [<-|Ha]; [exact Logic.I|]); destruct Ha.
Qed.

(** ** C62 *)
(** Effects keep the coordinates they are in, when groups have them only by reference. *)
Theorem C62_placed_partial k n : every (fun _ => each_once) n -> every plain_transforms n -> every (effects_are_references k) n ->
  placed_effects k (push_down None n) = placed_effects k n.
Proof. exact (push_placed_effects k n). Qed.
Print Assumptions C62_placed_partial.

(** [<g filter="blur(2px)" transform="scale(2)"><path/></g>]: the blur is no longer scaled. *)
Theorem C62_filter_refuted : exists n,
  n = GE EG [AProp p_filter (PDef (val "blur(2px)")); ATransform [scale2]] [GE ED [] []] /\ every plain_transforms n /\
  placed_effects 2 n = [(ED, [(lit "blur(2px)", [scale2])])] /\ placed_effects 2 (push_down None n) = [(ED, [(lit "blur(2px)", [])])].
Proof.
  eexists. split; [reflexivity|]. split; [|split; vm_compute; reflexivity].
  repeat split; intros a Ha; repeat (destruct Ha as [<-|Ha]; [exact Logic.I|]); destruct Ha.
Qed.
Print Assumptions C62_filter_refuted.

Definition C62_tree : gnode :=
  GE EG [ATransform [move5]] [GE EG [ATransform [scale2]; AProp p_filter (PDef (Val (lit "url(#f)") true))] [GE ED [] []]].
Example C62_example : every (effects_are_references 2) C62_tree /\
  push_down None C62_tree = GE EG [] [GE EG [ATransform [move5; scale2]; AProp p_filter (PDef (Val (lit "url(#f)") true))] [GE ED [] []]] /\
  placed_effects 2 C62_tree = [(ED, [(lit "url(#f)", [move5; scale2])])].
Proof.
  split; [|split; vm_compute; reflexivity].
  repeat split; intros _ a Ha; repeat (destruct Ha as [<-|Ha]; [first [exact Logic.I|intros _; eexists; split; reflexivity]|]); destruct Ha.
Qed.

(** ** C28 *)
Theorem C28_totals_partial n : every (fun _ => each_once) n -> every plain_transforms n -> every no_resource_transform n ->
  totals (hoist_all n) = totals n.
Proof. exact (hoist_totals n). Qed.
Print Assumptions C28_totals_partial.

Theorem C28_inherited_partial k n : every (fun _ => each_once) n -> every (plain_inherited k) n -> inherited k (hoist_all n) = inherited k n.
Proof. exact (hoist_inherited k n). Qed.
Print Assumptions C28_inherited_partial.

(** Nothing but [transform] and attributes of inherited properties changes, for every tree. *)
Theorem C28_rest n : without_inherited (hoist_all n) = without_inherited n.
Proof. exact (hoist_all_rest n). Qed.
Print Assumptions C28_rest.

(** Clip paths, masks and filters keep the coordinates they are in, when groups have them by attributes only. *)
Theorem C28_placed_partial k n : k <= 2 -> every (fun _ => each_once) n -> every plain_transforms n -> every no_resource_transform n -> every (no_group_style k) n ->
  placed_effects k (hoist_all n) = placed_effects k n.
Proof. exact (hoist_placed k n). Qed.
Print Assumptions C28_placed_partial.

(** [<g style="filter:blur(2px)"><rect transform="scale(2)"/><rect transform="scale(2)"/></g>]: the blur is scaled. *)
Theorem C28_filter_refuted : exists n,
  n = GE EG [AStyle [SDecl p_filter (val "blur(2px)")]] [GE (EOther 0) [ATransform [scale2]] []; GE (EOther 0) [ATransform [scale2]] []] /\
  placed_effects 2 n = [(EOther 0, [(lit "blur(2px)", [])]); (EOther 0, [(lit "blur(2px)", [])])] /\
  placed_effects 2 (hoist_all n) = [(EOther 0, [(lit "blur(2px)", [scale2])]); (EOther 0, [(lit "blur(2px)", [scale2])])].
Proof. eexists. split; [reflexivity|]. split; vm_compute; reflexivity. Qed.
Print Assumptions C28_filter_refuted.

(** [<g><rect id="a" fill="blue"/><rect fill="blue"/></g>]: a [use] of the first elsewhere draws it without its fill. *)
Theorem C28_used_refuted : exists n,
  n = GE EG [] [GE (EOther 0) [AOther KId (val "a"); AProp fill (PDef (val "blue"))] []; GE (EOther 0) [AProp fill (PDef (val "blue"))] []] /\
  used_inherited 0 None n = [(lit "a", [(EOther 0, Some (lit "blue"))])] /\ used_inherited 0 None (hoist_all n) = [(lit "a", [(EOther 0, None)])].
Proof. eexists. split; [reflexivity|]. split; vm_compute; reflexivity. Qed.
Print Assumptions C28_used_refuted.

(** [<g style="fill:red"><rect fill="blue"/><rect fill="blue"/></g>]: the rectangles become red. *)
Theorem C28_style_refuted : exists n,
  n = GE EG [AStyle [SDecl fill (val "red")]] [GE (EOther 0) [AProp fill (PDef (val "blue"))] []; GE (EOther 0) [AProp fill (PDef (val "blue"))] []] /\
  inherited 0 n = [(EOther 0, Some (lit "blue")); (EOther 0, Some (lit "blue"))] /\
  inherited 0 (hoist_all n) = [(EOther 0, Some (lit "red")); (EOther 0, Some (lit "red"))].
Proof. eexists. split; [reflexivity|]. split; vm_compute; reflexivity. Qed.
Print Assumptions C28_style_refuted.

(** [<g fill="red"><rect fill="inherit"/><rect fill="inherit"/></g>]: the group becomes [fill="inherit"]. *)
Theorem C28_inherit_refuted : exists n,
  n = GE EG [AProp fill (PDef (val "red"))] [GE (EOther 0) [AProp fill PInherit] []; GE (EOther 0) [AProp fill PInherit] []] /\
  inherited 0 n = [(EOther 0, Some (lit "red")); (EOther 0, Some (lit "red"))] /\
  inherited 0 (hoist_all n) = [(EOther 0, None); (EOther 0, None)].
Proof. eexists. split; [reflexivity|]. split; vm_compute; reflexivity. Qed.
Print Assumptions C28_inherit_refuted.

(** Two clip paths with the same transform in one group lose it. *)
Theorem C28_resource_refuted : exists n,
  n = GE EG [] [GE EResource [ATransform [move5]] [GE ED [] []]; GE EResource [ATransform [move5]] []] /\ every plain_transforms n /\
  totals n = [(EResource, [move5]); (ED, [move5]); (EResource, [move5])] /\
  totals (hoist_all n) = [(EResource, []); (ED, []); (EResource, [])].
Proof.
  eexists. split; [reflexivity|]. split; [|split; vm_compute; reflexivity].
  repeat split; intros a Ha; repeat (destruct Ha as [<-|Ha]; [exact Logic.I|]); destruct Ha.
Qed.
Print Assumptions C28_resource_refuted.

Definition C28_tree : gnode :=
  GE EG [ATransform [scale2]]
    [GE (EOther 0) [AProp fill (PDef (val "blue")); ATransform [move5]] []; GT (lit " "); GE EText [ATransform [move5]; AProp fill (PDef (val "blue")); AProp p_opacity (PDef (val "1"))] []].
Example C28_example : every (fun _ => each_once) C28_tree /\ every plain_transforms C28_tree /\ every no_resource_transform C28_tree /\ every (plain_inherited 0) C28_tree /\
  hoist_all C28_tree = GE EG [ATransform [scale2; move5]; AProp fill (PDef (val "blue"))] [GE (EOther 0) [] []; GT (lit " "); GE EText [AProp p_opacity (PDef (val "1"))] []].
Proof.
  split; [|split; [|split; [|split; [|vm_compute; reflexivity]]]].
  - repeat split; (unfold each_once; cbn [map name_of]; repeat constructor; cbn [In]; intuition discriminate).
  - repeat split; intros a Ha; repeat (destruct Ha as [<-|Ha]; [exact Logic.I|]); destruct Ha.
  - repeat split; intros D; discriminate D.
  - repeat split; intros a Ha; repeat (destruct Ha as [<-|Ha]; [first [exact Logic.I|intros _; eexists; reflexivity]|]); destruct Ha.
Qed.

(** ** C27 *)
(** Without styles, animations, resources and repeated effects, all three are kept and nothing panics. *)
Theorem C27_partial local_name n :
  every (fun _ => each_once) n -> every plain_transforms n -> every simple_element n -> (forall k, once_per_branch k False n) ->
  exists n', collapse local_name false n = Some [n'] /\ totals n' = totals n /\ (forall k, inherited k n' = inherited k n) /\ forall k, effects k n' = effects k n.
Proof. exact (collapse_preserves local_name n). Qed.
Print Assumptions C27_partial.

(** What a [use] draws is kept as well if groups have no [id] and no [class]. *)
Theorem C27_used_partial local_name n :
  every (fun _ => each_once) n -> every plain_transforms n -> every simple_element n -> (forall k, once_per_branch k False n) -> every bare_group n ->
  exists n', collapse local_name false n = Some [n'] /\ (forall env, used_totals env n' = used_totals env n) /\
  (forall k env, used_inherited k env n' = used_inherited k env n) /\ forall k env, used_effects k env n' = used_effects k env n.
Proof. exact (collapse_used_all local_name n). Qed.
Print Assumptions C27_used_partial.

(** Clip paths, masks and filters keep the coordinates they are in. *)
Theorem C27_placed_partial local_name n :
  every (fun _ => each_once) n -> every plain_transforms n -> every simple_element n -> (forall k, once_per_branch k False n) ->
  exists n', collapse local_name false n = Some [n'] /\ forall k, k <= 2 -> placed_effects k n' = placed_effects k n.
Proof. exact (collapse_placed local_name n). Qed.
Print Assumptions C27_placed_partial.

(** No node but groups disappears or moves, for every tree. *)
Theorem C27_content local_name n l : collapse local_name false n = Some l -> flat_map content l = content n.
Proof. exact (collapse_content local_name n false l). Qed.
Print Assumptions C27_content.

Definition svg_with (kids : list gnode) : gnode := GE (EOther 0) [] kids.
(** [<g id="a" data-x="1" transform="scale(2)"><path data-x="2"/></g>]: the path gets the [id], the group keeps the transform. *)
Theorem C27_used_refuted : exists n n',
  n = svg_with [GE EG [AOther KId (val "a"); AOther (KOther 0) (val "1"); ATransform [scale2]] [GE ED [AOther (KOther 0) (val "2")] []]] /\
  (forall local_name, collapse local_name false n = Some [n']) /\
  used_totals ([], []) n = [(lit "a", [(ED, [scale2])])] /\ used_totals ([], []) n' = [(lit "a", [(ED, [])])].
Proof.
  exists (svg_with [GE EG [AOther KId (val "a"); AOther (KOther 0) (val "1"); ATransform [scale2]] [GE ED [AOther (KOther 0) (val "2")] []]]),
         (svg_with [GE EG [AOther (KOther 0) (val "1"); ATransform [scale2]] [GE ED [AOther (KOther 0) (val "2"); AOther KId (val "a")] []]]).
  split; [reflexivity|]. split; [intros ln; vm_compute; reflexivity|]. split; vm_compute; reflexivity.
Qed.
Print Assumptions C27_used_refuted.
(** [<g transform="scale(2)" class="x"><path id="a" class="y"/></g>]: with two classes the path takes the transform in spite of its [id]. *)
Theorem C27_classes_refuted : exists n n',
  n = svg_with [GE EG [ATransform [scale2]; AOther KClass (val "x")] [GE ED [AOther KId (val "a"); AOther KClass (val "y")] []]] /\
  (forall local_name, collapse local_name false n = Some [n']) /\
  used_totals ([], []) n = [(lit "a", [(ED, [])])] /\ used_totals ([], []) n' = [(lit "a", [(ED, [scale2])])].
Proof.
  exists (svg_with [GE EG [ATransform [scale2]; AOther KClass (val "x")] [GE ED [AOther KId (val "a"); AOther KClass (val "y")] []]]),
         (svg_with [GE EG [AOther KClass (val "x")] [GE ED [AOther KId (val "a"); AOther KClass (val "y"); ATransform [scale2]] []]]).
  split; [reflexivity|]. split; [intros ln; vm_compute; reflexivity|]. split; vm_compute; reflexivity.
Qed.
Print Assumptions C27_classes_refuted.
(** [<g opacity=".5"><path opacity=".5"/></g>]: one of the two is lost. *)
Theorem C27_opacity_refuted : exists n n',
  n = svg_with [GE EG [AProp p_opacity (PDef (val ".5"))] [GE ED [AProp p_opacity (PDef (val ".5"))] []]] /\
  (forall local_name, collapse local_name false n = Some [n']) /\
  effects 3 n = [(EOther 0, []); (ED, [lit ".5"; lit ".5"])] /\ effects 3 n' = [(EOther 0, []); (ED, [lit ".5"])].
Proof.
  exists (svg_with [GE EG [AProp p_opacity (PDef (val ".5"))] [GE ED [AProp p_opacity (PDef (val ".5"))] []]]),
         (svg_with [GE ED [AProp p_opacity (PDef (val ".5"))] []]).
  split; [reflexivity|]. split; [intros ln; vm_compute; reflexivity|]. split; vm_compute; reflexivity.
Qed.
Print Assumptions C27_opacity_refuted.

(** [<g style="fill:red"><path fill="blue"/></g>]: the path gets the style, which beats its attribute. *)
Theorem C27_style_refuted : exists n n',
  n = svg_with [GE EG [AStyle [SDecl fill (val "red")]] [GE ED [AProp fill (PDef (val "blue"))] []]] /\
  (forall local_name, collapse local_name false n = Some [n']) /\
  inherited 0 n = [(EOther 0, None); (ED, Some (lit "blue"))] /\ inherited 0 n' = [(EOther 0, None); (ED, Some (lit "red"))].
Proof.
  exists (svg_with [GE EG [AStyle [SDecl fill (val "red")]] [GE ED [AProp fill (PDef (val "blue"))] []]]),
         (svg_with [GE ED [AProp fill (PDef (val "blue")); AStyle [SDecl fill (val "red")]] []]).
  split; [reflexivity|]. split; [intros ln; vm_compute; reflexivity|]. split; vm_compute; reflexivity.
Qed.
Print Assumptions C27_style_refuted.

(** [<g style="clip-path:url(#c)"><path transform="scale(2)"/></g>]: the style goes to the path, and the clip path is scaled. *)
Theorem C27_clip_refuted : exists n n',
  n = svg_with [GE EG [AStyle [SDecl p_clip_path (val "url(#c)")]] [GE ED [ATransform [scale2]] []]] /\
  (forall local_name, collapse local_name false n = Some [n']) /\
  placed_effects 0 n = [(EOther 0, []); (ED, [(lit "url(#c)", [])])] /\ placed_effects 0 n' = [(EOther 0, []); (ED, [(lit "url(#c)", [scale2])])].
Proof.
  exists (svg_with [GE EG [AStyle [SDecl p_clip_path (val "url(#c)")]] [GE ED [ATransform [scale2]] []]]),
         (svg_with [GE ED [ATransform [scale2]; AStyle [SDecl p_clip_path (val "url(#c)")]] []]).
  split; [reflexivity|]. split; [intros ln; vm_compute; reflexivity|]. split; vm_compute; reflexivity.
Qed.
Print Assumptions C27_clip_refuted.

(** [<g opacity=".5" fill="red"><path><animate attributeName="fill"/></path></g>]: the opacity is
    copied before the animation is noticed, and applies twice. *)
Definition names (n : aname) : text := if aname_dec n (NProp fill) then lit "fill" else lit "other".
Theorem C27_animated_refuted : exists n n',
  n = svg_with [GE EG [AProp p_opacity (PDef (val ".5")); AProp fill (PDef (val "red"))]
                  [GE ED [] [GE EAnimation [AOther KAttributeName (val "fill")] []]]] /\
  collapse names false n = Some [n'] /\
  effects 3 n = [(EOther 0, []); (ED, [lit ".5"]); (EAnimation, [lit ".5"])] /\
  effects 3 n' = [(EOther 0, []); (ED, [lit ".5"; lit ".5"]); (EAnimation, [lit ".5"; lit ".5"])].
Proof.
  exists (svg_with [GE EG [AProp p_opacity (PDef (val ".5")); AProp fill (PDef (val "red"))]
                  [GE ED [] [GE EAnimation [AOther KAttributeName (val "fill")] []]]]),
         (svg_with [GE EG [AProp p_opacity (PDef (val ".5")); AProp fill (PDef (val "red"))]
                  [GE ED [AProp p_opacity (PDef (val ".5"))] [GE EAnimation [AOther KAttributeName (val "fill")] []]]]).
  split; [reflexivity|]. split; [vm_compute; reflexivity|]. split; vm_compute; reflexivity.
Qed.
Print Assumptions C27_animated_refuted.

(** [<g class="a"><set class="b"/></g>] panics. *)
Theorem C27_panic_refuted : exists n,
  n = svg_with [GE EG [AOther KClass (val "a")] [GE EAnimation [AOther KClass (val "b")] []]] /\
  forall local_name, collapse local_name false n = None.
Proof. eexists. split; [reflexivity|]. intros ln. vm_compute. reflexivity. Qed.
Print Assumptions C27_panic_refuted.

Definition C27_tree : gnode :=
  svg_with [GE EG [AProp p_opacity (PDef (val ".5")); AProp fill (PDef (val "red")); ATransform [scale2]]
    [GT (lit " "); GE EG [AProp fill PInherit] [GE ED [ATransform [move5]; AProp fill PInherit] []]]; GE EG [ATransform [scale2]] [GE ED [AOther KId (val "p")] []]].
Example C27_example : every (fun _ => each_once) C27_tree /\ every plain_transforms C27_tree /\ every simple_element C27_tree /\
  (forall k, once_per_branch k False C27_tree) /\ every bare_group C27_tree /\ used_totals ([], []) C27_tree = [(lit "p", [(ED, [])])] /\
  forall local_name, collapse local_name false C27_tree =
    Some [svg_with [GT (lit " "); GE ED [ATransform [scale2; move5]; AProp fill (PDef (val "red")); AProp p_opacity (PDef (val ".5"))] []; GE EG [ATransform [scale2]] [GE ED [AOther KId (val "p")] []]]].
Proof.
  split; [|split; [|split; [|split; [|split; [|split; [vm_compute; reflexivity|intros ln; vm_compute; reflexivity]]]]]].
  - repeat split; (unfold each_once; cbn [map name_of]; repeat constructor; cbn [In]; intuition discriminate).
  - repeat split; intros a Ha; repeat (destruct Ha as [<-|Ha]; [exact Logic.I|]); destruct Ha.
  - repeat split; try discriminate; intros a Ha; repeat (destruct Ha as [<-|Ha]; [first [exact Logic.I|eexists; reflexivity]|]); destruct Ha.
  - intros k. unfold C27_tree, svg_with, gives. cbn [once_per_branch]. repeat split; try exact Logic.I;
      intros [A [v Hv]]; cbn [In] in Hv; repeat (destruct Hv as [Hv|Hv]; [discriminate Hv|]); try destruct Hv.
    all: repeat (destruct A as [A|A]; [|destruct A as [w A]; cbn [In] in A; repeat (destruct A as [A|A]; [discriminate A|]); destruct A]); destruct A.
  - repeat split; intros; repeat (match goal with H : In _ _ |- _ => destruct H as [<-|H] end; [discriminate|]); try contradiction; try discriminate.
Qed.

(** A filter on a group, with a transform on the path in it; a transform on a group around a path with a mask. *)
Definition C27_tree2 : gnode :=
  svg_with [GE EG [AProp p_filter (PDef (val "blur(2px)"))] [GE ED [ATransform [scale2]] []]; GE EG [ATransform [move5]] [GE ED [ATransform [scale2]; AProp p_mask (PDef (val "url(#m)"))] []]].
Example C27_placed_example : every (fun _ => each_once) C27_tree2 /\ every plain_transforms C27_tree2 /\ every simple_element C27_tree2 /\
  (forall k, once_per_branch k False C27_tree2) /\ placed_effects 2 C27_tree2 = [(EOther 0, []); (ED, [(lit "blur(2px)", [])]); (ED, [])] /\
  placed_effects 1 C27_tree2 = [(EOther 0, []); (ED, []); (ED, [(lit "url(#m)", [move5; scale2])])] /\
  forall local_name, collapse local_name false C27_tree2 =
    Some [svg_with [GE EG [AProp p_filter (PDef (val "blur(2px)"))] [GE ED [ATransform [scale2]] []]; GE ED [ATransform [move5; scale2]; AProp p_mask (PDef (val "url(#m)"))] []]].
Proof.
  split; [|split; [|split; [|split; [|split; [vm_compute; reflexivity|split; [vm_compute; reflexivity|intros ln; vm_compute; reflexivity]]]]]].
  - repeat split; (unfold each_once; cbn [map name_of]; repeat constructor; cbn [In]; intuition discriminate).
  - repeat split; intros a Ha; repeat (destruct Ha as [<-|Ha]; [exact Logic.I|]); destruct Ha.
  - repeat split; try discriminate; intros a Ha; repeat (destruct Ha as [<-|Ha]; [first [exact Logic.I|eexists; reflexivity]|]); destruct Ha.
  - intros k. unfold C27_tree2, svg_with, gives. cbn [once_per_branch]. repeat split; try exact Logic.I;
      intros [A [v Hv]]; cbn [In] in Hv; repeat (destruct Hv as [Hv|Hv]; [try discriminate Hv|]); try destruct Hv.
    all: repeat (destruct A as [A|A]; [|destruct A as [w A]; cbn [In] in A; repeat (destruct A as [A|A]; [try discriminate A|]); destruct A]); try destruct A.
Qed.
