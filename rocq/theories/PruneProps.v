(** C94: the jobs that remove elements: raster images, elements by id or class, style sheets. *)
From Coq Require Import String List NArith Bool.
From Verif Require Import Chars NameModel AttrTable ElemModel ElemSpec TextSpec ScriptModel ScriptSpec ScriptProofs ScriptProofs2 ScriptProofs3
  PruneModel PruneSpec PruneProofs PruneProofs2 PruneProofs3 PruneProofs4.
Import ListNotations.

(** Exactly the images with a marked xlink reference go, with what is inside them; all else is untouched. *)
Theorem C94_raster_partial : forall l, Forall fine l -> exists l', cut raster l l' /\ remove_raster_images true (map read l) = map read l'.
Proof. exact raster_cut. Qed.
Print Assumptions C94_raster_partial.
(** Exactly the elements with one of the ids or classes go. *)
Theorem C94_by_attr_partial : forall ids classes l, Forall (fun d => fine d /\ tidy d) l ->
  exists l', cut (picked ids classes) l l' /\ remove_elements_by_attr ids classes (map read l) = map read l'.
Proof. exact by_attr_cut. Qed.
Print Assumptions C94_by_attr_partial.
(** Exactly the style sheets go. *)
Theorem C94_style : forall l, Forall fine l -> exists l', cut style_sheet l l' /\ remove_style_element true (map read l) = map read l'.
Proof. exact style_cut. Qed.
Print Assumptions C94_style.
(** A cut has one result. *)
Theorem C94_cut_unique : forall P l a, cut P l a -> forall b, cut P l b -> a = b.
Proof. exact cut_unique. Qed.
Print Assumptions C94_cut_unique.
(** Jobs that are off, or have nothing to look for, change nothing. *)
Theorem C94_off : forall l, remove_raster_images false l = l /\ remove_style_element false l = l /\ remove_elements_by_attr [] [] l = l.
Proof. exact nothing_to_do. Qed.
Print Assumptions C94_off.

Definition page (l : list src) : list node := map read [SEl (mkS svg_space None (lit "svg")) svg_space [] l].
Example C94_raster_witness :
  remove_raster_images true (page [svg_el "image" [xlink_attr "href" "a.png"]; svg_el "image" [xlink_attr "href" "data:image/gif;base64,AA"]; svg_el "image" [xlink_attr "href" "a.svg"]; svg_el "rect" []])
  = page [svg_el "image" [xlink_attr "href" "a.svg"]; svg_el "rect" []] /\
  remove_elements_by_attr [lit "r"] [lit "k"] (page [svg_el "rect" [plain_attr "id" "r"]; svg_el "path" [plain_attr "class" "j k"]; svg_el "path" [plain_attr "class" "kj"]]) = page [svg_el "path" [plain_attr "class" "kj"]] /\
  remove_style_element true (page [svg_el "style" []; svg_el "rect" []]) = page [svg_el "rect" []].
Proof. vm_compute. repeat (split; [reflexivity|]). reflexivity. Qed.

(** A raster image with a plain reference stays, and so does one with its extension in capitals or of a newer format. *)
Theorem C94_kept_refuted : exists d d' v v', fine d /\ fine d' /\ raster_file v /\ raster_file v' /\
  (exists n df attrs, d = SEl n df attrs [] /\ shows_file n attrs v) /\ (exists n df attrs, d' = SEl n df attrs [] /\ shows_file n attrs v') /\
  remove_raster_images true (map read [d; d']) = map read [d; d'].
Proof.
  exists (svg_el "image" [plain_attr "href" "a.png"]), (svg_el "image" [xlink_attr "href" "A.PNG"]), (lit "a.png"), (lit "A.PNG").
  split; [apply fine_one, bound_plain|]. split; [apply fine_one, bound_xlink|].
  split; [exists (lit "a"), (lit "png"); split; [reflexivity|left; reflexivity]|]. split; [exists (lit "a"), (lit "png"); split; [reflexivity|left; reflexivity]|].
  split; [|split; [|vm_compute; reflexivity]]; (eexists _, _, _; split; [reflexivity|]); (split; [split; [reflexivity|left; reflexivity]|]).
  - exists (fst (plain_attr "href" "a.png")). split; [left; reflexivity|]. split; [reflexivity|]. left. split; reflexivity.
  - exists (fst (xlink_attr "href" "A.PNG")). split; [left; reflexivity|]. split; [reflexivity|]. right. split; [reflexivity|].
    intros (b & w & [E|[]] & H & _). injection E as <- <-. vm_compute in H. discriminate.
Qed.
Print Assumptions C94_kept_refuted.
(** A vector image is removed when one of the names stands after a full stop anywhere, as in the name of a host. *)
Theorem C94_vector_refuted : exists d v, fine d /\ vector_file v /\ (exists n df attrs, d = SEl n df attrs [] /\ shows_file n attrs v) /\ remove_raster_images true (map read [d]) = [].
Proof.
  exists (svg_el "image" [xlink_attr "href" "http://www.gifs.org/a.svg"]), (lit "http://www.gifs.org/a.svg"). split; [apply fine_one, bound_xlink|].
  split; [exists (lit "http://www.gifs.org/a"); reflexivity|]. split; [|vm_compute; reflexivity]. eexists _, _, _; split; [reflexivity|]. split; [split; [reflexivity|left; reflexivity]|].
  exists (fst (xlink_attr "href" "http://www.gifs.org/a.svg")). split; [left; reflexivity|]. split; [reflexivity|]. right. split; [reflexivity|].
  intros (b & w & [E|[]] & H & _). injection E as <- <-. vm_compute in H. discriminate.
Qed.
Print Assumptions C94_vector_refuted.
(** An element keeps its place in spite of its class when another of its classes begins with a quote. *)
Theorem C94_quote_refuted : exists d c, fine d /\ (exists n df attrs, d = SEl n df attrs [] /\ has_class attrs c) /\ remove_elements_by_attr [] [c] (map read [d]) = map read [d].
Proof.
  exists (svg_el "rect" [plain_attr "class" "'a b"]), (lit "b"). split; [apply fine_one, bound_plain|]. split; [|vm_compute; reflexivity].
  eexists _, _, _; split; [reflexivity|]. exists (fst (plain_attr "class" "'a b")), (lit "'a b"), [lit "'a"; lit "b"]. split; [repeat split|]. split; [left; reflexivity|].
  split; [|right; left; reflexivity]. apply (TextProofs.join_words [lit "'a"; lit "b"]). repeat constructor; vm_compute; discriminate.
Qed.
Print Assumptions C94_quote_refuted.
(** The root goes too when it has the id: what is left is no document. *)
Theorem C94_root_refuted : exists d, fine d /\ tidy d /\ remove_elements_by_attr [lit "r"] [] (map read [d]) = [].
Proof. exists (svg_el "svg" [plain_attr "id" "r"]). split; [apply fine_one, bound_plain|]. split; [apply tidy_id|vm_compute; reflexivity]. Qed.
Print Assumptions C94_root_refuted.
