From Coq Require Import String List NArith Bool.
From Verif Require Import Chars NameModel AttrTable ElemModel ElemSpec TextModel ScriptModel ScriptSpec ScriptProofs ScriptProofs2.
Import ListNotations.

(** Documents: an element named [n] in SVG with one attribute. *)
Definition svg_el (n : string) (attrs : list (sname * text)) : src := SEl (mkS svg_space None (lit n)) svg_space attrs [].
Definition plain_attr (n v : string) : sname * text := (mkS [] None (lit n), lit v).
Definition xlink_attr (n v : string) : sname * text := (mkS xlink_space (Some (lit "xlink")) (lit n), lit v).
Definition in_svg (d : src) : src := SEl (mkS svg_space None (lit "svg")) svg_space [] [d].
Lemma in_svg_ok n attrs : (forall a v, In (a, v) attrs -> bound a) -> well (in_svg (svg_el n attrs)) /\ usual (in_svg (svg_el n attrs)).
Proof.
  intros B. split.
  - intros m df b W. inversion W; subst; [split; [intros _; apply svg_space_nil|intros a v []]|].
    match goal with H : In _ [_] |- _ => destruct H as [<-|[]] end. match goal with H : within (svg_el _ _) _ _ _ |- _ => inversion H; subst end; [|contradiction].
    split; [intros _; apply svg_space_nil|exact B].
  - intros m df b W. inversion W; subst; [right; reflexivity|].
    match goal with H : In _ [_] |- _ => destruct H as [<-|[]] end. match goal with H : within (svg_el _ _) _ _ _ |- _ => inversion H; subst end; [|contradiction]. right; reflexivity.
Qed.
Lemma bound_one (a : sname * text) : bound (fst a) -> forall b v, In (b, v) [a] -> bound b.
Proof. intros B b v [E|[]]. rewrite E in B. exact B. Qed.
Lemma bound_plain n v : bound (fst (plain_attr n v)). Proof. intros H. exfalso. apply H. reflexivity. Qed.
Lemma bound_xlink n v : bound (fst (xlink_attr n v)). Proof. intros _. vm_compute. discriminate. Qed.
Lemma in_svg_within n attrs : within (in_svg (svg_el n attrs)) (mkS svg_space None (lit n)) svg_space attrs.
Proof. eapply within_kid; [left; reflexivity|constructor]. Qed.

