(** C82: removing empty text elements keeps the text. *)
From Coq Require Import String List NArith Bool.
From Verif Require Import Chars StripModel StripSpec StripProofs EmptyTextModel EmptyTextSpec EmptyTextProofs.
Import ListNotations.

(** All characters stay, with the elements they are in and their order, so that their style and place stay as well.  What is missing:
    elements with white space, and children of [switch]. *)
Theorem C82_glyphs_partial : forall passes o d, Forall unswitched d -> Forall no_space d ->
  flat_map (glyphs passes false []) (remove_empty_text o d) = flat_map (glyphs passes false []) d.
Proof. exact text_glyphs. Qed.
(** In any case, those that are not white space do. *)
Theorem C82_black_partial : forall passes o d, Forall unswitched d ->
  filter black (flat_map (glyphs passes false []) (remove_empty_text o d)) = filter black (flat_map (glyphs passes false []) d).
Proof. exact text_black. Qed.
(** All elements of other kinds stay, and those of the three kinds if the option is off. *)
Theorem C82_others : forall o p d, (forall m, on (o_text o) = true -> is_svg "text" m = true -> p m = false) -> (forall m, on (o_tspan o) = true -> is_svg "tspan" m = true -> p m = false) ->
  (forall m, on (o_tref o) = true -> is_svg "tref" m = true -> p m = false) -> flat_map (others p) (remove_empty_text o d) = flat_map (others p) d.
Proof. exact text_others. Qed.
Print Assumptions C82_glyphs_partial.
Print Assumptions C82_black_partial.
Print Assumptions C82_others.

Definition svg (s : string) : name := mkName None svg_uri (lit s).
Definition el (s : string) (k : list node) : node := Elem (svg s) None [] [] k.
Definition default : options := mkOptions None None None.
Definition yes (_ : list (name * text)) : bool := true.
(** The space between two words goes. *)
Theorem C82_space_refuted : exists d, words [] (characters (flat_map (glyphs yes false []) d)) = [lit "Hello"; lit "World"] /\
  words [] (characters (flat_map (glyphs yes false []) (remove_empty_text default d))) = [lit "HelloWorld"].
Proof. exists [el "svg" [el "text" [Text (lit "Hello"); el "tspan" [Text (lit " ")]; Text (lit "World")]]]. vm_compute. split; reflexivity. Qed.
(** So does a space that must not be collapsed. *)
Theorem C82_nbsp_refuted : exists d, words [] (characters (flat_map (glyphs yes false []) d)) = [[49; 160; 65]%N] /\
  words [] (characters (flat_map (glyphs yes false []) (remove_empty_text default d))) = [[49; 65]%N].
Proof. exists [el "svg" [el "text" [Text (lit "1"); el "tspan" [Text [160%N]]; Text (lit "A")]]]. vm_compute. split; reflexivity. Qed.
(** When the one that a [switch] chooses goes, the next one is drawn. *)
Theorem C82_switch_refuted : exists d, characters (flat_map (glyphs yes false []) d) = [] /\ characters (flat_map (glyphs yes false []) (remove_empty_text default d)) = lit "A".
Proof. exists [el "svg" [el "switch" [el "text" []; el "text" [Text (lit "A")]]]]. vm_compute. split; reflexivity. Qed.
(** An element that becomes empty by it is left; another run would remove it. *)
Theorem C82_left_refuted : exists d, flat_map idles (remove_empty_text default d) = [svg "text"] /\
  flat_map idles (remove_empty_text default (remove_empty_text default d)) = [].
Proof. exists [el "svg" [el "text" [el "tspan" []]]]. vm_compute. split; reflexivity. Qed.

(** A document with empty elements of all three kinds. *)
Definition sample : list node := [el "svg" [el "text" []; el "text" [Text (lit "A"); el "tspan" [Text []]; el "tref" []; el "tspan" [Text (lit "B ")]]; el "rect" []]].
Example C82_sample : Forall unswitched sample /\ Forall no_space sample /\ remove_empty_text default sample = [el "svg" [el "text" [Text (lit "A"); el "tspan" [Text (lit "B ")]]; el "rect" []]].
Proof.
  split; [|split].
  - constructor; [|constructor]. cbn -[lit svg_uri is_svg]. repeat (first [split|exact I]); intro E; vm_compute in E; discriminate.
  - constructor; [|constructor]. cbn -[lit svg_uri is_svg idle]. repeat (first [split|exact I]); intros T E; try (vm_compute in T; discriminate T); try constructor; try reflexivity; try constructor;
      cbn -[lit svg_uri is_svg] in E; exfalso; destruct E as [[[E|E] Q]|[E Q]]; vm_compute in E; try discriminate E; inversion Q as [|? ? Q1 Q2]; try contradiction; inversion Q1 as [|? ? W _]; vm_compute in W; discriminate W.
  - vm_compute. reflexivity.
Qed.
