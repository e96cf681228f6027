(** Properties C16-C19, C56: generated ids, id minification, id prefixes. *)
From Coq Require Import String List NArith Bool Arith.
Import ListNotations.
From Verif Require Import Chars IdsModel IdsSpec IdsProofs IdsProofs2 IdsProofs3 IdsProofs4.

Local Ltac nodup := repeat (apply NoDup_cons; [simpl; intuition congruence|]); apply NoDup_nil.

(** * C16 *)

(** Any number of ids taken from the generator, after any sequence of calls, are distinct,
    non-empty, made of ASCII letters, and none is to be avoided. *)
Theorem C16_ids_fresh : forall g, reachable g -> forall n, exists l,
  hand_out n g = Some l /\ length l = n /\ NoDup l /\
  forall t, In t l -> letters t /\ ~ In t (prevent g).
Proof. exact ids_fresh. Qed.
Print Assumptions C16_ids_fresh.

(** Every request terminates, and the ids to avoid are exactly those asked for. *)
Theorem C16_ids_total : forall g, reachable g ->
  (exists g', next g = Some g') /\
  (forall l, exists g', set_prevent g l = Some g' /\ prevent g' = l) /\
  (forall x, exists g', insert_prevent g x = Some g' /\ prevent g' = x :: prevent g).
Proof. exact ids_total. Qed.
Print Assumptions C16_ids_total.

(** The raw counter skips no id: it enumerates letter strings by a strictly increasing value that
    determines the string. *)
Theorem C16_no_gap : forall t, letters t ->
  letters (next_raw t) /\ val (next_raw t) = (val t + 1)%N /\
  (forall u, letters u -> val u = (val t + 1)%N -> u = next_raw t).
Proof.
  exact (fun t L => match next_raw_spec t L with conj A B =>
    conj A (conj B (fun u Lu E => val_inj u (next_raw t) Lu A (eq_trans E (eq_sym B)))) end).
Qed.
Print Assumptions C16_no_gap.

Example C16_example :
  hand_out 5 (Gen (lit "y") [lit "z"; lit "B"]) = Some [lit "y"; lit "A"; lit "C"; lit "D"; lit "E"] /\
  hand_out 3 (Gen (lit "ZY") []) = Some [lit "ZY"; lit "ZZ"; lit "aaa"] /\
  (exists g, reachable g /\ current g = lit "c" /\ prevent g = [lit "a"; lit "b"]).
Proof.
  split; [vm_compute; reflexivity|]. split; [vm_compute; reflexivity|].
  exists (Gen (lit "c") [lit "a"; lit "b"]). split; [|split; reflexivity].
  apply (reach_set gen_default [lit "a"; lit "b"]); [constructor|vm_compute; reflexivity].
Qed.

(** * C17 *)

(** With minification on: every reference keeps its targets, ids stay unique, for every document
    with unique ids that are neither numeric nor written with a percent sign, in which no attribute
    can mix up its own references.  Partial because of the refutations below. *)
Theorem C17_references_partial : forall numeric o doc st,
  well_formed doc st -> unique_ids doc st ->
  (forall e t, In e (elements doc) -> has_id st e t -> numeric t = false /\ has_percent t = false) ->
  (forall e a, In e (elements doc) -> In a (st e) -> aname a <> 0 -> unmixed a) ->
  forall ignored, o_minify o = true ->
  exists st', cleanup_ids numeric o ignored doc st = Some st' /\ unique_ids doc st' /\
    forall e, In e (elements doc) ->
      Forall2 (same_references doc st st') (filter not_id (st e)) (filter not_id (st' e)) /\
      (forall t, has_id st e t -> is_preserved o t = true -> has_id st' e t) /\
      (forall t, has_id st e t -> referenced doc st t -> exists x, has_id st' e x).
Proof. exact minify_keeps_references. Qed.
Print Assumptions C17_references_partial.

(** With both switches off the job changes nothing (same conditions on ids). *)
Theorem C17_switched_off : forall numeric o ignored doc st,
  o_minify o = false -> o_remove o = false -> well_formed doc st -> unique_ids doc st ->
  (forall e t, In e (elements doc) -> has_id st e t -> numeric t = false /\ has_percent t = false) ->
  exists st', cleanup_ids numeric o ignored doc st = Some st' /\ forall e, st' e = st e.
Proof. exact switched_off. Qed.
Print Assumptions C17_switched_off.

Definition default_options := Options true true [] [] false.
(** <svg><g id="b"/><g id="a"/><animate begin="b.end;a.end"/></svg> *)
Definition capture_doc := [Node 0 [Node 1 []; Node 2 []; Node 3 []]].
Definition capture_store := store_of
  [(1, [Attr 0 [IdRef (lit "b")]]); (2, [Attr 0 [IdRef (lit "a")]]);
   (3, [Attr 7 [IdRef (lit "b"); Plain (lit ".end;"); IdRef (lit "a"); Plain (lit ".end")]])].

(** Two references in one attribute are renamed one after the other, so the new name of the first
    is taken for the second: the reference to element 1 ends up at element 2. *)
Theorem C17_capture_refuted : exists doc st st' a a' p p' e1 e2,
  well_formed doc st /\ unique_ids doc st /\
  (forall e t, In e (elements doc) -> has_id st e t -> ascii_numeric t = false /\ has_percent t = false) /\
  cleanup_ids ascii_numeric default_options false doc st = Some st' /\
  In 3 (elements doc) /\ nth_error (st 3) 0 = Some a /\ nth_error (st' 3) 0 = Some a' /\
  nth_error (apieces a) 0 = Some p /\ nth_error (apieces a') 0 = Some p' /\
  points st p e1 /\ points st' p' e2 /\ e1 <> e2 /\ unique_ids doc st'.
Proof.
  assert (exists st', cleanup_ids ascii_numeric default_options false capture_doc capture_store = Some st'
           /\ map st' [0; 1; 2; 3] = [[]; [Attr 0 [IdRef (lit "a")]]; [Attr 0 [IdRef (lit "b")]];
                [Attr 7 [IdRef (lit "b"); Plain (lit ".end;"); IdRef (lit "b"); Plain (lit ".end")]]]) as (st' & E & M).
  { eexists. split; [vm_compute; reflexivity|vm_compute; reflexivity]. }
  injection M as M0 M1 M2 M3.
  assert (forall e, In e (elements capture_doc) -> e = 0 \/ e = 1 \/ e = 2 \/ e = 3) as EL.
  { intros e H. simpl in H. intuition congruence. }
  assert (forall e t, In e (elements capture_doc) -> has_id capture_store e t -> (e = 1 /\ t = lit "b") \/ (e = 2 /\ t = lit "a")) as IDS.
  { intros e t He (a & Ha & Hn & Hp). destruct (EL e He) as [->|[->|[->| ->]]]; simpl in Ha.
    - destruct Ha.
    - destruct Ha as [<-|[]]. cbn in Hp. inversion Hp. auto.
    - destruct Ha as [<-|[]]. cbn in Hp. inversion Hp. auto.
    - destruct Ha as [<-|[]]. discriminate Hn. }
  exists capture_doc, capture_store, st'. do 4 eexists. exists 1, 2.
  split; [|split; [|split; [|split; [exact E|split; [simpl; auto|split; [reflexivity|split; [rewrite M3; reflexivity|split; [reflexivity|split; [reflexivity|]]]]]]]]].
  - split; [nodup|].
    intros e He. destruct (EL e He) as [->|[->|[->| ->]]]; simpl; (split; [nodup|]);
      intros a Ha Hn; first [destruct Ha as [<-|[]]|destruct Ha]; first [discriminate Hn|eexists; reflexivity].
  - intros e1 e2 t H1 H2 I1 I2. destruct (IDS _ _ H1 I1) as [[-> ->]|[-> ->]], (IDS _ _ H2 I2) as [[-> Q]|[-> Q]]; auto; discriminate Q.
  - intros e t He HI. destruct (IDS _ _ He HI) as [[-> ->]|[-> ->]]; split; reflexivity.
  - split; [|split; [|split]].
    + exists (lit "b"). split; [reflexivity|]. exists (Attr 0 [IdRef (lit "b")]). repeat split; simpl; auto.
    + exists (lit "b"). split; [reflexivity|]. exists (Attr 0 [IdRef (lit "b")]). rewrite M2. repeat split; simpl; auto.
    + discriminate.
    + intros e1 e2 t H1 H2 (a & Ha & Hna & Hpa) (b & Hb & Hnb & Hpb).
      destruct (EL _ H1) as [->|[->|[->| ->]]], (EL _ H2) as [->|[->|[->| ->]]]; auto;
        rewrite ?M0, ?M1, ?M2, ?M3 in *; simpl in *;
        repeat match goal with H : _ \/ _ |- _ => destruct H as [<-|H] | H : False |- _ => destruct H end;
        simpl in *; try discriminate; injection Hpa as <-; discriminate Hpb.
Qed.
Print Assumptions C17_capture_refuted.

(** A document meeting the conditions: a gradient used twice, two labels in one attribute, a
    dangling reference, an unused id. *)
Definition ok_doc := [Node 0 [Node 1 []; Node 2 [Node 3 []]; Node 4 []]].
Definition ok_store := store_of
  [(0, [Attr 9 [Plain (lit "10")]]);
   (1, [Attr 0 [IdRef (lit "grad")]]);
   (2, [Attr 0 [IdRef (lit "l-1")]; Attr 5 [Url (lit "#grad")]]);
   (3, [Attr 0 [IdRef (lit "l-2")]; Attr 6 [Url (lit "#a")]; Attr 5 [Url (lit "#grad")]]);
   (4, [Attr 0 [IdRef (lit "unused")]; Attr 7 [IdRef (lit "l-1"); IdRef (lit "l-2")]])].
Example C17_example :
  (forall e a, In e (elements ok_doc) -> In a (ok_store e) -> aname a <> 0 -> unmixed a) /\
  option_map (fun st => map st [0; 1; 2; 3; 4]) (cleanup_ids ascii_numeric default_options false ok_doc ok_store) =
  Some [[Attr 9 [Plain (lit "10")]];
        [Attr 0 [IdRef (lit "b")]];
        [Attr 0 [IdRef (lit "c")]; Attr 5 [Url (lit "#b")]];
        [Attr 0 [IdRef (lit "d")]; Attr 6 [Url (lit "#a")]; Attr 5 [Url (lit "#b")]];
        [Attr 7 [IdRef (lit "c"); IdRef (lit "d")]]].
Proof.
  split; [|vm_compute; reflexivity].
  intros e a He Ha Hn. simpl in He.
  assert (forall c, (c =? 45)%N = true -> ~ letter c) as NL.
  { intros c Hc [[A B]|[A B]]; apply N.eqb_eq in Hc; subst; [now apply A|now apply A]. }
  repeat (destruct He as [<-|He]; [simpl in Ha;
    repeat (destruct Ha as [<-|Ha]; [try (exfalso; apply Hn; reflexivity); simpl;
      try (left; intros p q t u [<-|[]] [<-|[]] N1 N2; simpl in N1, N2; congruence || contradiction)|]);
    try destruct Ha|]); [|destruct He].
  right. intros p t [<-|[<-|[]]] N; simpl in N; subst; (split; [|discriminate]);
    intros [_ L]; inversion L as [|? ? _ L1]; inversion L1 as [|? ? X _]; exact (NL 45%N eq_refl X).
Qed.

(** * C18 *)

(** Removal, with minification on, keeps nothing below the root but preserved and referenced ids;
    that it keeps all of those is part of [C17_references_partial]. *)
Theorem C18_only_unused_partial : forall numeric o doc st,
  well_formed doc st -> unique_ids doc st ->
  (forall e t, In e (elements doc) -> has_id st e t -> numeric t = false /\ has_percent t = false) ->
  (forall e a, In e (elements doc) -> In a (st e) -> aname a <> 0 -> unmixed a) ->
  forall ignored root rest, o_minify o = true -> o_remove o = true ->
  (ignored = false \/ o_force o = true) -> doc = root :: rest ->
  exists st', cleanup_ids numeric o ignored doc st = Some st' /\
    forall e x, In e (preorder_forest (t_kids root)) -> has_id st' e x ->
      exists t, has_id st e t /\ (is_preserved o t = true \/ referenced doc st t).
Proof. exact removes_unused. Qed.
Print Assumptions C18_only_unused_partial.

Definition use_doc := [Node 0 [Node 1 []; Node 2 []]].
Definition use_store id url := store_of [(1, [Attr 0 [IdRef id]]); (2, [Attr 5 [Url url]])].

(** With minification off, an id that is referenced is removed: the set of used ids holds the
    names that would have been generated. *)
Theorem C18_minify_off_refuted : exists o doc st st' e t,
  o_minify o = false /\ In e (elements doc) /\ has_id st e t /\ referenced doc st t /\
  ascii_numeric t = false /\ has_percent t = false /\
  cleanup_ids ascii_numeric o false doc st = Some st' /\ st' e = [].
Proof.
  exists (Options true false [] [] false), use_doc, (use_store (lit "x") (lit "#x")). eexists. exists 1, (lit "x").
  split; [reflexivity|]. split; [simpl; auto|]. split; [exists (Attr 0 [IdRef (lit "x")]); simpl; auto|].
  split. { exists 2, (Attr 5 [Url (lit "#x")]), (Url (lit "#x")). simpl. repeat split; auto. }
  split; [reflexivity|]. split; [reflexivity|]. split; [vm_compute; reflexivity|vm_compute; reflexivity].
Qed.
Print Assumptions C18_minify_off_refuted.

(** A numeric id is removed although it is both preserved and referenced. *)
Theorem C18_numeric_refuted : exists o doc st st' e t,
  o_minify o = true /\ In e (elements doc) /\ has_id st e t /\ referenced doc st t /\ is_preserved o t = true /\
  cleanup_ids ascii_numeric o false doc st = Some st' /\ st' e = [].
Proof.
  exists (Options true true [lit "42"] [] false), use_doc, (use_store (lit "42") (lit "#42")). eexists. exists 1, (lit "42").
  split; [reflexivity|]. split; [simpl; auto|]. split; [exists (Attr 0 [IdRef (lit "42")]); simpl; auto|].
  split. { exists 2, (Attr 5 [Url (lit "#42")]), (Url (lit "#42")). simpl. repeat split; auto. }
  split; [reflexivity|]. split; [vm_compute; reflexivity|vm_compute; reflexivity].
Qed.
Print Assumptions C18_numeric_refuted.

(** An id equal to the percent-encoded form of an earlier one is removed although referenced. *)
Theorem C18_encoded_refuted : exists o doc st st' e t,
  o_minify o = true /\ In e (elements doc) /\ unique_ids doc st /\ has_id st e t /\ referenced doc st t /\
  ascii_numeric t = false /\ cleanup_ids ascii_numeric o false doc st = Some st' /\ st' e = [].
Proof.
  exists default_options, [Node 0 [Node 1 []; Node 2 []; Node 3 []]],
    (store_of [(1, [Attr 0 [IdRef (lit "a b")]]); (2, [Attr 0 [IdRef (lit "a%20b")]]); (3, [Attr 5 [Url (lit "#a%2520b")]])]).
  eexists. exists 2, (lit "a%20b").
  split; [reflexivity|]. split; [simpl; auto|]. split.
  { intros e1 e2 t H1 H2 (a & Ha & Hna & Hpa) (b & Hb & Hnb & Hpb). simpl in H1, H2.
    destruct H1 as [<-|[<-|[<-|[<-|[]]]]], H2 as [<-|[<-|[<-|[<-|[]]]]]; auto; simpl in *;
    repeat match goal with H : _ \/ _ |- _ => destruct H as [<-|H] | H : False |- _ => destruct H end;
      simpl in *; try discriminate; injection Hpa as <-; discriminate Hpb. }
  split; [exists (Attr 0 [IdRef (lit "a%20b")]); simpl; auto|].
  split. { exists 3, (Attr 5 [Url (lit "#a%2520b")]), (Url (lit "#a%2520b")). split; [simpl; auto|]. split; [simpl; auto|].
           split; [discriminate|]. split; [simpl; auto|]. vm_compute. reflexivity. }
  split; [reflexivity|]. split; [vm_compute; reflexivity|vm_compute; reflexivity].
Qed.
Print Assumptions C18_encoded_refuted.

Example C18_example :
  option_map (fun st => map st [1; 2; 3; 4]) (cleanup_ids ascii_numeric (Options true true [lit "unused"] [lit "l-"] false) false ok_doc ok_store) =
  Some [[Attr 0 [IdRef (lit "b")]];
        [Attr 0 [IdRef (lit "l-1")]; Attr 5 [Url (lit "#b")]];
        [Attr 0 [IdRef (lit "l-2")]; Attr 6 [Url (lit "#a")]; Attr 5 [Url (lit "#b")]];
        [Attr 0 [IdRef (lit "unused")]; Attr 7 [IdRef (lit "l-1"); IdRef (lit "l-2")]]].
Proof. vm_compute. reflexivity. Qed.

(** * C19 *)

(** Prefixing twice with the same settings is the same as once. *)
Theorem C19_idempotent : forall g delim path ids classes doc,
  prefix_ids g delim path ids classes (prefix_ids g delim path ids classes doc) =
  prefix_ids g delim path ids classes doc.
Proof. exact prefix_idempotent. Qed.
Print Assumptions C19_idempotent.

(** With id prefixes on: every reference keeps its targets, selectors keep their matches, ids stay
    unique, when no name becomes another by receiving the prefix, urls carry no percent signs, and
    no [style] element is empty. *)
Theorem C19_links_partial : forall g d path classes doc,
  let p := generate g d path in
  has_percent p = false -> plain_urls doc -> (forall e, In e doc -> pe_css e <> Some []) ->
  clash_free p (id_name doc) -> (classes = true -> clash_free p (class_name doc)) ->
  let doc' := prefix_ids g d path true classes doc in
  Forall2 (linked doc doc') doc doc' /\ (pe_unique doc -> pe_unique doc').
Proof. exact prefix_keeps_links. Qed.
Print Assumptions C19_links_partial.

(** Two distinct ids become equal. *)
Theorem C19_clash_refuted : exists doc, pe_unique doc /\
  ~ pe_unique (prefix_ids GDefault (lit "__") None true true doc).
Proof.
  exists [PElem [Attr 0 [IdRef (lit "a")]] None; PElem [Attr 0 [IdRef (lit "prefix__a")]] None]. split.
  - intros i j e f t Hi Hj (a & Ha & _ & Pa) (b & Hb & _ & Pb).
    destruct i as [|[|[|i]]], j as [|[|[|j]]]; cbn in Hi, Hj; try discriminate; auto;
      inversion Hi; inversion Hj; subst; destruct Ha as [<-|[]], Hb as [<-|[]]; cbn in Pa, Pb; congruence.
  - intros U. specialize (U 0 1 _ _ (lit "prefix__a") eq_refl eq_refl).
    discriminate U; (eexists; split; [left; reflexivity|split; reflexivity]).
Qed.
Print Assumptions C19_clash_refuted.

(** With id prefixes off and class prefixes on, urls are prefixed but the ids are not. *)
Theorem C19_switch_refuted : exists doc e p p' a',
  In e doc /\ pe_points p e /\
  nth_error (prefix_ids GDefault (lit "__") None false true doc) 1 = Some (PElem [a'] None) /\
  apieces a' = [p'] /\
  (exists a, nth_error doc 1 = Some (PElem [a] None) /\ apieces a = [p]) /\
  forall e', In e' (prefix_ids GDefault (lit "__") None false true doc) -> ~ pe_points p' e'.
Proof.
  exists [PElem [Attr 0 [IdRef (lit "a")]] None; PElem [Attr 5 [Url (lit "#a")]] None].
  exists (PElem [Attr 0 [IdRef (lit "a")]] None), (Url (lit "#a")), (Url (lit "#prefix__a")). eexists.
  split; [left; reflexivity|]. split.
  { exists (lit "a"). split; [reflexivity|]. eexists. split; [left; reflexivity|split; reflexivity]. }
  split; [cbn; reflexivity|]. split; [reflexivity|]. split; [eexists; split; reflexivity|].
  intros e' He' (t & N & a & Ha & Hn & Hp). destruct He' as [<-|[<-|[]]]; destruct Ha as [<-|[]].
  - cbn in Hp. inversion Hp; subst. cbn in N. discriminate N.
  - discriminate Hn.
Qed.
Print Assumptions C19_switch_refuted.

(** The id of an empty [style] element is not prefixed, references to it are. *)
Theorem C19_empty_style_refuted : exists doc e p p' a',
  In e doc /\ pe_points p e /\
  nth_error (prefix_ids GDefault (lit "__") None true true doc) 1 = Some (PElem [a'] None) /\
  apieces a' = [p'] /\
  (exists a, nth_error doc 1 = Some (PElem [a] None) /\ apieces a = [p]) /\
  forall e', In e' (prefix_ids GDefault (lit "__") None true true doc) -> ~ pe_points p' e'.
Proof.
  exists [PElem [Attr 0 [IdRef (lit "a")]] (Some []); PElem [Attr 5 [Url (lit "#a")]] None].
  exists (PElem [Attr 0 [IdRef (lit "a")]] (Some [])), (Url (lit "#a")), (Url (lit "#prefix__a")). eexists.
  split; [left; reflexivity|]. split.
  { exists (lit "a"). split; [reflexivity|]. eexists. split; [left; reflexivity|split; reflexivity]. }
  split; [cbn; reflexivity|]. split; [reflexivity|]. split; [eexists; split; reflexivity|].
  intros e' He' (t & N & a & Ha & Hn & Hp). destruct He' as [<-|[<-|[]]]; destruct Ha as [<-|[]].
  - cbn in Hp. inversion Hp; subst. cbn in N. discriminate N.
  - discriminate Hn.
Qed.
Print Assumptions C19_empty_style_refuted.

(** A percent-encoded reference to an id that already carries the prefix is prefixed again. *)
Theorem C19_percent_refuted : exists doc e p p' a',
  In e doc /\ pe_points p e /\
  nth_error (prefix_ids GDefault (lit "__") None true true doc) 1 = Some (PElem [a'] None) /\
  apieces a' = [p'] /\
  (exists a, nth_error doc 1 = Some (PElem [a] None) /\ apieces a = [p]) /\
  forall e', In e' (prefix_ids GDefault (lit "__") None true true doc) -> ~ pe_points p' e'.
Proof.
  exists [PElem [Attr 0 [IdRef (lit "prefix__a")]] None; PElem [Attr 5 [Url (lit "#prefix%5F%5Fa")]] None].
  exists (PElem [Attr 0 [IdRef (lit "prefix__a")]] None), (Url (lit "#prefix%5F%5Fa")), (Url (lit "#prefix__prefix%5F%5Fa")). eexists.
  split; [left; reflexivity|]. split.
  { exists (lit "prefix__a"). split; [vm_compute; reflexivity|]. eexists. split; [left; reflexivity|split; reflexivity]. }
  split; [cbn; reflexivity|]. split; [reflexivity|]. split; [eexists; split; reflexivity|].
  intros e' He' (t & N & a & Ha & Hn & Hp). destruct He' as [<-|[<-|[]]]; destruct Ha as [<-|[]].
  - cbn in Hp. inversion Hp; subst. vm_compute in N. discriminate N.
  - discriminate Hn.
Qed.
Print Assumptions C19_percent_refuted.

Example C19_example :
  prefix_ids (GPrefix (lit "icon")) (lit "-") None true true
    [PElem [Attr 0 [IdRef (lit "a")]; Attr 8 [ClassRef (lit "c"); Plain (lit " "); ClassRef (lit "icon-d")]] None;
     PElem [Attr 5 [Url (lit "#a")]; Attr 6 [Url (lit "other.svg#a")]] None;
     PElem [] (Some [CssClass (lit "c"); CssId (lit "a"); CssUrl (lit "#a")])] =
    [PElem [Attr 0 [IdRef (lit "icon-a")]; Attr 8 [ClassRef (lit "icon-c"); Plain (lit " "); ClassRef (lit "icon-d")]] None;
     PElem [Attr 5 [Url (lit "#icon-a")]; Attr 6 [Url (lit "other.svg#a")]] None;
     PElem [] (Some [CssClass (lit "icon-c"); CssId (lit "icon-a"); CssUrl (lit "#icon-a")])].
Proof. vm_compute. reflexivity. Qed.

(** * C56 *)

(** The default prefix is the file's name, when the path is that name alone. *)
Theorem C56_file_name_partial : forall delim path, path <> [] -> existsb (N.eqb 47) path = false ->
  generate GDefault delim (Some path) = underscore (file_name path) ++ delim.
Proof. exact default_prefix. Qed.
Print Assumptions C56_file_name_partial.

(** With directories in the path, the first component is used instead of the file's name. *)
Theorem C56_file_name_refuted : exists delim path1 path2,
  file_name path1 <> file_name path2 /\
  generate GDefault delim (Some path1) = generate GDefault delim (Some path2) /\
  generate GDefault delim (Some path1) <> underscore (file_name path1) ++ delim.
Proof.
  exists (lit "__"), (lit "icons/a.svg"), (lit "icons/b.svg").
  split; [vm_compute; discriminate|]. split; [vm_compute; reflexivity|vm_compute; discriminate].
Qed.
Print Assumptions C56_file_name_refuted.

Example C56_example : generate GDefault (lit "__") (Some (lit "my icon.svg")) = lit "my_icon_svg__".
Proof. vm_compute. reflexivity. Qed.
