(** Property theorems C13 (attribute map), C14 (attribute order), C15 (class list), C51 (names). *)
From Coq Require Import String List NArith Bool Arith Permutation.
From Verif Require Import Chars NameModel AttrTable AttrModel AttrSpec AttrProofs AttrProofs2.
Import ListNotations.

(** Helpers for the examples. *)
Definition kind_of (i : string) : kind :=
  match find (fun k => text_eqb (kind_id k) (lit i)) attr_table with
  | Some k => k
  | None => mkKind [] SVG []
  end.
Definition id_of (i : string) : attr_id := ABase (BKnown (kind_of i)).
Definition attr_of (i v : string) : attr := Plain (Known (kind_of i) (VOther (lit v))).
Definition urn (s : string) : text := lit s.

(* ------------------------------------------------------------------ C13 *)

(** After any edits, reading a name gives what the edits of that name say, and names stay
    distinct, provided that among the names involved the same qualified name means the same id. *)
Theorem C13_attribute_map_partial l es i :
  distinct_names l -> Forall alias_ok (l ++ flat_map edit_attrs es) ->
  coherent (i :: map attr_name l ++ flat_map edit_names es) ->
  get_named_item (fold_left apply_edit es l) i = fold_left (expect i) es (get_named_item l i) /\
  distinct_names (fold_left apply_edit es l).
Proof. exact (attribute_map l es i). Qed.
Print Assumptions C13_attribute_map_partial.

(** Setting replaces the first attribute of that name in place, or appends. *)
Theorem C13_set_position l x : Forall alias_ok (x :: l) ->
  (exists pre old post, l = pre ++ old :: post /\ same_name (attr_name old) (attr_name x) = true /\
     set_named_item l x = (pre ++ x :: post, Some old)) \/
  ((forall b, In b l -> same_name (attr_name b) (attr_name x) = false) /\
   set_named_item l x = (l ++ [x], None)).
Proof. exact (set_position l x). Qed.
Print Assumptions C13_set_position.

(** The lookup for changing an attribute finds the first one with the namespace and local name. *)
Theorem C13_get_mut l i : Forall alias_ok l -> prefix_ok (id_prefix i) ->
  match get_named_item_mut l i with
  | Some b => exists pre post, l = pre ++ b :: post /\ same_name (attr_name b) i = true /\
                forall c, In c pre -> same_name (attr_name c) i = false
  | None => forall b, In b l -> same_name (attr_name b) i = false
  end.
Proof. exact (get_mut l i). Qed.
Print Assumptions C13_get_mut.

(** The lookup by namespace likewise. *)
Theorem C13_get_ns l n local :
  match get_named_item_ns l n local with
  | Some b => exists pre post, l = pre ++ b :: post /\ is_ns (attr_prefix b) n = true /\ attr_local b = local /\
                forall c, In c pre -> ~ (is_ns (attr_prefix c) n = true /\ attr_local c = local)
  | None => forall b, In b l -> ~ (is_ns (attr_prefix b) n = true /\ attr_local b = local)
  end.
Proof. exact (get_ns l n local). Qed.
Print Assumptions C13_get_ns.

Example C13_get_mut_example :
  let l := [attr_of "XLinkHref" "#a"; attr_of "Href" "#b"] in
  Forall alias_ok l /\ get_named_item_mut l (id_of "Href") = Some (attr_of "Href" "#b") /\
  get_named_item_mut l (id_of "XLinkHref") = Some (attr_of "XLinkHref" "#a").
Proof. split; [repeat constructor|]. vm_compute. split; reflexivity. Qed.

(** Two ids of the table share the name [fill]: setting one overwrites the other, but reading and
    removing do not find it. *)
Theorem C13_lookup_refuted : exists a b,
  In a attr_table /\ In b attr_table /\
  kind_local a = lit "fill" /\ kind_local b = lit "fill" /\
  let l := fst (set_named_item [Plain (Known a (VOther (lit "red")))] (Plain (Known b (VOther (lit "freeze"))))) in
  length l = 1 /\ get_named_item l (ABase (BKnown a)) = None /\
  fst (remove_named_item l (ABase (BKnown a))) = l /\
  get_named_item_mut l (ABase (BKnown a)) = Some (Plain (Known b (VOther (lit "freeze")))).
Proof.
  exists (kind_of "Fill"), (kind_of "FillAnimate").
  split; [apply (nth_error_In attr_table 415); vm_compute; reflexivity|].
  split; [apply (nth_error_In attr_table 100); vm_compute; reflexivity|].
  vm_compute. repeat split.
Qed.
Print Assumptions C13_lookup_refuted.

Example C13_example :
  let l := [attr_of "Id" "a"; attr_of "Fill" "red"] in
  let es := [ESet (attr_of "Stroke" "blue"); ESet (attr_of "Fill" "green"); ERemove (id_of "Id");
             ERetain (fun a => negb (text_eqb (attr_local a) (lit "stroke")))] in
  distinct_names l /\ Forall alias_ok (l ++ flat_map edit_attrs es) /\
  coherent (id_of "Fill" :: map attr_name l ++ flat_map edit_names es) /\
  fold_left apply_edit es l = [attr_of "Fill" "green"].
Proof.
  split; [|split; [|split]].
  - simpl. split; [|split; [|exact I]]; [intros b [<-|[]]; vm_compute; reflexivity|intros b []].
  - repeat constructor.
  - split; [repeat constructor|].
    intros i j Hi Hj. repeat (destruct Hi as [<-|Hi]; [repeat (destruct Hj as [<-|Hj]; [vm_compute; reflexivity|]); destruct Hj|]).
    destruct Hi.
  - vm_compute. reflexivity.
Qed.

(* ------------------------------------------------------------------ C14 *)

(** The comparator is a total preorder (std requires it), namely the documented key. *)
Theorem C14_comparator order front :
  total_preorder (attr_cmp order front) /\
  forall a b, attr_cmp order front a b = key_cmp order front a b.
Proof. exact (conj (preorder_attr order front) (attr_cmp_key order front)). Qed.
Print Assumptions C14_comparator.

(** A sorting function is determined: every ordered stable rearrangement is the modelled one. *)
Theorem C14_sort_by_unique order front l l' :
  ordered (attr_cmp order front) l' -> stable (attr_cmp order front) l l' ->
  l' = sort_attributes order front l.
Proof. exact (sort_unique _ (preorder_attr order front) l l'). Qed.
Print Assumptions C14_sort_by_unique.

Theorem C14_sorted_permutation order front l : let r := sort_attributes order front l in
  Permutation l r /\ ordered (key_cmp order front) r /\ stable (key_cmp order front) l r.
Proof. exact (sort_attributes_spec order front l). Qed.
Print Assumptions C14_sorted_permutation.

Theorem C14_idempotent order front l :
  sort_attributes order front (sort_attributes order front l) = sort_attributes order front l.
Proof. exact (sort_attributes_idem order front l). Qed.
Print Assumptions C14_idempotent.

(** The result does not depend on the original order when the names shown are distinct. *)
Theorem C14_order_independent order front l1 l2 :
  Permutation l1 l2 -> NoDup (map shown_name l1) ->
  sort_attributes order front l1 = sort_attributes order front l2.
Proof. exact (sort_attributes_independent order front l1 l2). Qed.
Print Assumptions C14_order_independent.

(** An aliased attribute is compared by its usual prefix, so it can tie with a different one: with
    [xmlns:foo="http://www.w3.org/1999/xlink"] and [xmlns:xlink="urn:x"], the attributes
    [foo:href] and [xlink:href] stay in the order written. *)
Theorem C14_alias_refuted : exists a b,
  attr_prefix a = prefix_new (lit "http://www.w3.org/1999/xlink") (Some (lit "foo")) /\
  attr_prefix b = prefix_new (urn "urn:x") (Some (lit "xlink")) /\
  attr_local a = lit "href" /\ attr_local b = lit "href" /\
  sort_attributes [] true [a; b] <> sort_attributes [] true [b; a].
Proof.
  exists (Aliased (prefix_new (lit "http://www.w3.org/1999/xlink") (Some (lit "foo")))
            (Known (kind_of "XLinkHref") (VOther []))),
         (Plain (Unparsed (ABase (BUnknown (mkName (prefix_new (urn "urn:x") (Some (lit "xlink"))) (lit "href")))) [])).
  split; [vm_compute; reflexivity|]. split; [vm_compute; reflexivity|].
  split; [vm_compute; reflexivity|]. split; [vm_compute; reflexivity|].
  vm_compute. discriminate.
Qed.
Print Assumptions C14_alias_refuted.

Example C14_example :
  let xmlns (p : string) := Plain (Unparsed (ABase (BUnknown (mkName (PKnown XMLNS) (lit p)))) []) in
  let l := [attr_of "Stroke" ""; attr_of "FillOpacity" ""; attr_of "Id" ""; xmlns "b"%string; xmlns "a"%string;
            attr_of "XLinkHref" ""; attr_of "Fill" ""; attr_of "XMLNS" ""] in
  NoDup (map shown_name l) /\
  map (fun a => attr_local a) (sort_attributes [lit "id"; lit "fill"] true l) =
  map lit ["xmlns"; "a"; "b"; "href"; "id"; "fill"; "fill-opacity"; "stroke"]%string.
Proof.
  split; [|vm_compute; reflexivity].
  repeat constructor; intros H; repeat (destruct H as [H|H]; [discriminate|]); exact H.
Qed.

(* ------------------------------------------------------------------ C15 *)

(** For any sequence of operations, and whatever the memoised index, the answers and the class
    attribute are those of a plain list of tokens, and the other attributes are untouched. *)
Theorem C15_class_list attrs m es : class_ok attrs ->
  let (c, answers) := class_run (mkCL attrs m) es in
  let (l, expected) := token_run (tokens attrs) es in
  tokens (cl_attrs c) = l /\ answers = expected /\ others (cl_attrs c) = others attrs /\
  class_ok (cl_attrs c).
Proof. exact (class_list_ok attrs m es). Qed.
Print Assumptions C15_class_list.

(** Without replacements no class appears twice if none did. *)
Theorem C15_no_duplicates_partial attrs m es :
  class_ok attrs -> Forall no_replace es -> NoDup (tokens attrs) ->
  NoDup (tokens (cl_attrs (fst (class_run (mkCL attrs m) es)))).
Proof. exact (class_no_dup attrs m es). Qed.
Print Assumptions C15_no_duplicates_partial.

(** The serialised attribute splits into the tokens. *)
Theorem C15_serialised l : Forall is_token l -> split_whitespace (join (lit " ") l) = l.
Proof. exact (join_words l). Qed.
Print Assumptions C15_serialised.

(** Replacing by a class that is already there duplicates it. *)
Theorem C15_replace_refuted : exists attrs c,
  class_ok attrs /\ NoDup (tokens attrs) /\
  cl_replace (mkCL attrs 0) (lit "a") (lit "b") = (c, true) /\
  tokens (cl_attrs c) = [lit "b"; lit "b"].
Proof.
  exists [class_attr [lit "a"; lit "b"]]. eexists. split; [|split; [|split]].
  - split; [|split; [|split]].
    + split; [intros b []|exact I].
    + intros a [<-|[]] _. eexists; reflexivity.
    + intros a [<-|[]] H. discriminate H.
    + repeat constructor.
  - vm_compute. repeat constructor; intros H; repeat (destruct H as [H|H]; [discriminate|]); exact H.
  - vm_compute. reflexivity.
  - vm_compute. reflexivity.
Qed.
Print Assumptions C15_replace_refuted.

Example C15_example :
  let attrs := [attr_of "Id" "x"; class_attr [lit "a"; lit "b"]] in
  class_ok attrs /\
  let (c, answers) := class_run (mkCL attrs 7)
    [CAdd (lit "c"); CAdd (lit "a"); CToggle (lit "b"); CLength; CRemove (lit "a"); CItem 0; CRemove (lit "c")] in
  cl_attrs c = [attr_of "Id" "x"] /\
  answers = [ANone; ANone; ABool false; ANat 2; ANone; AText (Some (lit "c")); ANone].
Proof.
  split; [|vm_compute; auto].
  split; [|split; [|split]].
  - split; [intros b [<-|[]]; vm_compute; reflexivity|]. split; [intros b []|exact I].
  - intros a [<-|[<-|[]]] H; [vm_compute in H; discriminate|]. eexists; reflexivity.
  - intros a [<-|[<-|[]]] H; [vm_compute; reflexivity|vm_compute in H; discriminate].
  - repeat constructor.
Qed.

(* ------------------------------------------------------------------ C51 *)

(** Equality of prefixes made by the parser is equality of namespaces: an equivalence. *)
Theorem C51_prefix_equality u n u' n' :
  prefix_eqb (prefix_new u n) (prefix_new u' n') = true <-> namespace u n = namespace u' n'.
Proof. exact (prefix_eqb_new u n u' n'). Qed.
Print Assumptions C51_prefix_equality.

(** Equal prefixes hash equally. *)
Theorem C51_prefix_hash u n u' n' :
  prefix_eqb (prefix_new u n) (prefix_new u' n') = true ->
  prefix_hash (prefix_new u n) = prefix_hash (prefix_new u' n').
Proof. exact (prefix_hash_eq _ (prefix_new u' n') (prefix_new_ok u n)). Qed.
Print Assumptions C51_prefix_hash.

(** The orders are total preorders, so sorting and ordered maps are well defined. *)
Theorem C51_total_orders : total_preorder prefix_cmp /\ total_preorder id_cmp.
Proof. exact (conj preorder_prefix preorder_id). Qed.
Print Assumptions C51_total_orders.

(** Order and equality agree on the unknown names of a document in which prefixes and namespaces
    correspond one to one. *)
Theorem C51_agree_partial scope a b : one_to_one scope ->
  declared scope (q_prefix a) -> declared scope (q_prefix b) ->
  (id_cmp (ABase (BUnknown a)) (ABase (BUnknown b)) = Eq <->
   id_eqb (ABase (BUnknown a)) (ABase (BUnknown b)) = true).
Proof. exact (qual_name_agrees scope a b). Qed.
Print Assumptions C51_agree_partial.

(** Equal names without an alias hash equally. *)
Theorem C51_hash_partial scope a b :
  (forall q, a = BUnknown q -> declared scope (q_prefix q)) ->
  id_eqb (ABase a) (ABase b) = true -> id_hash (ABase a) = id_hash (ABase b).
Proof. exact (id_hash_base scope a b). Qed.
Print Assumptions C51_hash_partial.

(** Equal prefixes need not compare equal, and prefixes that compare equal need not be equal. *)
Theorem C51_prefix_order_refuted : exists p q r,
  prefix_eqb p q = true /\ prefix_cmp p q <> Eq /\ prefix_eqb p r = false /\ prefix_cmp p r = Eq.
Proof.
  exists (prefix_new (known_uri XLink) (Some (lit "a"))), (prefix_new (known_uri XLink) (Some (lit "b"))),
         (prefix_new (urn "urn:x") (Some (lit "a"))).
  split; [vm_compute; reflexivity|]. split; [vm_compute; discriminate|]. split; vm_compute; reflexivity.
Qed.
Print Assumptions C51_prefix_order_refuted.

(** Two different attribute ids compare equal. *)
Theorem C51_attr_order_refuted : exists a b,
  In a attr_table /\ In b attr_table /\
  id_cmp (ABase (BKnown a)) (ABase (BKnown b)) = Eq /\ id_eqb (ABase (BKnown a)) (ABase (BKnown b)) = false.
Proof.
  exists (kind_of "Fill"), (kind_of "FillAnimate").
  split; [apply (nth_error_In attr_table 415); vm_compute; reflexivity|].
  split; [apply (nth_error_In attr_table 100); vm_compute; reflexivity|].
  vm_compute. auto.
Qed.
Print Assumptions C51_attr_order_refuted.

(** An aliased id equals the plain one but is hashed differently, so a hash map keyed by attribute
    ids does not find it. *)
Theorem C51_alias_hash_refuted : exists a b, id_eqb a b = true /\ id_hash a <> id_hash b /\
  a = AAliased (prefix_new (known_uri XLink) (Some (lit "foo"))) (BKnown (kind_of "XLinkHref")).
Proof.
  eexists. exists (id_of "XLinkHref"). split; [|split; [|reflexivity]]; vm_compute; [reflexivity|discriminate].
Qed.
Print Assumptions C51_alias_hash_refuted.

Example C51_example :
  let scope := [(None, known_uri SVG); (Some (lit "xlink"), known_uri XLink); (Some (lit "x"), urn "urn:x")] in
  one_to_one scope /\ declared scope (PKnown XLink) /\
  prefix_eqb (prefix_new (known_uri XLink) (Some (lit "a"))) (PKnown XLink) = true.
Proof.
  split; [|split; [|vm_compute; reflexivity]].
  - intros n u n' u' H H'.
    repeat (destruct H as [H|H]; [inversion H; subst; clear H;
      repeat (destruct H' as [H'|H']; [inversion H'; subst; clear H'; split; intros E; [reflexivity || discriminate E|reflexivity || (exfalso; vm_compute in E; discriminate E)]|]); destruct H'|]).
    destruct H.
  - exists (Some (lit "xlink")), (known_uri XLink). split; [simpl; auto|vm_compute; reflexivity].
Qed.
