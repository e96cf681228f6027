From Coq Require Import String List NArith ZArith Bool Arith.
From Verif Require Import Chars ActionModel SelectModel EnactModel EnactSpec EnactProofs EnactProofs2 EnactProofs3.
Import ListNotations.

(** C122: actions on attributes. *)
Theorem C122_only : forall {num decl path} (zero : num) accepts (read_attr : text -> text -> @value num decl path) read_decl,
  (forall x v c, read_attr x v = Classes c -> x = lit "class") ->
  forall t a x ids d d', about a x -> well d -> enact zero accepts read_attr read_decl t a ids d = Done d' -> only x (named t ids) d d'.
Proof. exact @enact_only. Qed.
Print Assumptions C122_only.
Theorem C122_done : forall {num decl path} (zero : num) accepts (read_attr : text -> text -> @value num decl path) read_decl t a ids d,
  (forall x v, a = ActionModel.Attr x v -> colons x <= 1) -> (forall p v, a = Style p v -> read_decl p (fst (importance v)) <> None) ->
  exists d', enact zero accepts read_attr read_decl t a ids d = Done d'.
Proof. exact @done. Qed.
Print Assumptions C122_done.
Theorem C122_attr : forall {num decl path} (zero : num) accepts (read_attr : text -> text -> @value num decl path) read_decl t x v ids d d' n m e,
  enact zero accepts read_attr read_decl t (ActionModel.Attr x v) ids d = Done d' -> named t ids n -> nth_error d n = Some m -> n_name m = Some e ->
  exists m', nth_error d' n = Some m' /\ (accepts e x = true -> In (x, read_attr x v) (n_attrs m')) /\ (accepts e x = false -> m' = m).
Proof. exact @enact_attr. Qed.
Print Assumptions C122_attr.
Theorem C122_transform_partial : forall {num decl path} (zero : num) accepts (read_attr : text -> text -> @value num decl path) read_decl t a tt ids d d' n m l,
  asked zero a tt -> well d -> enact zero accepts read_attr read_decl t a ids d = Done d' -> named_once t ids n -> nth_error d n = Some m -> is_element m ->
  transforms m l -> exists m', nth_error d' n = Some m' /\ transforms m' (l ++ [tt]).
Proof. exact @enact_transform. Qed.
Print Assumptions C122_transform_partial.
Theorem C122_class_partial : forall {num decl path} (zero : num) accepts (read_attr : text -> text -> @value num decl path) read_decl t c ids d d' n m l,
  well d -> enact zero accepts read_attr read_decl t (Class c) ids d = Done d' -> named_once t ids n -> nth_error d n = Some m -> is_element m ->
  classes m l -> exists m', nth_error d' n = Some m' /\ (~ In c l -> classes m' (l ++ [c])) /\ (In c l -> classes m' (remove text_eq_dec c l)).
Proof. exact @enact_class. Qed.
Print Assumptions C122_class_partial.
Theorem C122_style_partial : forall {num decl path} (zero : num) accepts (read_attr : text -> text -> @value num decl path) read_decl property_of t p v x ids d d' n m i k,
  well d -> read_decl p (fst (importance v)) = Some x -> enact zero accepts read_attr read_decl t (Style p v) ids d = Done d' -> named_once t ids n ->
  nth_error d n = Some m -> is_element m -> declares m i k ->
  exists m' i' k', nth_error d' n = Some m' /\ declares m' i' k' /\
    (snd (importance v) = true \/ none_of property_of (property_of x) i -> wins property_of (property_of x) i' k' x) /\
    (snd (importance v) = false -> ~ none_of property_of (property_of x) i -> forall y, wins property_of (property_of x) i k y -> wins property_of (property_of x) i' k' y) /\
    forall q y, q <> property_of x -> (wins property_of q i' k' y <-> wins property_of q i k y).
Proof. exact @enact_style. Qed.
Print Assumptions C122_style_partial.
Theorem C122_important_partial : forall v k, ~ In 33%N v -> blank k -> importance (v ++ lit "!important" ++ k) = (v, true).
Proof. exact important_marked. Qed.
Print Assumptions C122_important_partial.
Theorem C122_unimportant : forall v, ~ In 33%N v -> importance v = (v, false).
Proof. exact important_unmarked. Qed.
Print Assumptions C122_unimportant.

(** A small world: numbers are numbers, declarations and path data are texts. *)
Definition read_nothing (x v : text) : @value N (text * text) text := if text_eqb x (lit "d") then Data v else Valued v.
Definition read_all (p v : text) : option (text * text) := Some (p, v).
Definition everything (e : ename) (x : text) : bool := true.
Definition svg_name (s : string) : option ename := Some (EName None (lit s) true).
Definition run := @enact N (text * text) text 0%N everything read_nothing read_all.
Definition shapes : list (@node N (text * text) text) :=
  [Node None [] [1];
   Node (svg_name "svg") [(lit "class", Classes [lit "a"])] [2; 3];
   Node (svg_name "path") [(lit "d", Data (lit "p")); (lit "transform", Transforms (Some [TSkewX 1%N])); (lit "style", Declared [] [(lit "fill-rule", lit "nonzero")])] [];
   Node (svg_name "path") [(lit "d", Data (lit "q"))] []].
Example C122_shapes_well : well shapes.
Proof.
  repeat (apply Forall_cons; [split; [repeat constructor; cbn; intuition discriminate|intros x l H; cbn in H; repeat destruct H as [H|H]; try discriminate; try contradiction; try (injection H as <- _; reflexivity)]|]). constructor.
Qed.
Example C122_example : run [0; 1; 2; 3] (Rotate 9%N None) [2%Z] shapes =
  Done (change 2 (fun m => Node (n_name m) [(lit "d", Data (lit "p")); (lit "transform", Transforms (Some [TSkewX 1%N; TRotate 9%N 0%N 0%N])); (lit "style", Declared [] [(lit "fill-rule", lit "nonzero")])] []) shapes) /\
  named_once [0; 1; 2; 3] [2%Z] 2 /\ asked 0%N (Rotate 9%N None) (TRotate 9%N 0%N 0%N).
Proof.
  split; [reflexivity|]. split; [|constructor]. exists [], 2%Z, []. split; [reflexivity|]. split; [split; [discriminate|reflexivity]|]. intros (id & [] & _).
Qed.
Example C122_class_example : run [0; 1; 2; 3] (Class (lit "a")) [1%Z] shapes = Done (change 1 (fun m => Node (n_name m) [] (n_kids m)) shapes).
Proof. reflexivity. Qed.
Example C122_style_example : run [0; 1; 2; 3] (Style (lit "fill") (lit "red !important ")) [3%Z] shapes =
  Done (change 3 (fun m => Node (n_name m) [(lit "d", Data (lit "q")); (lit "style", Declared [(lit "fill", lit "red ")] [])] []) shapes).
Proof. reflexivity. Qed.
(** Selecting an element again with [select_more] makes each action act on it twice: a class is toggled and toggled back, a transform is appended twice. *)
Theorem C122_twice_refuted : exists acts a d d' n m m',
  a = fold_left step acts (new_actor 3) /\ well d /\ named (table a) (map Z.of_nat (derived a)) n /\ nth_error d n = Some m /\ is_element m /\
  run (table a) (Class (lit "b")) (map Z.of_nat (derived a)) d = Done d /\ ~ (exists l, classes m l /\ In (lit "b") l) /\
  run (table a) (SkewX 1%N) (map Z.of_nat (derived a)) d = Done d' /\ nth_error d' n = Some m' /\ lacks m (lit "transform") /\ transforms m' [TSkewX 1%N; TSkewX 1%N].
Proof.
  exists [(1, SelectModel.Select (ByNodes [1])); (1, SelectModel.SelectMore (ByNodes [1]))]. eexists.
  exists [Node None [] [1]; Node (svg_name "svg") [] []]. eexists. exists 1. eexists. eexists.
  split; [reflexivity|]. split; [repeat (apply Forall_cons; [split; [constructor|intros x l []]|]); constructor|]. split; [exists 1%Z; split; [left; reflexivity|split; [discriminate|reflexivity]]|].
  split; [reflexivity|]. split; [discriminate|]. split; [vm_compute; reflexivity|]. split; [intros (l & [[]|[-> _]] & [])|]. split; [vm_compute; reflexivity|]. split; [reflexivity|]. split; [intros []|]. left. left. reflexivity.
Qed.
Print Assumptions C122_twice_refuted.
(** Elements without a transform attribute get one: a gradient stop, and an element that is not of SVG at all. *)
Theorem C122_foreign_refuted : exists d d' s m' o', nth_error d 0 = Some (Node (Some (EName None (lit s) true)) [] []) /\ ~ In s transformed_elements /\
  nth_error d 1 = Some (Node (Some (EName (Some (lit "dc")) (lit "title") false)) [] []) /\
  run [0; 1] (SkewX 1%N) [0%Z; 1%Z] d = Done d' /\ nth_error d' 0 = Some m' /\ transforms m' [TSkewX 1%N] /\ nth_error d' 1 = Some o' /\ transforms o' [TSkewX 1%N].
Proof.
  exists [Node (Some (EName None (lit "stop") true)) [] []; Node (Some (EName (Some (lit "dc")) (lit "title") false)) [] []]. eexists. exists "stop"%string. eexists. eexists.
  split; [reflexivity|]. split; [cbn; intuition discriminate|]. split; [reflexivity|]. split; [vm_compute; reflexivity|]. split; [reflexivity|]. split; [left; left; reflexivity|]. split; [reflexivity|]. left; left; reflexivity.
Qed.
Print Assumptions C122_foreign_refuted.
(** A transform that could not be read, for instance one with units, is thrown away instead of being appended to. *)
Theorem C122_overwritten_refuted : exists d d' u m', nth_error d 0 = Some (Node (svg_name "g") [(lit "transform", Unparsed u)] []) /\
  run [0] (SkewX 1%N) [0%Z] d = Done d' /\ nth_error d' 0 = Some m' /\ n_attrs m' = [(lit "transform", Transforms (Some [TSkewX 1%N]))].
Proof. exists [Node (svg_name "g") [(lit "transform", Unparsed (lit "rotate(1turn)"))] []]. eexists. eexists. eexists. split; [reflexivity|]. split; [vm_compute; reflexivity|]. split; reflexivity. Qed.
Print Assumptions C122_overwritten_refuted.
(** A name with two colons ends the program. *)
Theorem C122_panic_refuted : exists x v d, well d /\ run [0] (ActionModel.Attr x v) [0%Z] d = Panicked.
Proof. exists (lit "a:b:c"), [], [Node (svg_name "g") [] []]. split; [apply Forall_cons; [split; [constructor|intros x l []]|constructor]|]. vm_compute. reflexivity. Qed.
Print Assumptions C122_panic_refuted.
(** Other ways to write a mark of importance are not seen. *)
Theorem C122_important_refuted : exists v w, marked v /\ marked w /\ importance v = (v, false) /\ importance w = (w, false).
Proof.
  exists (lit "red ! important"), (lit "red!IMPORTANT"). split; [|split; [|split; vm_compute; reflexivity]].
  - exists (lit "red "), (lit " "), (lit "important"), []. split; [reflexivity|]. split; [apply Forall_cons; [left; reflexivity|constructor]|]. split; [constructor|reflexivity].
  - exists (lit "red"), [], (lit "IMPORTANT"), []. split; [reflexivity|]. split; [constructor|]. split; [constructor|reflexivity].
Qed.
Print Assumptions C122_important_refuted.

(** C123: inserting and merging. *)
Theorem C123_insert_partial : forall {num decl path} known t q ids (d : list (@node num decl path)) d' l, insert known t q ids d = (d', l) ->
  NoDup l /\ (forall k, In k l -> List.length d <= k < List.length d') /\ List.length d' = List.length d + List.length l /\
  (forall k, In k l -> nth_error d' k = Some (Node (Some (element_id known q)) [] [])) /\
  (forall n m, nth_error d n = Some m -> ~ (named t ids n /\ is_element m) -> nth_error d' n = Some m) /\
  (forall n m, nth_error d n = Some m -> is_element m -> named_once t ids n -> exists k, In k l /\ nth_error d' n = Some (Node (n_name m) (n_attrs m) (n_kids m ++ [k]))).
Proof. exact @insert_spec. Qed.
Print Assumptions C123_insert_partial.
Theorem C123_name : forall known p l, ~ In 58%N p -> element_id known (p ++ 58%N :: l) = EName (Some p) l (known l).
Proof. exact id_spec. Qed.
Print Assumptions C123_name.
Theorem C123_plain_name : forall known l, ~ In 58%N l -> element_id known l = EName None l (known l).
Proof. exact id_plain. Qed.
Print Assumptions C123_plain_name.
Theorem C123_merge_partial : forall {num decl path} from_svg to_svg combine (evenodd : list (@node num decl path) -> nat -> bool),
  (forall d k i, evenodd (detach k d) i = evenodd d i) ->
  forall t o ids d n p l ks k, well d -> selects t d ids ((n, p) :: l) -> n :: map fst l = ks ++ [k] ->
  exists d', boolean_op from_svg to_svg combine evenodd t o ids d = Some (d', Some k) /\ List.length d' = List.length d /\
    forall i m, nth_error d i = Some m -> exists m', nth_error d' i = Some m' /\ n_name m' = n_name m /\
      n_kids m' = apart_from ks (n_kids m) /\ NoDup (map fst (n_attrs m')) /\
      (i <> k -> n_attrs m' = n_attrs m) /\
      (i = k -> In (lit "d", Data (to_svg (fst (merged (combine o) (as_given from_svg evenodd d (n, p)) (map (as_given from_svg evenodd d) l))))) (n_attrs m') /\ In (lit "fill-rule", Rule true) (n_attrs m') /\
         forall x v, x <> lit "d" -> x <> lit "fill-rule" -> (In (x, v) (n_attrs m') <-> In (x, v) (n_attrs m))).
Proof. exact @boolean_result. Qed.
Print Assumptions C123_merge_partial.
Theorem C123_nothing : forall {num decl path} from_svg to_svg combine (evenodd : list (@node num decl path) -> nat -> bool) t o ids d,
  well d -> selects t d ids [] -> boolean_op from_svg to_svg combine evenodd t o ids d = Some (d, None).
Proof. exact @boolean_none. Qed.
Print Assumptions C123_nothing.

Definition anything (l : text) : bool := true.
Definition both (o : overlay) (p q : text * bool) : text := fst p ++ fst q.
Definition nonzero (d : list (@node N (text * text) text)) (i : nat) : bool := false.
Definition same (p : text) : text := p.
Definition merging := @boolean_op N (text * text) text same same both nonzero.
Example C123_insert_example : insert anything [0; 1; 2; 3] (lit "g") [1%Z; 2%Z] shapes =
  (change 1 (with_kid 4) (change 2 (with_kid 5) shapes) ++ [Node (svg_name "g") [] []; Node (svg_name "g") [] []], [4; 5]).
Proof. reflexivity. Qed.
Example C123_merge_example : selects [0; 1; 2; 3] shapes [2%Z; 3%Z] [(2, lit "p"); (3, lit "q")] /\
  merging [0; 1; 2; 3] Union [2%Z; 3%Z] shapes =
  Some (change 1 (fun m => Node (n_name m) (n_attrs m) [3]) (change 3 (fun m => Node (n_name m) [(lit "d", Data (lit "pq")); (lit "fill-rule", Rule true)] []) shapes), Some 3).
Proof.
  split; [|reflexivity]. apply selects_take; [split; [discriminate|reflexivity]|eexists; split; [reflexivity|]; split; [reflexivity|]; split; [reflexivity|]; left; reflexivity|].
  apply selects_take; [split; [discriminate|reflexivity]|eexists; split; [reflexivity|]; split; [reflexivity|]; split; [reflexivity|]; left; reflexivity|]. constructor.
Qed.
(** What a parent may contain is not asked, and a prefix need not be declared anywhere. *)
Theorem C123_content_refuted : exists (d : list (@node N (text * text) text)) d' q k m', nth_error d 0 = Some (Node (svg_name "rect") [] []) /\ ~ In q rect_content /\
  insert anything [0] (lit q) [0%Z] d = (d', [k]) /\ nth_error d' 0 = Some m' /\ In k (n_kids m') /\ nth_error d' k = Some (Node (svg_name q) [] []).
Proof. exists [Node (svg_name "rect") [] [] : @node N (text * text) text]. eexists. exists "rect"%string, 1. eexists. split; [reflexivity|]. split; [cbn; intuition discriminate|]. split; [reflexivity|]. split; [reflexivity|]. split; [left; reflexivity|reflexivity]. Qed.
Print Assumptions C123_content_refuted.
Theorem C123_prefix_refuted : exists (d : list (@node N (text * text) text)) d' q k p l b, insert anything [0] q [0%Z] d = (d', [k]) /\
  nth_error d' k = Some (Node (Some (EName (Some p) l b)) [] []) /\ Forall (fun m => lacks m (lit "xmlns:" ++ p)) d'.
Proof. exists [Node (svg_name "svg") [] []]. eexists. exists (lit "foo:rect"), 1, (lit "foo"), (lit "rect"), true. split; [reflexivity|]. split; [reflexivity|]. repeat (apply Forall_cons; [intros []|]). constructor. Qed.
Print Assumptions C123_prefix_refuted.
(** An element that is selected twice gets two children. *)
Theorem C123_twice_refuted : exists (d : list (@node N (text * text) text)) d' q l m', insert anything [0] q [0%Z; 0%Z] d = (d', l) /\ nth_error d 0 = Some (Node (svg_name "svg") [] []) /\ nth_error d' 0 = Some m' /\ List.length (n_kids m') = 2.
Proof. exists [Node (svg_name "svg") [] []]. eexists. exists (lit "g"). eexists. eexists. split; [reflexivity|]. split; [reflexivity|]. split; reflexivity. Qed.
Print Assumptions C123_twice_refuted.
(** A path that is selected twice is lost from the document. *)
Theorem C123_lost_refuted : exists d d' k, well d /\ merging [0; 1; 2; 3] Union [2%Z; 2%Z] d = Some (d', Some k) /\ (exists n m, nth_error d n = Some m /\ In k (n_kids m)) /\ forall n m, nth_error d' n = Some m -> ~ In k (n_kids m).
Proof.
  exists shapes. eexists. exists 2. split; [exact C122_shapes_well|]. split; [vm_compute; reflexivity|]. split; [exists 1; eexists; split; [reflexivity|left; reflexivity]|].
  intros n m. do 4 (destruct n as [|n]; [intros H; injection H as <-; cbn; intuition discriminate|]). intros H. destruct n; discriminate H.
Qed.
Print Assumptions C123_lost_refuted.
(** The path that is kept is the one that was selected last, not the front-most one. *)
Theorem C123_order_refuted : exists d d', well d /\ (exists m, nth_error d 1 = Some m /\ n_kids m = [2; 3]) /\ merging [0; 1; 2; 3] Union [3%Z; 2%Z] d = Some (d', Some 2) /\ exists m', nth_error d' 1 = Some m' /\ n_kids m' = [2].
Proof. exists shapes. eexists. split; [exact C122_shapes_well|]. split; [eexists; split; reflexivity|]. split; [vm_compute; reflexivity|]. eexists. split; reflexivity. Qed.
Print Assumptions C123_order_refuted.
(** A path alone keeps its data but is filled by the other rule. *)
Theorem C123_alone_refuted : exists d d' m m', well d /\ merging [0; 1; 2; 3] Union [3%Z] d = Some (d', Some 3) /\ nth_error d 3 = Some m /\ nth_error d' 3 = Some m' /\
  nonzero d 3 = false /\ In (lit "d", Data (lit "q")) (n_attrs m) /\ In (lit "d", Data (lit "q")) (n_attrs m') /\ In (lit "fill-rule", Rule true) (n_attrs m').
Proof. exists shapes. eexists. eexists. eexists. split; [exact C122_shapes_well|]. split; [vm_compute; reflexivity|]. split; [reflexivity|]. split; [reflexivity|]. split; [reflexivity|]. split; [left; reflexivity|]. split; [left; reflexivity|]. right. left. reflexivity. Qed.
Print Assumptions C123_alone_refuted.
(** A fill rule in the style attribute, which wins over the attribute, stays as it was. *)
Theorem C123_rule_refuted : exists d d' m' i n, well d /\ merging [0; 1; 2; 3] Union [3%Z; 2%Z] d = Some (d', Some 2) /\ nth_error d' 2 = Some m' /\ In (lit "fill-rule", Rule true) (n_attrs m') /\
  declares m' i n /\ wins fst (lit "fill-rule") i n (lit "fill-rule", lit "nonzero").
Proof.
  exists shapes. eexists. eexists. exists [], [(lit "fill-rule", lit "nonzero")]. split; [exact C122_shapes_well|]. split; [vm_compute; reflexivity|]. split; [reflexivity|]. split; [right; right; right; left; reflexivity|].
  split; [left; right; right; left; reflexivity|]. right. split; [constructor|]. exists [], []. split; [reflexivity|]. split; [reflexivity|constructor].
Qed.
Print Assumptions C123_rule_refuted.
