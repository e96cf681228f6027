From Coq Require Import String List NArith ZArith QArith Bool.
From Verif Require Import Chars NameModel AttrTable ElemModel TextModel JsxNamesModel JsxModel JsxSpec JsxProofs PresetModel PresetSpec PresetProofs PresetProofs2 PresetProofs3 PresetProofs4.
Import ListNotations.

(** A component of the web renders the document with the changes that its options say, whatever its properties are. *)
Theorem C97_component_partial : forall parse o uni camel d s l vs j ids, o_native o = false -> o_replace o = [] -> parse_values parse (o_svg_props o) = inr vs ->
  render s (to_jsx uni camel d) = Some l -> simple_desc l -> preset parse o (to_jsx uni camel d) = inr (j, ids) ->
  exists l', render s j = Some l' /\ component s o (jval s vs) l l'.
Proof. exact component_ok. Qed.
Print Assumptions C97_component_partial.
(** Without options nothing is changed. *)
Theorem C97_off : forall parse j r i, (i = None \/ i = Some (IBool false)) -> preset parse (mkOptions false [] false false false true i Nowhere []) j = inr r -> r = (j, []).
Proof. exact (fun parse j r i I => proj1 (off_ok parse j r i _ eq_refl I)). Qed.
Print Assumptions C97_off.
(** An svg element at the top and values without errors are enough. *)
Theorem C97_succeeds : forall parse o a sc kids cl, o_native o = false -> (forall t, In t (map snd (o_svg_props o ++ o_replace o)) -> ~ invalid parse t) ->
  exists r, preset parse o (JElement (lit "svg") a sc kids cl) = inr r.
Proof. exact root_ok. Qed.
Print Assumptions C97_succeeds.
(** Without an svg element, or with a value that is no expression, there is an error. *)
Theorem C97_needs : forall parse o d uni camel r, o_native o = false -> preset parse o (to_jsx uni camel d) = inr r ->
  (exists e, In e (jelems (to_jsx uni camel d)) /\ jname e = lit "svg") /\ forall t, In t (map snd (o_svg_props o ++ o_replace o)) -> ~ invalid parse t.
Proof. exact preset_has. Qed.
Print Assumptions C97_needs.
(** If no replacement is itself replaced, each text of an attribute is replaced as the map says, everywhere, and nothing else changes. *)
Theorem C97_replace_partial : forall uni camel d rs, NoDup (map fst rs) -> (forall k t, In (k, JStr t) rs -> In t (map fst rs) -> t = k) ->
  revalued (replacement rs) (to_jsx uni camel d) (fold_left (fun j p => set_value_recursive (fst p) (snd p) j) rs (to_jsx uni camel d)).
Proof. exact (fun uni camel d rs => replace_ok rs _ (to_jsx_bare uni camel d)). Qed.
Print Assumptions C97_replace_partial.
(** The names to import from react-native are the ones of the elements. *)
Theorem C97_native_names : forall uni camel d k ids, to_native (to_jsx uni camel d) = (Some k, ids) -> forall x, In x ids <-> exists e, In e (jelems k) /\ jname e = x.
Proof. exact native_both. Qed.
Print Assumptions C97_native_names.
(** If every element with children keeps one, all tags are closed. *)
Theorem C97_native_closed_partial : forall uni camel d k ids, keeps (to_jsx uni camel d) -> to_native (to_jsx uni camel d) = (Some k, ids) -> closed k.
Proof. exact (fun uni camel d k ids S E => native_closed _ k (to_jsx_closed uni camel d) S (f_equal fst E)). Qed.
Print Assumptions C97_native_closed_partial.

Definition pe (n : string) : elem_id := elem_new (prefix_new (known_uri SVG) None) (lit n).
Definition pa (e n : string) : attr_id := parse_attr_id (pe e) (prefix_new (known_uri SVG) None) (lit n).
Definition el (n : string) (a : list (string * string)) (kids : list xnode) : xnode := XElement (pe n) (map (fun p => (pa n (fst p), VOther (lit (snd p)))) a) kids.
Definition tx (t : string) : xnode := XText (Some (lit t)).
Definition conv (d : xnode) : jsx := to_jsx (fun _ => false) (fun t => t) d.
Definition parser (t : text) : option text := match t with [] => None | t => Some t end.
(** Properties that a component is called with. *)
Definition called_with (names : list (string * string)) (spread : list (string * string)) : env :=
  mkEnv (fun x => option_map (fun p => lit (snd p)) (find (fun p => text_eqb (lit (fst p)) x) names))
    (fun x => if text_eqb x (lit "props") then map (fun p => (lit (fst p), Some (PStr (lit (snd p))))) spread else []) (fun _ => None) [].
Definition sample : xnode := XDocument [el "svg" [("viewBox", "0 0 9 9"); ("class", "c"); ("id", "i")]%string [el "desc" [] [tx "what"]; el "path" [("d", "M0 0h9")]%string []]].
Definition all_on : options := mkOptions false [(lit "role", lit "img")] true true true false (Some (IBool true)) End [].
Definition ran (o : options) (d : xnode) (s : env) : option (list dom) := match preset parser o (conv d) with inr (j, _) => render s j | inl _ => None end.
(** The document above, with a title and a class but no description. *)
Example C97_sample :
  (exists l vs j ids, parse_values parser (o_svg_props all_on) = inr vs /\ render (called_with [] []) (conv sample) = Some l /\ simple_desc l /\ preset parser all_on (conv sample) = inr (j, ids)) /\
  ran all_on sample (called_with [("title", "T"); ("titleId", "t")]%string [("className", "x")]%string) =
  Some [DElem (lit "svg") [(lit "viewBox", Some (PStr (lit "0 0 9 9"))); (lit "className", Some (PStr (lit "c"))); (lit "id", Some (PStr (lit "i"))); (lit "role", Some (PStr (lit "img"))); (lit "ref", None);
      (lit "aria-labelledby", Some (PStr (lit "t"))); (lit "aria-describedby", None); (lit "width", Some (PStr (lit "1em"))); (lit "height", Some (PStr (lit "1em")));
      (lit "className", Some (PStr (lit "x")))]
    [DElem (lit "title") [(lit "id", Some (PStr (lit "t")))] [DText (lit "T")]; DElem (lit "desc") [] [DText (lit "what")];
     DElem (lit "path") [(lit "d", Some (PStr (lit "M0 0h9")))] []]].
Proof.
  split; [|vm_compute; reflexivity]. eexists. eexists. eexists. eexists. split; [reflexivity|]. split; [vm_compute; reflexivity|]. split; [|vm_compute; reflexivity].
  intros ps kids I. vm_compute in I. destruct I as [I|[I|[I|[]]]]; try discriminate I. injection I as <- <-. split; intros x [].
Qed.

(** Two colours that are replaced everywhere. *)
Example C97_replaced :
  let rs := [(lit "red", JUser (lit "props.color")); (lit "blue", JStr (lit "navy"))] in
  NoDup (map fst rs) /\ (forall k t, In (k, JStr t) rs -> In t (map fst rs) -> t = k) /\
  fold_left (fun j p => set_value_recursive (fst p) (snd p) j) rs (conv (el "svg" [("fill", "red")]%string [el "path" [("fill", "blue"); ("stroke", "red"); ("d", "M0 0h9")]%string []])) =
  JElement (lit "svg") [JAttr (lit "fill") (JUser (lit "props.color"))] false
    [JElement (lit "path") [JAttr (lit "fill") (JStr (lit "navy")); JAttr (lit "stroke") (JUser (lit "props.color")); JAttr (lit "d") (JStr (lit "M0 0h9"))] true [] None] (Some (lit "svg")).
Proof.
  split; [|split; [|vm_compute; reflexivity]].
  - constructor; [intros [X|[]]; vm_compute in X; discriminate X|]. constructor; [intros []|constructor].
  - intros k t [X|[X|[]]]; [discriminate X|]. injection X as <- <-. intros [X|[X|[]]]; vm_compute in X; discriminate X.
Qed.
(** A document whose groups keep a child. *)
Example C97_native_sample :
  let d := el "svg" [] [el "title" [] [tx "T"]; el "g" [] [el "desc" [] []; el "path" [] []]] in
  keeps (conv d) /\ to_native (conv d) = (Some (JElement (lit "Svg") [] false [JElement (lit "G") [] false [JElement (lit "Path") [] true [] None] (Some (lit "G"))] (Some (lit "Svg"))), [lit "Svg"; lit "G"; lit "Path"]).
Proof.
  split; [|vm_compute; reflexivity]. apply k_element.
  - intros _. eexists. split; [right; left; reflexivity|]. vm_compute. discriminate.
  - constructor; [apply k_other; vm_compute; reflexivity|]. constructor; [|constructor]. apply k_element.
    + intros _. eexists. split; [right; left; reflexivity|]. vm_compute. discriminate.
    + constructor; [apply k_other; vm_compute; reflexivity|]. constructor; [|constructor]. apply k_element; [intros X; vm_compute in X; discriminate X|constructor].
Qed.

Definition plain_options : options := mkOptions false [] false false false true None Nowhere [].
(** A width of the configuration is lost together with the one of the document. *)
Theorem C97_dimensions_refuted : exists o d s ps kids, In (lit "width", lit "100%") (o_svg_props o) /\ o_icon o = None /\ o_expand o = Nowhere /\
  ran o d s = Some [DElem (lit "svg") ps kids] /\ value_of (lit "width") ps = None.
Proof.
  exists (mkOptions false [(lit "width", lit "100%")] false false false false None Nowhere []), (el "svg" [] []), (called_with [] []). eexists. eexists.
  split; [left; reflexivity|]. split; [reflexivity|]. split; [reflexivity|]. split; vm_compute; reflexivity.
Qed.
Print Assumptions C97_dimensions_refuted.
(** With the option for a title, a document that names its own title is shown with this title but no longer refers to it. *)
Theorem C97_label_refuted : exists d s ps kids ps' kids', e_name s (lit "title") = None /\ e_name s (lit "titleId") = None /\
  render s (conv d) = Some [DElem (lit "svg") ps kids] /\ value_of (lit "aria-labelledby") ps = Some (Some (PStr (lit "t"))) /\
  ran (mkOptions false [] false true false true None Nowhere []) d s = Some [DElem (lit "svg") ps' kids'] /\ kids' = kids /\ value_of (lit "aria-labelledby") ps' = Some None.
Proof.
  exists (el "svg" [("aria-labelledby", "t")]%string [el "title" [("id", "t")]%string [tx "T"]]), (called_with [] []). eexists. eexists. eexists. eexists.
  split; [reflexivity|]. split; [reflexivity|]. split; [vm_compute; reflexivity|]. split; [vm_compute; reflexivity|]. split; [vm_compute; reflexivity|]. split; vm_compute; reflexivity.
Qed.
Print Assumptions C97_label_refuted.
(** The title that is given replaces the one of a group, and the svg element gets none. *)
Theorem C97_nested_refuted : exists d s ps kids, e_name s (lit "title") = Some (lit "Icon") /\
  ran (mkOptions false [] false true false true None Nowhere []) d s = Some [DElem (lit "svg") ps kids] /\ forall k, In k kids -> ~ called (lit "title") k.
Proof.
  exists (el "svg" [] [el "g" [] [el "title" [] [tx "part"]]]), (called_with [("title", "Icon")]%string []). eexists. eexists.
  split; [reflexivity|]. split; [vm_compute; reflexivity|]. intros k [<-|[]]. cbn. intros X. vm_compute in X. discriminate X.
Qed.
Print Assumptions C97_nested_refuted.
(** The order in which the map of replacements is walked, which is random, makes a difference. *)
Theorem C97_order_refuted : exists p q d, fst p <> fst q /\
  preset parser (mkOptions false [] false false false true None Nowhere [p; q]) (conv d) <> preset parser (mkOptions false [] false false false true None Nowhere [q; p]) (conv d).
Proof. exists (lit "red", lit "blue"), (lit "blue", lit "green"), (el "svg" [("class", "red")]%string []). split; [discriminate|]. vm_compute. discriminate. Qed.
Print Assumptions C97_order_refuted.
(** A number is not replaced, though it is written the same way in the document. *)
Theorem C97_number_refuted : exists d, ran (mkOptions false [] false false false true None Nowhere [(lit "24", lit "1em")]) d (called_with [] []) = ran plain_options d (called_with [] []) /\
  exists kids, d = XElement (pe "svg") [(pa "svg" "width", VPx 24)] kids.
Proof. exists (XElement (pe "svg") [(pa "svg" "width", VPx 24)] []). split; [vm_compute; reflexivity|eauto]. Qed.
Print Assumptions C97_number_refuted.
(** A property of the configuration has no effect if the document has two attributes of this name in JSX. *)
Theorem C97_twice_refuted : exists d s ps kids, ran (mkOptions false [(lit "className", lit "x")] false false false true None Nowhere []) d s = Some [DElem (lit "svg") ps kids] /\
  value_of (lit "className") ps = Some (Some (PStr (lit "b"))).
Proof.
  exists (el "svg" [("class", "a"); ("className", "b")]%string []), (called_with [] []). eexists. eexists. split; vm_compute; reflexivity.
Qed.
Print Assumptions C97_twice_refuted.
(** A document whose svg element has a prefix is refused. *)
Theorem C97_prefix_refuted : exists e kids, prefix_ns (elem_prefix e) = NSKnown SVG /\ elem_local e = lit "svg" /\ preset parser plain_options (conv (XDocument [XElement e [] kids])) = inl MissingSvg.
Proof. exists (elem_new (prefix_new (known_uri SVG) (Some (lit "svg"))) (lit "svg")), []. split; [vm_compute; reflexivity|]. split; vm_compute; reflexivity. Qed.
Print Assumptions C97_prefix_refuted.
(** The pieces of text. *)
Fixpoint dom_words (x : dom) : list text := match x with DText t => [t] | DElem _ _ kids => flat_map dom_words kids end.
Definition native_options (native title : bool) : options := mkOptions native [] false title false true None Nowhere [].
(** For react-native a group with nothing but a title is left without closing tag. *)
Theorem C97_native_closed_refuted : exists d j ids, preset parser (native_options true false) (conv d) = inr (j, ids) /\ ~ closed j /\ closed (conv d).
Proof.
  exists (el "svg" [] [el "g" [] [el "title" [] [tx "part"]]; el "path" [] []]). eexists. eexists. split; [vm_compute; reflexivity|]. split; [|apply to_jsx_closed].
  intros H. inversion H as [|? ? ? F| | | | |]; subst. inversion F as [|? ? G _]; subst. inversion G.
Qed.
Print Assumptions C97_native_closed_refuted.
(** For react-native the title of the document is gone even if the component gets none, which it is not on the web. *)
Theorem C97_native_title_refuted : exists d s j ids j' l l', e_name s (lit "title") = None /\
  preset parser (native_options false true) (conv d) = inr (j, ids) /\ preset parser (native_options true true) (conv d) = inr (j', e_scope s) /\
  render s j = Some l /\ render s j' = Some l' /\ In (lit "mine") (flat_map dom_words l) /\ flat_map dom_words l' = [].
Proof.
  exists (el "svg" [] [el "title" [] [tx "mine"]; el "path" [] []]), (mkEnv (fun _ => None) (fun _ => []) (fun _ => None) [lit "Svg"; lit "Path"]).
  eexists. eexists. eexists. eexists. eexists. split; [reflexivity|]. split; [vm_compute; reflexivity|]. split; [vm_compute; reflexivity|].
  split; [vm_compute; reflexivity|]. split; [vm_compute; reflexivity|]. split; [vm_compute; left; reflexivity|vm_compute; reflexivity].
Qed.
Print Assumptions C97_native_title_refuted.
