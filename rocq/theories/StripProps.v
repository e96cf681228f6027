(** C81: removing what is not drawn keeps what is. *)
From Coq Require Import String List NArith Bool.
From Verif Require Import Chars StripModel StripSpec StripProofs.
Import ListNotations.

(** What is drawn stays. *)
Theorem C81_rendered : forall on any d,
  flat_map rendered (remove_metadata on d) = flat_map rendered d /\ flat_map rendered (remove_title on d) = flat_map rendered d /\ flat_map rendered (remove_desc any d) = flat_map rendered d.
Proof. exact (fun on any d => conj (metadata_rendered on d) (conj (title_rendered on d) (desc_rendered any d))). Qed.
(** Comments, the doctype and the XML declaration go without a change to any element or text. *)
Theorem C81_elements : forall on ps d,
  (forall d', remove_comments ps d = Some d' -> flat_map elements d' = flat_map elements d) /\
  flat_map elements (remove_doctype on d) = flat_map elements d /\ flat_map elements (remove_proc_inst on d) = flat_map elements d.
Proof. exact (fun on ps d => conj (comments_elements ps d) (conj (doctype_elements on d) (proc_inst_elements on d))). Qed.
(** Comments that begin with an exclamation mark stay and others go. *)
Theorem C81_comments : forall d, exists d', remove_comments None d = Some d' /\
  flat_map comments d' = filter (fun t => match t with c :: _ => N.eqb c 33 | [] => false end) (flat_map comments d).
Proof. exact comments_default. Qed.
(** Stylesheets and what can be referred to stay; what is missing: those in descriptive elements. *)
Theorem C81_stylesheets_partial : forall on any d, Forall (none_within descriptive stylesheets) d ->
  flat_map (collect stylesheets) (remove_metadata on d) = flat_map (collect stylesheets) d /\
  flat_map (collect stylesheets) (remove_title on d) = flat_map (collect stylesheets) d /\
  flat_map (collect stylesheets) (remove_desc any d) = flat_map (collect stylesheets) d.
Proof. exact descriptive_sheets. Qed.
Theorem C81_ids_partial : forall on any d, Forall (none_within descriptive ids) d ->
  flat_map (collect ids) (remove_metadata on d) = flat_map (collect ids) d /\
  flat_map (collect ids) (remove_title on d) = flat_map (collect ids) d /\
  flat_map (collect ids) (remove_desc any d) = flat_map (collect ids) d.
Proof. exact descriptive_ids. Qed.
(** Editor data goes, without a change to what is drawn, as long as the namespaces given are not those of SVG, XHTML, XLink or XML. *)
Theorem C81_editors : forall add d, (forall u, In u [svg_uri; xhtml_uri; xlink_uri; xml_uri] -> ~ In u add) -> flat_map rendered (remove_editors add d) = flat_map rendered d.
Proof. exact editors_rendered. Qed.
(** None of it is left, and every prefix that is left still stands for the same. *)
Theorem C81_editors_free : forall add d, Forall (free (goes add)) (remove_editors add d).
Proof. exact editors_free. Qed.
Theorem C81_editors_declared : forall add d, ~ In xml_uri add ->
  Forall (declared [(lit "xml", xml_uri)] []) d -> Forall (declared [(lit "xml", xml_uri)] []) (remove_editors add d).
Proof. exact editors_declared. Qed.
(** The XML declaration goes; other instructions, such as those for stylesheets, stay. *)
Theorem C81_instructions : forall on d, flat_map instructions (remove_proc_inst on d) = if on then filter (fun i => negb (text_eqb (fst i) (lit "xml"))) (flat_map instructions d) else flat_map instructions d.
Proof. exact proc_inst_instructions. Qed.
Print Assumptions C81_instructions.
(** Descriptions go when all of them are to, or they say nothing, or an editor wrote them. *)
Theorem C81_desc_goes : forall any m d ds l k r, is_svg "desc" m = true -> any = true \/ says_nothing k \/ (exists t, In (Text t) k /\ by_editor t) ->
  remove_desc any (Elem m d ds l k :: r) = remove_desc any r.
Proof. exact desc_goes. Qed.
Print Assumptions C81_desc_goes.
Theorem C81_desc_all : forall d, Forall (nowhere (fun m _ => is_svg "desc" m = true)) (remove_desc true d).
Proof. exact desc_all. Qed.
Print Assumptions C81_desc_all.
(** Others stay, as do other elements. *)
Theorem C81_desc_stays : forall any m d ds l k r, any = false -> ~ says_nothing k -> (forall t, In (Text t) k -> ~ by_editor t) ->
  remove_desc any (Elem m d ds l k :: r) = Elem m d ds l (remove_desc any k) :: remove_desc any r.
Proof. exact desc_stays. Qed.
Print Assumptions C81_desc_stays.
Print Assumptions C81_rendered.
Print Assumptions C81_elements.
Print Assumptions C81_comments.
Print Assumptions C81_stylesheets_partial.
Print Assumptions C81_ids_partial.
Print Assumptions C81_editors.
Print Assumptions C81_editors_free.
Print Assumptions C81_editors_declared.

Definition svg (s : string) : name := mkName None svg_uri (lit s).
Definition el (s : string) (l : list (name * text)) (k : list node) : node := Elem (svg s) None [] l k.
(** A stylesheet in [metadata] applies to the document and goes with it. *)
Theorem C81_style_refuted : exists d, flat_map (collect stylesheets) d = [lit "rect{fill:red}"] /\ flat_map (collect stylesheets) (remove_metadata true d) = [].
Proof. exists [el "svg" [] [el "metadata" [] [el "style" [] [Text (lit "rect{fill:red}")]]; el "rect" [] []]]. vm_compute. split; reflexivity. Qed.
(** So does a gradient there that is referred to. *)
Theorem C81_id_refuted : exists d, flat_map (collect ids) d = [lit "g"] /\ flat_map (collect ids) (remove_metadata true d) = [].
Proof. exists [el "svg" [] [el "metadata" [] [el "linearGradient" [(svg "id", lit "g")] []]; el "rect" [(svg "fill", lit "url(#g)")] []]]. vm_compute. split; reflexivity. Qed.
(** Whether a shape is the first child, which selectors ask, is another matter afterwards. *)
Definition first_child (d : list node) : option name := match d with Elem _ _ _ _ (Elem m _ _ _ _ :: _) :: _ => Some m | _ => None end.
Theorem C81_first_child_refuted : exists d, first_child d = Some (svg "metadata") /\ first_child (remove_metadata true d) = Some (svg "rect").
Proof. exists [el "svg" [] [el "metadata" [] []; el "rect" [] []]]. vm_compute. split; reflexivity. Qed.
(** A description goes although it has more than the name of an editor. *)
Theorem C81_desc_refuted : exists k t, In (Text t) k /\ blank t = false /\ is_standard_desc t = false /\ remove_desc false [el "desc" [] k] = [].
Proof.
  exists [Text (lit "Sales by year, "); el "tspan" [] [Text (lit "2020")]; Text (lit "Created with care")], (lit "Sales by year, ").
  split; [left; reflexivity|]. vm_compute. repeat split.
Qed.
(** Namespaces that are given may be in use. *)
Theorem C81_given_refuted : exists add d, flat_map rendered (remove_editors add d) <> flat_map rendered d.
Proof. exists [svg_uri], [el "svg" [] []]. vm_compute. discriminate. Qed.
(** The doctype is gone although its removal is switched off. *)
Theorem C81_doctype_refuted : exists d t, In (Doctype t) d /\ ~ In (Doctype t) (remove_doctype false (read d)).
Proof. exists [Doctype (lit "svg"); el "svg" [] []], (lit "svg"). split; [left; reflexivity|]. cbn. intros [H|[]]. discriminate. Qed.

Definition inkscape (s : string) : name := mkName (Some (lit "inkscape")) (lit "http://www.inkscape.org/namespaces/inkscape") (lit s).
Definition doc : list node :=
  [Instruction (lit "xml") (lit "version='1.0'"); Doctype (lit "svg"); Comment (lit "!licence"); Comment (lit "made");
   Elem (svg "svg") (Some svg_uri) [(lit "inkscape", lit "http://www.inkscape.org/namespaces/inkscape"); (lit "xlink", xlink_uri)] [(svg "width", lit "9"); (inkscape "version", lit "1")]
     [el "title" [] [Text (lit "T")]; el "desc" [] [Text (lit "Created with X")]; el "metadata" [] []; Elem (inkscape "grid") None [] [] [];
      el "use" [(mkName (Some (lit "xlink")) xlink_uri (lit "href"), lit "#a"); (inkscape "label", lit "l")] [Comment (lit "c")]]].
Example C81_declared : Forall (declared [(lit "xml", xml_uri)] []) doc.
Proof. unfold doc. repeat (constructor; [vm_compute; repeat (split || constructor)|]). constructor. Qed.
Example C81_all :
  remove_editors [] (remove_desc false (remove_title true (remove_metadata true (remove_proc_inst true (remove_doctype true (match remove_comments None doc with Some d => d | None => [] end)))))) =
  [Comment (lit "!licence"); Elem (svg "svg") (Some svg_uri) [(lit "xlink", xlink_uri)] [(svg "width", lit "9")] [el "use" [(mkName (Some (lit "xlink")) xlink_uri (lit "href"), lit "#a")] []]].
Proof. vm_compute. reflexivity. Qed.
Example C81_none_within : Forall (none_within descriptive stylesheets) doc /\ Forall (none_within descriptive ids) doc.
Proof. split; unfold doc; repeat (constructor; [vm_compute; repeat split|]); constructor. Qed.
Example C81_invalid : remove_comments (Some [None]) doc = None.
Proof. vm_compute. reflexivity. Qed.
