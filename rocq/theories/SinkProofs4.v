From Coq Require Import String List NArith Bool Lia Arith.
From Verif Require Import Chars NameModel SinkModel SinkSpec SinkProofs SinkProofs2 SinkProofs3.
Import ListNotations.

(** ** Going through the names of a tree *)
Fixpoint flatten (t : tree) : list (prefix * list attr) := match t with Node p _ attrs kids => (p, attrs) :: flat_map flatten kids end.
Lemma inside_flatten t p attrs : inside t p attrs -> In (p, attrs) (flatten t).
Proof. intros H. induction H as [p l a ks|p l a ks k q b Hk H IH]; [left; reflexivity|]. cbn [flatten]. right. apply in_flat_map. exists k. split; assumption. Qed.
Lemma all_inside t (P : prefix -> list attr -> Prop) : Forall (fun x => P (fst x) (snd x)) (flatten t) -> forall p attrs, inside t p attrs -> P p attrs.
Proof. intros F p attrs H. apply inside_flatten in H. rewrite Forall_forall in F. apply (F (p, attrs) H). Qed.
Definition prefixes (t : tree) : list prefix := flat_map (fun x => fst x :: map a_prefix (snd x)) (flatten t).
Lemma all_used t (P : prefix -> Prop) : Forall P (prefixes t) -> forall p, used t p -> P p.
Proof.
  intros F p H. rewrite Forall_forall in F. apply F. unfold prefixes. apply in_flat_map. destruct H as [p attrs H|p attrs a H Ha]; apply inside_flatten in H; exists (p, attrs); (split; [exact H|]); [left; reflexivity|right; apply in_map, Ha].
Qed.
Definition opt (q : option string) : option text := match q with Some q => Some (lit q) | None => None end.
Definition at_ (uri : text) (q : option string) (n v : string) : attr := mkAttr (prefix_new uri (opt q)) (lit n) (lit v).
Definition elem (uri : text) (q : option string) (n : string) (attrs : list attr) (kids : list tree) : tree := Node (prefix_new uri (opt q)) (lit n) attrs kids.
Lemma not_decl a : (match prefix_value (a_prefix a) with None => text_eqb (a_local a) (lit "xmlns") | Some q => text_eqb q (lit "xmlns") end) = false -> ~ is_declaration a.
Proof.
  intros E ([q|] & u & D1 & D2 & _); rewrite D1 in E; [discriminate|]. rewrite D2 in E. discriminate.
Qed.
Ltac each_in := repeat (apply Forall_cons; [|]); try apply Forall_nil.
Ltac no_dup := repeat (apply NoDup_cons; [let H := fresh in intros H; vm_compute in H; repeat (destruct H as [H|H]; [discriminate H|]); exact H|]); apply NoDup_nil.
Ltac from_parser_tac := unfold from_parser; split; [|split; [|split; [|split]]];
  [ refine (all_inside _ (fun _ attrs => well_formed attrs) _); cbn [flatten flat_map app elem]; each_in; cbn [fst snd]; (split; [cbn [map]; no_dup|let a := fresh in let u := fresh in let H := fresh in intros a u H; repeat (destruct H as [<- |H]; [let D := fresh in intros D; destruct D as (D & _); vm_compute in D; discriminate D|]); destruct H])
  | refine (all_inside _ (fun _ attrs => Forall (fun a => ~ is_declaration a) attrs) _); cbn [flatten flat_map app elem]; each_in; cbn [fst snd]; each_in; apply not_decl; vm_compute; reflexivity
  | refine (all_used _ _ _); unfold prefixes; cbn [flatten flat_map app map fst snd elem at_ a_prefix]; each_in; eexists _, _; reflexivity
  | intros p attrs a Hi Ha V; revert a Ha V; revert p attrs Hi; refine (all_inside _ (fun _ attrs => forall a, In a attrs -> prefix_value (a_prefix a) = None -> a_prefix a = PKnown SVG) _); cbn [flatten flat_map app elem]; each_in; cbn [fst snd]; let a := fresh in let Ha := fresh in let V := fresh in intros a Ha V; repeat (destruct Ha as [<- |Ha]; [vm_compute in V |- *; first [reflexivity|discriminate V]|]); destruct Ha
  | refine (all_used _ _ _); unfold prefixes; cbn [flatten flat_map app map fst snd elem at_ a_prefix]; each_in; (split; [intros C; vm_compute in C; discriminate C|split; [intros C; vm_compute in C; discriminate C|vm_compute; split; intros C; first [discriminate C|reflexivity]]]) ].
Ltac uniform_tac := split; [ intros p q Hp Hq; revert q Hq; revert p Hp; refine (all_used _ (fun p => forall q, used _ q -> prefix_value p = prefix_value q -> uri_of p = uri_of q) _); unfold prefixes; cbn [flatten flat_map app map fst snd elem at_ a_prefix]; each_in;
    refine (all_used _ (fun q => prefix_value _ = prefix_value q -> uri_of _ = uri_of q) _); unfold prefixes; cbn [flatten flat_map app map fst snd elem at_ a_prefix]; each_in; let E := fresh in intros E; vm_compute in E |- *; first [reflexivity|discriminate E]
  | refine (all_inside _ (fun p _ => prefix_value p = None -> p = PKnown SVG) _); cbn [flatten flat_map app elem]; each_in; cbn [fst snd]; let V := fresh in intros V; vm_compute in V |- *; first [reflexivity|discriminate V] ].

Definition svg_uri := known_uri SVG.
Definition sample : tree := elem svg_uri None "svg" [at_ [] None "width" "1"; at_ (known_uri XML) (Some "xml"%string) "space" "preserve"; at_ (lit "http://a") (Some "a"%string) "b" "1"]
  [elem svg_uri None "g" [at_ (known_uri XLink) (Some "xlink"%string) "href" "#x"] []; elem (lit "http://b") (Some "b"%string) "c" [] []].
Lemma sample_ok : from_parser sample /\ uniform sample /\ root_plain sample /\ xml_at_root sample /\
  option_map (fun t => match t with Node _ _ attrs _ => map written attrs end) (build sample) =
  Some [(None, lit "xmlns"); (Some (lit "xmlns"), lit "xlink"); (None, lit "width"); (Some (lit "xmlns"), lit "a"); (Some (lit "xml"), lit "space"); (Some (lit "a"), lit "b"); (Some (lit "xmlns"), lit "b")].
Proof.
  split; [unfold sample; from_parser_tac|]. split; [unfold sample; uniform_tac|]. split; [vm_compute; reflexivity|]. split; [|vm_compute; reflexivity].
  intros _. exists (at_ (known_uri XML) (Some "xml"%string) "space" "preserve"). split; [right; left; reflexivity|vm_compute; reflexivity].
Qed.

(** ** Where it goes wrong *)
Definition panicking : tree := elem svg_uri None "svg" [] [elem svg_uri None "g" [at_ (known_uri XML) (Some "xml"%string) "space" "preserve"; at_ (lit "http://a") (Some "a"%string) "b" "1"] []].
Lemma panics : exists t, from_parser t /\ uniform t /\ root_plain t /\ build t = None.
Proof. exists panicking. split; [unfold panicking; from_parser_tac|]. split; [unfold panicking; uniform_tac|]. split; vm_compute; reflexivity. Qed.

Lemma dup_not_well l : (exists a, In a l /\ exists i j, i <> j /\ nth_error l i = Some a /\ option_map written (nth_error l j) = Some (written a)) -> ~ well_formed l.
Proof.
  intros (a & _ & i & j & Ne & Hi & Hj) (N & _). apply Ne.
  rewrite NoDup_nth_error in N. apply N.
  - rewrite map_length. apply nth_error_Some. rewrite Hi. discriminate.
  - rewrite !nth_error_map, Hi, Hj. reflexivity.
Qed.
Lemma all_root t p l attrs ks : t = Node p l attrs ks -> all_well_formed t -> well_formed attrs.
Proof. intros -> W. apply (W p). constructor. Qed.

Definition html_child : tree := elem svg_uri None "svg" [] [elem svg_uri None "foreignObject" [] [elem (known_uri HTML) None "div" [] []]].
Lemma duplicates : exists t t', from_parser t /\ root_plain t /\ xml_at_root t /\ build t = Some t' /\ ~ all_well_formed t'.
Proof.
  exists html_child. eexists. split; [unfold html_child; from_parser_tac|]. split; [vm_compute; reflexivity|]. split.
  - intros (p & U & V). exfalso. revert V. revert p U. refine (all_used _ (fun p => prefix_value p = Some (lit "xml") -> False) _). unfold prefixes; cbn [flatten flat_map app map fst snd elem at_ a_prefix html_child]; each_in; intros V; vm_compute in V; discriminate V.
  - split; [vm_compute; reflexivity|]. intros W. eapply all_root in W; [|reflexivity]. revert W. apply dup_not_well.
    eexists. split; [left; reflexivity|]. exists 0, 1. split; [discriminate|]. split; vm_compute; reflexivity.
Qed.

Definition prefixed_root : tree := elem svg_uri (Some "svg"%string) "svg" [] [].
Lemma declares_xmlns : exists t t', from_parser t /\ uniform t /\ xml_at_root t /\ build t = Some t' /\ ~ all_well_formed t'.
Proof.
  exists prefixed_root. eexists. split; [unfold prefixed_root; from_parser_tac|]. split; [unfold prefixed_root; uniform_tac|]. split.
  - intros (p & U & V). exfalso. revert V. revert p U. refine (all_used _ (fun p => prefix_value p = Some (lit "xml") -> False) _). unfold prefixes; cbn [flatten flat_map app map fst snd elem at_ a_prefix prefixed_root]; each_in; intros V; vm_compute in V; discriminate V.
  - split; [vm_compute; reflexivity|]. intros W. eapply all_root in W; [|reflexivity]. destruct W as (_ & W).
    eapply (W (mkAttr _ _ _)); [|split; [|split]]; [left; reflexivity|vm_compute; reflexivity..].
Qed.

Definition rebound_attr : tree := elem svg_uri None "svg" [] [elem svg_uri None "g" [at_ (lit "u1") (Some "a"%string) "x" "1"] []; elem svg_uri None "g" [at_ (lit "u2") (Some "a"%string) "x" "1"] []].
Definition rebound : tree := elem svg_uri None "svg" [] [elem (lit "u1") (Some "a"%string) "x" [] []; elem (lit "u2") (Some "a"%string) "x" [] []].
Lemma rebound_attr_bad : exists t t', from_parser t /\ root_plain t /\ xml_at_root t /\ build t = Some t' /\ ~ all_well_formed t'.
Proof.
  exists rebound_attr. eexists. split; [unfold rebound_attr; from_parser_tac|]. split; [vm_compute; reflexivity|]. split.
  - intros (p & U & V). exfalso. revert V. revert p U. refine (all_used _ (fun p => prefix_value p = Some (lit "xml") -> False) _). unfold prefixes; cbn [flatten flat_map app map fst snd elem at_ a_prefix rebound_attr]; each_in; intros V; vm_compute in V; discriminate V.
  - split; [vm_compute; reflexivity|]. intros W. eapply all_root in W; [|reflexivity]. revert W. apply dup_not_well.
    eexists. split; [right; left; reflexivity|]. exists 1, 2. split; [discriminate|]. split; vm_compute; reflexivity.
Qed.

Lemma rebound_bad : exists t t', from_parser t /\ root_plain t /\ xml_at_root t /\ build t = Some t' /\ ~ resolved [] t'.
Proof.
  exists rebound. eexists. split; [unfold rebound; from_parser_tac|]. split; [vm_compute; reflexivity|]. split.
  - intros (p & U & V). exfalso. revert V. revert p U. refine (all_used _ (fun p => prefix_value p = Some (lit "xml") -> False) _). unfold prefixes; cbn [flatten flat_map app map fst snd elem at_ a_prefix rebound]; each_in; intros V; vm_compute in V; discriminate V.
  - split; [vm_compute; reflexivity|]. intros R. inversion R as [env p l attrs kids Rp Ra Rk]; subst. inversion Rk as [|k ks R1 R2]; subst. inversion R1 as [env p l attrs kids Rp' Ra' Rk']; subst.
    clear - Rp'. cbn in Rp'. inversion Rp' as [env E|a attrs env p uri I1 D1 D2|attrs env p uri D1 R]; subst; [destruct I1|].
    inversion R as [env E|a attrs env p uri I1 D D2|attrs env p uri D R']; subst.
    + destruct I1 as [<- |[<- |[]]]; destruct D as (E1 & E2 & E3); vm_compute in E1, E2, E3; discriminate.
    + inversion R'.
Qed.
Definition no_namespace : tree := elem [] None "svg" [] [].
Lemma becomes_svg : exists t t' p l attrs kids, from_parser t /\ t = elem [] None "svg" [] [] /\ build t = Some t' /\ t' = Node p l attrs kids /\ resolves [attrs] (prefix_value p) svg_uri.
Proof.
  exists no_namespace. do 5 eexists. split; [unfold no_namespace; from_parser_tac|]. split; [reflexivity|]. split; [vm_compute; reflexivity|]. split; [reflexivity|].
  cbn. eapply resolves_here; [left; reflexivity|split; [reflexivity|split; vm_compute; reflexivity]|]. intros b u [<- |[]] (_ & _ & E). symmetry. exact E.
Qed.
