From Coq Require Import String List NArith Bool Lia.
From Verif Require Import Chars NameModel AttrTable ElemModel ElemSpec ElemProofs TextModel TextSpec TextProofs ScriptModel ScriptSpec ScriptProofs.
Import ListNotations.

Section SrcInd.
  Variable P : src -> Prop.
  Hypothesis Hel : forall n df attrs kids, Forall P kids -> P (SEl n df attrs kids).
  Hypothesis Hother : P SOther.
  Fixpoint src_ind' (d : src) : P d :=
    match d with
    | SEl n df attrs kids => Hel n df attrs kids ((fix go l : Forall P l := match l with [] => Forall_nil P | k :: l => Forall_cons k (src_ind' k) (go l) end) kids)
    | SOther => Hother
    end.
End SrcInd.

Definition read_attrs (n : sname) (df : text) (attrs : list (sname * text)) : list (attr_id * text) :=
  map (fun a => (attr_of df (elem_of n) (fst a), snd a)) attrs.
Lemma walk_elem e attrs kids : walk (Elem e attrs kids) = orelse (check e attrs) (fold_right (fun k r => orelse (walk k) r) None kids).
Proof. cbn [walk]. f_equal. Qed.
Lemma orelse_none a b : orelse a b = None <-> a = None /\ b = None.
Proof. destruct a; cbn; split; intros H; [discriminate|destruct H; discriminate|auto|tauto]. Qed.
Lemma orelse_some a b p : orelse a b = Some p -> a = Some p \/ (a = None /\ b = Some p).
Proof. destruct a; cbn; auto. Qed.

Lemma walk_none d : walk (read d) = None <-> forall n df attrs, within d n df attrs -> check (elem_of n) (read_attrs n df attrs) = None.
Proof.
  induction d as [n df attrs kids IH|] using src_ind'.
  - cbn [read]. rewrite walk_elem, orelse_none. split.
    + intros [H1 H2] m df' b W. inversion W; subst; [exact H1|]. clear W H1. induction kids as [|k' kids IHk]; [contradiction|].
      cbn in H2. apply orelse_none in H2. destruct H2 as [H2 H2']. inversion IH as [|? ? IHa IHb]; subst. match goal with H : In _ (_ :: _) |- _ => destruct H as [->|H]; [eapply IHa; eassumption|] end.
      apply IHk; assumption.
    + intros H. split; [apply (H n df attrs); constructor|]. assert (H' : forall k, In k kids -> walk (read k) = None).
      { intros k Hk. apply (proj1 (Forall_forall _ _) IH k Hk). intros m df' b W. apply H. econstructor; eassumption. }
      clear H IH. induction kids as [|k kids IHk]; [reflexivity|]. cbn. rewrite H' by (left; reflexivity). cbn. apply IHk. intros; apply H'; right; assumption.
  - split; [|reflexivity]. intros _ n df attrs W. inversion W.
Qed.
Lemma walk_some d p : walk (read d) = Some p -> exists n df attrs, within d n df attrs /\ check (elem_of n) (read_attrs n df attrs) = Some p.
Proof.
  induction d as [n df attrs kids IH|] using src_ind'; [|discriminate].
  cbn [read]. rewrite walk_elem. intros H. apply orelse_some in H. destruct H as [H|[_ H]]; [exists n, df, attrs; split; [constructor|exact H]|].
  assert (E : exists k, In k kids /\ walk (read k) = Some p).
  { clear IH. induction kids as [|k kids IHk]; [discriminate|]. cbn in H. apply orelse_some in H. destruct H as [H|[_ H]]; [exists k; split; [left; reflexivity|exact H]|].
    destruct (IHk H) as (k' & Hk & E). exists k'. split; [right; exact Hk|exact E]. }
  destruct E as (k & Hk & E). destruct (proj1 (Forall_forall _ _) IH k Hk E) as (m & df' & b & W & C). exists m, df', b. split; [econstructor; eassumption|exact C].
Qed.

Lemma attr_of_id df n a : bound a -> df = [] \/ df = svg_space -> attr_of df (elem_of n) a = attr_id_of n a.
Proof. intros B D. unfold attr_of, attr_id_of. rewrite resolved_prefix by assumption. reflexivity. Qed.
Definition all_bound (attrs : list (sname * text)) : Prop := forall a v, In (a, v) attrs -> bound a.
Lemma read_attrs_eq n df attrs : all_bound attrs -> df = [] \/ df = svg_space -> read_attrs n df attrs = map (fun a => (attr_id_of n (fst a), snd a)) attrs.
Proof. intros B D. apply map_ext_in. intros [a v] H. cbn. rewrite attr_of_id; [reflexivity|eapply B, H|exact D]. Qed.
Lemma existsb_read n attrs f : existsb f (map (fun a : sname * text => (attr_id_of n (fst a), snd a)) attrs) = true <->
  exists a v, In (a, v) attrs /\ f (attr_id_of n a, v) = true.
Proof.
  rewrite existsb_exists. split.
  - intros (x & Hx & E). apply in_map_iff in Hx. destruct Hx as ([a v] & <- & Hin). exists a, v. auto.
  - intros (a & v & Hin & E). exists (attr_id_of n a, v). split; [|exact E]. apply in_map_iff. exists (a, v). auto.
Qed.

Lemma if_none (b : bool) (p : problem) : (if b then Some p else None) = None <-> b = false.
Proof. destruct b; split; congruence. Qed.
Lemma not_true_iff b : b = false <-> ~ b = true.
Proof. destruct b; split; congruence. Qed.
Lemma named_cons n x l : svg_named n (x :: l) <-> svg_named n [x] \/ svg_named n l.
Proof. unfold svg_named. cbn [map In]. tauto. Qed.
Lemma check_element_none n : bound n -> check_element (elem_of n) = None <-> ~ svg_named n ("script"%string :: animations).
Proof.
  intros B. rewrite named_cons, <- (elem_of_is n _ _ B names_script), <- (elem_of_is n _ _ B names_animations). unfold check_element. cbn [existsb].
  rewrite orb_false_r. destruct (elem_is (elem_of n) (lit "Script")); [split; [discriminate|intros H; exfalso; apply H; auto]|].
  rewrite if_none, not_true_iff. split; [intros H [H1|H1]; [discriminate|]; auto|]. intros H H1. apply H. right. exact H1.
Qed.
Lemma check_element_some n p : bound n -> check_element (elem_of n) = Some p ->
  (p = Scripting /\ svg_named n ["script"%string]) \/ (p = Animation /\ svg_named n animations).
Proof.
  intros B. rewrite <- (elem_of_is n _ _ B names_script), <- (elem_of_is n _ _ B names_animations). unfold check_element. cbn [existsb].
  rewrite orb_false_r. destruct (elem_is (elem_of n) (lit "Script")); [intros [= <-]; auto|].
  destruct (_ || _) eqn:E; [|discriminate]. intros [= <-]. auto.
Qed.
Lemma get_known_some id attrs v : get_known id attrs = Some v -> exists i, In (i, v) attrs /\ match id_unaliased i with BKnown k => text_eqb (kind_id k) id | BUnknown _ => false end = true.
Proof. unfold get_known. destruct (find _ attrs) as [[i w]|] eqn:F; [|discriminate]. intros [= <-]. apply find_some in F. exists i. exact F. Qed.
Lemma get_known_none id attrs : get_known id attrs = None <-> forall i v, In (i, v) attrs -> match id_unaliased i with BKnown k => text_eqb (kind_id k) id | BUnknown _ => false end = false.
Proof.
  unfold get_known. split.
  - destruct (find _ attrs) eqn:F; [discriminate|]. intros _ i v H. apply (find_none _ _ F (i, v) H).
  - intros H. destruct (find _ attrs) as [[i w]|] eqn:F; [|reflexivity]. apply find_some in F. destruct F as [F1 F2]. cbn in F2. rewrite (H _ _ F1) in F2. discriminate.
Qed.

Lemma check_plain n df attrs : bound n -> all_bound attrs -> df = [] \/ df = svg_space ->
  check (elem_of n) (read_attrs n df attrs) = None <-> plain_element n attrs.
Proof.
  intros B BA D. rewrite read_attrs_eq by assumption. unfold check. rewrite !orelse_none, (check_element_none n B). unfold plain_element.
  unfold check_events, check_conditional, check_xlink. rewrite !if_none.
  rewrite (not_true_iff (existsb (fun a => is_event (fst a)) _)), existsb_read.
  rewrite (not_true_iff (existsb (fun a => contains _ _ && _) _)), existsb_read.
  destruct (existsb (fun i => elem_is (elem_of n) (lit i)) ["A"; "Image"; "FontFaceURI"; "FeImage"]%string) eqn:L.
  - apply (elem_of_is n _ _ B names_links) in L. split.
    + intros (H1 & H2 & H3 & _). split; [exact H1|]. intros a v Hin. pose proof (BA _ _ Hin) as Ba. split; [|split; [|intros _; exact L]].
      * rewrite takes_events by exact Ba. intros E. apply H2. exists a, v. auto.
      * rewrite takes_conditions by exact Ba. intros E. destruct v as [|c v]; [reflexivity|]. exfalso. apply H3. exists a, (c :: v). split; [exact Hin|]. cbn. rewrite E. reflexivity.
    + intros [H1 H]. split; [exact H1|]. split; [|split; [|reflexivity]].
      * intros (a & v & Hin & E). pose proof (BA _ _ Hin) as Ba. apply (takes_events n a Ba) in E. apply (H a v Hin). exact E.
      * intros (a & v & Hin & E). pose proof (BA _ _ Hin) as Ba. cbn in E. apply andb_true_iff in E. destruct E as [E1 E2].
        apply (takes_conditions n a Ba) in E1. destruct (H a v Hin) as (_ & H' & _). rewrite (H' E1) in E2. discriminate.
  - assert (L' : ~ svg_named n ["a"; "image"; "font-face-uri"; "feImage"]%string).
    { intros X. apply (elem_of_is n _ _ B names_links) in X. congruence. }
    assert (G : match get_known (lit "XLinkHref") (map (fun a : sname * text => (attr_id_of n (fst a), snd a)) attrs) with Some v => Some (External v) | None => None end = None
      <-> get_known (lit "XLinkHref") (map (fun a : sname * text => (attr_id_of n (fst a), snd a)) attrs) = None) by (destruct (get_known _ _); split; congruence).
    rewrite G, get_known_none. split.
    + intros (H1 & H2 & H3 & H4). split; [exact H1|]. intros a v Hin. pose proof (BA _ _ Hin) as Ba. split; [|split].
      * rewrite takes_events by exact Ba. intros E. apply H2. exists a, v. auto.
      * rewrite takes_conditions by exact Ba. intros E. destruct v as [|c v]; [reflexivity|]. exfalso. apply H3. exists a, (c :: v). split; [exact Hin|]. cbn. rewrite E. reflexivity.
      * rewrite takes_xlink by exact Ba. intros E. exfalso. rewrite (H4 (attr_id_of n a) v) in E; [discriminate|]. apply in_map_iff. exists (a, v). auto.
    + intros [H1 H]. split; [exact H1|]. split; [|split].
      * intros (a & v & Hin & E). pose proof (BA _ _ Hin) as Ba. apply (takes_events n a Ba) in E. apply (H a v Hin). exact E.
      * intros (a & v & Hin & E). pose proof (BA _ _ Hin) as Ba. cbn in E. apply andb_true_iff in E. destruct E as [E1 E2].
        apply (takes_conditions n a Ba) in E1. destruct (H a v Hin) as (_ & H' & _). rewrite (H' E1) in E2. discriminate.
      * intros i v Hin. apply in_map_iff in Hin. destruct Hin as ([a w] & E & Hin). injection E as <- <-. cbn. pose proof (BA _ _ Hin) as Ba.
        apply not_true_iff. intros X. apply (takes_xlink n a Ba) in X. destruct (H a w Hin) as (_ & _ & H'). apply L', H', X.
Qed.
Lemma accepted_iff ff d : well d -> usual d -> precheck ff true (read d) = None <-> plain_document d.
Proof.
  intros W U. cbn [precheck]. rewrite walk_none. unfold plain_document.
  split; intros H n df attrs Hw; destruct (W _ _ _ Hw) as [B BA]; apply (check_plain n df attrs B BA (U _ _ _ Hw)); apply H with (1 := Hw).
Qed.

Lemma reported ff d p : well d -> usual d -> precheck ff true (read d) = Some p -> shows d p.
Proof.
  intros W U H. cbn [precheck] in H. apply walk_some in H. destruct H as (n & df & attrs & Hw & H). exists n, df, attrs. split; [exact Hw|].
  destruct (W _ _ _ Hw) as [B BA]. pose proof (U _ _ _ Hw) as D. rewrite read_attrs_eq in H by assumption. unfold check in H.
  apply orelse_some in H. destruct H as [H|[_ H]].
  - apply check_element_some in H; [|exact B]. destruct H as [[-> H]|[-> H]]; [left|]; exact H.
  - apply orelse_some in H. destruct H as [H|[_ H]].
    + unfold check_events in H. destruct (existsb _ _) eqn:E; [|discriminate]. injection H as <-. apply existsb_read in E.
      destruct E as (a & v & Hin & E). right. exists a, v. split; [exact Hin|]. apply (takes_events n a (BA _ _ Hin)). exact E.
    + apply orelse_some in H. destruct H as [H|[_ H]].
      * unfold check_conditional in H. destruct (existsb _ _) eqn:E; [|discriminate]. injection H as <-. apply existsb_read in E.
        destruct E as (a & v & Hin & E). cbn in E. apply andb_true_iff in E. destruct E as [E1 E2]. exists a, v. split; [exact Hin|].
        split; [apply (takes_conditions n a (BA _ _ Hin)); exact E1|]. intros ->. discriminate.
      * unfold check_xlink in H. destruct (existsb _ _) eqn:L; [discriminate|]. destruct (get_known _ _) as [v|] eqn:G; [|discriminate]. injection H as <-.
        apply get_known_some in G. destruct G as (i & Hin & E). apply in_map_iff in Hin. destruct Hin as ([a w] & E' & Hin). injection E' as <- <-.
        split; [intros X; apply (elem_of_is n _ _ B names_links) in X; congruence|]. exists a. split; [exact Hin|]. apply (takes_xlink n a (BA _ _ Hin)). exact E.
Qed.

(** [has_scripts]. *)
Lemma starts_with_iff p s : starts_with p s = true <-> exists r, s = p ++ r.
Proof.
  unfold starts_with. split.
  - destruct (strip_prefix p s) as [r|] eqn:E; [|discriminate]. intros _. exists r. apply strip_prefix_spec. exact E.
  - intros (r & E). apply strip_prefix_spec in E. rewrite E. reflexivity.
Qed.
Lemma trim_white w s : Forall (fun c => is_whitespace c = true) w -> trim_start (w ++ s) = trim_start s.
Proof. induction 1 as [|c w Hc _ IH]; [reflexivity|]. cbn. rewrite Hc. exact IH. Qed.
Lemma script_url_iff v : starts_with (lit "javascript:") (trim_start v) = true <-> script_url v.
Proof.
  rewrite starts_with_iff. split.
  - intros (r & E). destruct (trim_start_app v) as (w & Ev & Hw). exists w, r. split; [|exact Hw]. rewrite <- E. exact Ev.
  - intros (w & r & -> & Hw). exists r. rewrite trim_white by exact Hw. reflexivity.
Qed.
Lemma base_of_plain n a : bound a -> s_prefix a = None -> takes n a svg_space ["href"%string] -> exists k, attr_id_of n a = ABase (BKnown k) /\ text_eqb (kind_id k) (lit "Href") = true.
Proof.
  intros B P H. pose proof H as H'. change svg_space with (known_uri SVG) in H, H'. apply (takes_test _ _ _ _ _ B names_href) in H.
  destruct H' as (Hs & _). symmetry in Hs. apply (ns_of_space a B) in Hs. unfold attr_id_of in *. rewrite P in *.
  destruct (parse_cases (elem_of n) (prefix_new (s_uri a) None) (s_local a)) as [(k & E & M & _)|E]; rewrite E in *; [|discriminate].
  assert (A : is_aliased (prefix_new (s_uri a) None) = false).
  { destruct (prefix_new_ns _ _ _ Hs) as [<-|(-> & _)]; reflexivity. }
  unfold recognised in *. rewrite A in *. exists k. split; [reflexivity|]. exact H.
Qed.
Lemma base_plain n a k : bound a -> attr_id_of n a = ABase (BKnown k) -> kind_prefix k = SVG -> s_prefix a = None.
Proof.
  intros B E K. unfold attr_id_of in E. destruct (parse_cases (elem_of n) (prefix_new (s_uri a) (s_prefix a)) (s_local a)) as [(k' & E' & M & _)|E']; rewrite E' in E; [|discriminate].
  unfold recognised in E. destruct (is_aliased _) eqn:A; [discriminate|]. injection E as ->. apply matches_ns in M. destruct M as [M _]. rewrite K in M.
  destruct (prefix_new_shape _ _ _ M) as [X|X]; rewrite X in A; [|discriminate].
  unfold prefix_new in X. destruct (find (fun j => _ && _) all_known) as [j|] eqn:F.
  - injection X as ->. apply find_some in F. destruct F as [_ F]. apply andb_true_iff in F. destruct F as [_ F]. destruct (s_prefix a); [discriminate|reflexivity].
  - destruct (find (fun j => text_eqb (known_uri j) (s_uri a)) all_known); [discriminate|]. destruct (s_uri a); [|discriminate]. destruct (s_prefix a); [discriminate|reflexivity].
Qed.
Lemma a_takes_href n : bound n -> svg_named n ["a"%string] -> forall a, bound a -> space a = svg_space -> s_local a = lit "href" -> takes n a svg_space ["href"%string].
Proof.
  intros Bn N a Ba Ha Hl. split; [exact Ha|]. split; [rewrite Hl; left; reflexivity|]. exists (mkKind (lit "Href") SVG (lit "href")). split; [|split].
  - assert (T : existsb (fun k => text_eqb (kind_id k) (lit "Href") && known_eqb (kind_prefix k) SVG && text_eqb (kind_local k) (lit "href")) attr_table = true) by (vm_compute; reflexivity).
    apply existsb_exists in T. destruct T as ([i p l] & Hin & E). cbn [kind_id kind_prefix kind_local] in E. apply andb_true_iff in E. destruct E as [E E3]. apply andb_true_iff in E. destruct E as [E1 E2].
    apply text_eqb_spec in E1, E3. apply known_eqb_true in E2. subst. exact Hin.
  - split; [reflexivity|]. rewrite Hl. reflexivity.
  - left. cbn [kind_id]. apply (elem_of_is n _ _ Bn names_a) in N. cbn [existsb] in N. rewrite orb_false_r in N.
    assert (T : forallb (fun k => if text_eqb (e_id k) (lit "A") then existsb (text_eqb (lit "Href")) (e_attrs k) else true) elem_table = true) by (vm_compute; reflexivity).
    unfold elem_of, elem_new in *. destruct (match prefix_unaliased _ with PKnown SVG => _ | _ => _ end) as [k|] eqn:F; [|discriminate].
    assert (Hin : In k elem_table). { destruct (prefix_unaliased _) as [[]| |]; try discriminate. apply find_some in F. tauto. }
    pose proof (proj1 (forallb_forall _ _) T _ Hin) as E. cbv beta in E.
    destruct (is_aliased _); cbn [elem_is elem_attrs] in *; rewrite N in E; apply existsb_exists in E; destruct E as (i & Hi & E); apply text_eqb_spec in E; rewrite E; exact Hi.
Qed.
Lemma href_not_event : forallb (fun k => negb (text_eqb (kind_id k) (lit "Href") && intersects (kind_groups k) g_event)) attr_table = true.
Proof. vm_compute. reflexivity. Qed.
Lemma script_attr_iff n a v : bound n -> bound a -> script_attr (elem_of n) (attr_id_of n a, v) = true <->
  takes n a svg_space events \/ (plain_prefix a /\ svg_named n ["a"%string] /\ space a = svg_space /\ s_local a = lit "href" /\ script_url v).
Proof.
  intros Bn Ba. rewrite takes_events by exact Ba. unfold script_attr. cbn [fst snd].
  assert (Hhref : (exists k, attr_id_of n a = ABase (BKnown k) /\ text_eqb (kind_id k) (lit "Href") = true) \/
    (forall X : Type, forall (x y : base_id -> X), True) /\ (match attr_id_of n a with ABase (BKnown k) => if text_eqb (kind_id k) (lit "Href") then false else is_event (attr_id_of n a) | _ => is_event (attr_id_of n a) end = is_event (attr_id_of n a) /\
     ~ exists k, attr_id_of n a = ABase (BKnown k) /\ text_eqb (kind_id k) (lit "Href") = true)).
  { destruct (attr_id_of n a) as [[k|q]|p b].
    - destruct (text_eqb (kind_id k) (lit "Href")) eqn:E; [left; exists k; auto|]. right. split; [auto|]. split; [reflexivity|]. intros (k' & [= <-] & X). congruence.
    - right. split; [auto|]. split; [reflexivity|]. intros (k' & X & _). discriminate.
    - right. split; [auto|]. split; [reflexivity|]. intros (k' & X & _). discriminate. }
  destruct Hhref as [(k & E & K)|(_ & E & K)].
  - rewrite E, K. assert (Hk : In k attr_table /\ kind_prefix k = SVG /\ kind_local k = lit "href" /\ space a = svg_space /\ s_local a = lit "href").
    { pose proof (takes_test n a _ _ _ Ba names_href) as T. rewrite E in T. cbn [id_unaliased] in T. apply T in K. pose proof K as K'.
      apply (takes_known _ _ _ _ Ba) in K. rewrite E in K. destruct K as (k' & [= <-] & Hin & HK & Hl). destruct Hl as [Hl|[]]. destruct K' as (K1 & K2 & _). destruct K2 as [K2|[]].
      rewrite <- Hl, <- K2. auto. }
    destruct Hk as (Hin & HK & HL & Hs & Hl).
    assert (Ev : is_event (ABase (BKnown k)) = false).
    { pose proof (proj1 (forallb_forall _ _) href_not_event _ Hin) as T. cbv beta in T. rewrite K in T. apply negb_true_iff in T. exact T. }
    rewrite Ev, andb_true_iff, script_url_iff. split.
    + intros [H1 H2]. right. split; [eapply base_plain; eassumption|]. split; [|auto]. apply (elem_of_is n _ _ Bn names_a). cbn [existsb]. rewrite H1. reflexivity.
    + intros [H|(H1 & H2 & _ & _ & H3)]; [discriminate|]. split; [|exact H3]. apply (elem_of_is n _ _ Bn names_a) in H2. cbn [existsb] in H2. rewrite orb_false_r in H2. exact H2.
  - split.
    + intros H. left. destruct (attr_id_of n a) as [[k|q]|p b]; try exact H. destruct (text_eqb (kind_id k) (lit "Href")) eqn:X; [|exact H]. exfalso. apply K. exists k. auto.
    + intros [H|(H1 & H2 & H3 & H4 & _)].
      * destruct (attr_id_of n a) as [[k|q]|p b]; try exact H. destruct (text_eqb (kind_id k) (lit "Href")) eqn:X; [|exact H]. exfalso. apply K. exists k. auto.
      * exfalso. apply K. apply base_of_plain; [exact Ba|exact H1|]. apply a_takes_href; assumption.
Qed.
Lemma has_scripts_elems d : has_scripts (read d) = true <-> exists n df attrs, within d n df attrs /\
  (elem_is (elem_of n) (lit "Script") || existsb (script_attr (elem_of n)) (read_attrs n df attrs)) = true.
Proof.
  induction d as [n df attrs kids IH|] using src_ind'.
  - cbn [read has_scripts]. rewrite orb_true_iff. split.
    + intros [H|H]; [exists n, df, attrs; split; [constructor|exact H]|]. apply existsb_exists in H. destruct H as (x & Hx & H).
      apply in_map_iff in Hx. destruct Hx as (k & <- & Hk). apply (proj1 (Forall_forall _ _) IH k Hk) in H. destruct H as (m & df' & b & W & H).
      exists m, df', b. split; [econstructor; eassumption|exact H].
    + intros (m & df' & b & W & H). inversion W; subst; [left; exact H|]. right. apply existsb_exists. exists (read k). split; [apply in_map; assumption|].
      eapply (proj1 (Forall_forall _ _) IH); [eassumption|]. exists m, df', b. auto.
  - split; [discriminate|]. intros (n & df & attrs & W & _). inversion W.
Qed.
Lemma has_scripts_iff d : well d -> usual d -> has_scripts (read d) = true <-> scripted d.
Proof.
  intros W U. rewrite has_scripts_elems. unfold scripted.
  assert (E : forall n df attrs, within d n df attrs -> (elem_is (elem_of n) (lit "Script") || existsb (script_attr (elem_of n)) (read_attrs n df attrs)) = true <->
    (svg_named n ["script"%string] \/ exists a v, In (a, v) attrs /\
     (takes n a svg_space events \/ (plain_prefix a /\ svg_named n ["a"%string] /\ space a = svg_space /\ s_local a = lit "href" /\ script_url v)))).
  { intros n df attrs Hw. destruct (W _ _ _ Hw) as [B BA]. rewrite read_attrs_eq by (assumption || exact (U _ _ _ Hw)). rewrite orb_true_iff, existsb_read.
    rewrite <- (elem_of_is n _ _ B names_script). cbn [existsb]. rewrite orb_false_r.
    split; (intros [H|(a & v & Hin & H)]; [left; exact H|right; exists a, v; split; [exact Hin|]; apply (script_attr_iff n a v B (BA _ _ Hin)); exact H]). }
  split; intros (n & df & attrs & Hw & H); exists n, df, attrs; (split; [exact Hw|]); apply (E n df attrs Hw); exact H.
Qed.
Lemma precheck_off ff ff' n : precheck ff false n = None /\ forall on, precheck ff on n = precheck ff' on n.
Proof. split; reflexivity. Qed.
