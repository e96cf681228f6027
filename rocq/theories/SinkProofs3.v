From Coq Require Import String List NArith Bool Lia Permutation Arith.
From Verif Require Import Chars NameModel SinkModel SinkSpec SinkProofs SinkProofs2.
Import ListNotations.

Lemma nodup_app {A} (l m : list A) : NoDup l -> NoDup m -> (forall x, In x l -> ~ In x m) -> NoDup (l ++ m).
Proof.
  intros L M D. induction L as [|x l Hx L IH]; [exact M|]. cbn [app]. constructor.
  - intros C. apply in_app_or in C. destruct C as [C|C]; [contradiction|]. apply (D x (or_introl eq_refl) C).
  - apply IH. intros y Hy. apply D. right. exact Hy.
Qed.
Lemma inside_cases p l r ks q b : inside (Node p l r ks) q b -> (q = p /\ b = r) \/ exists k, In k ks /\ inside k q b.
Proof. intros H. inversion H as [? ? ? ?|? ? ? ? k ? ? Hk Hik]; subst; [left; split; reflexivity|right; exists k; split; assumption]. Qed.
Section Root.
  Variable local : text.
  Variable attrs0 : list attr.
  Variable kids : list tree.
  Let t := Node (PKnown SVG) local attrs0 kids.
  Hypothesis FP : from_parser t.
  Hypothesis U : uniform t.
  Hypothesis X : xml_at_root t.
  Let Root : inside t (PKnown SVG) attrs0 := inside_here _ _ _ _.

  Lemma start : minv t [(None, known_uri SVG)] [].
  Proof.
    constructor; [constructor|intros q u []| |reflexivity|]; [|intros u C; vm_compute in C; discriminate].
    intros q u _. rewrite get_other by discriminate. split; [intros C; discriminate|intros []].
  Qed.
  Lemma root_ok : exists m root ds, add_to_root (PKnown SVG) attrs0 = Some (m, root) /\ minv t m ds /\ rinv attrs0 root ds /\ Forall (fun a => covered m (a_prefix a)) attrs0.
  Proof.
    unfold add_to_root. change (find_new_xmlns [] (PKnown SVG)) with ([(@None text, known_uri SVG)], Some default). cbv beta iota. change (prefix_is_empty (a_prefix default)) with true. cbv beta iota.
    destruct (inside_fine t FP U (PKnown SVG) attrs0 Root) as (_ & _ & F). destruct (collect_ok t FP U attrs0 _ _ start F) as (m' & new & nd & E & D & I' & Mo & Co & X1 & X2 & X3).
    assert (E' : collect [(None, known_uri SVG)] (default :: attrs0) = (m', new)).
    { cbn [collect]. change (find_new_xmlns [(None, known_uri SVG)] (a_prefix default)) with ([(@None text, known_uri SVG)], @None attr). cbv beta iota. rewrite E. reflexivity. }
    rewrite E'. assert (R : rinv attrs0 (default :: attrs0) []).
    { constructor; [exists attrs0; reflexivity|apply only_add; [apply first_decl|apply only_refl]|reflexivity]. }
    destruct (add_decls attrs0 (default :: attrs0) [] nd new R D (new_decls _ [] attrs0 m' new nd E)) as (root' & Ei & R').
    { cbn [List.length]. destruct (count_xml new) as [|n] eqn:C; [lia|]. assert (N : attrs0 <> []) by (apply X3; discriminate). destruct attrs0; [contradiction|]. cbn [List.length]. lia. }
    rewrite Ei. exists m', root', (nd ++ []). split; [reflexivity|]. split; [exact I'|]. split; [exact R'|]. apply Forall_forall. intros a Ha q Hq. apply (Co a q Ha Hq).
  Qed.
  Lemma build_ok : exists m root ds, build t = Some (Node (PKnown SVG) local root kids) /\ minv t m ds /\ rinv attrs0 root ds /\ covers m t.
  Proof.
    destruct root_ok as (m & root & ds & E & I & R & C). unfold build, t. rewrite E.
    assert (S : Forall (subtree t) kids) by (apply (sub_kids t (PKnown SVG) local attrs0 kids); intros p b H; exact H).
    destruct (list_ok t attrs0 kids (proj2 (Forall_forall _ _) (fun k _ => tree_ok t FP U attrs0 (PKnown SVG) Root k)) S m root ds I R) as (m' & root' & ds' & E' & I' & R' & G & C').
    - intros H. apply X in H. destruct H as (a & Ha & V). rewrite Forall_forall in C. apply (C a Ha _ V).
    - rewrite E'. exists m', root', ds'. split; [reflexivity|]. split; [exact I'|]. split; [exact R'|]. apply covers_node; [intros q Hq; discriminate| |exact C']. apply Forall_impl with (2 := C). intros a Ha q Hq. apply G, Ha, Hq.
  Qed.
  (** ** What the declarations at the root mean *)
  Section Resolve.
    Variable m : nmap.
    Variable root : list attr.
    Variable ds : list (text * text).
    Hypothesis I : minv t m ds.
    Hypothesis R : rinv attrs0 root ds.
    Hypothesis C : covers m t.
    Lemma undeclared p attrs : inside t p attrs -> Forall (fun a => ~ is_declaration a) attrs.
    Proof. destruct FP as (_ & F2 & _). apply F2. Qed.
    Lemma in_root a : In a root -> a = default \/ In a (decls ds) \/ In a attrs0.
    Proof. intros H. apply (Permutation_in a (r_perm attrs0 root ds R)) in H. destruct H as [H|H]; [left; symmetry; exact H|]. apply in_app_or in H. right. exact H. Qed.
    Lemma root_declares a q u : In a root -> declares a (Some q) u -> In (q, u) ds.
    Proof.
      intros H D. destruct (in_root a H) as [-> |[Hd|Ha]].
      - destruct D as (D & _). discriminate.
      - unfold decls in Hd. apply in_map_iff in Hd. destruct Hd as ([q' u'] & <- & Hd). destruct D as (_ & D1 & D2). cbn in D1, D2. subst. exact Hd.
      - exfalso. assert (F := undeclared _ _ Root). rewrite Forall_forall in F. apply (F a Ha). exists (Some q), u. exact D.
    Qed.
    Lemma root_default a u : In a root -> declares a None u -> u = known_uri SVG.
    Proof.
      intros H D. destruct (in_root a H) as [-> |[Hd|Ha]].
      - destruct D as (_ & _ & D). symmetry. exact D.
      - unfold decls in Hd. apply in_map_iff in Hd. destruct Hd as ([q' u'] & <- & Hd). destruct D as (D & _). discriminate.
      - exfalso. assert (F := undeclared _ _ Root). rewrite Forall_forall in F. apply (F a Ha). exists None, u. exact D.
    Qed.
    Lemma declared_in q u : In (q, u) ds -> In (declaration (Some q) u) root.
    Proof. intros H. apply (Permutation_in _ (Permutation_sym (r_perm attrs0 root ds R))). right. apply in_or_app. left. unfold decls. apply in_map_iff. exists (q, u). split; [reflexivity|exact H]. Qed.
    Lemma ds_unique q u u' : In (q, u) ds -> In (q, u') ds -> u = u'.
    Proof.
      intros H H'. destruct (m_used t m ds I q u H) as (Nq & _). apply (m_map t m ds I q u Nq) in H. apply (m_map t m ds I q u' Nq) in H'. congruence.
    Qed.
    Lemma resolve_root p : used t p -> (prefix_value p = None -> p = PKnown SVG) -> resolves [root] (prefix_value p) (uri_of p).
    Proof.
      intros Up Np. destruct (prefix_value p) as [q|] eqn:V.
      - destruct (text_dec q xml) as [-> |Nq].
        + destruct FP as (_ & _ & _ & _ & F5). destruct (F5 p Up) as (_ & _ & Hx). rewrite (proj1 Hx V). apply resolves_xml.
        + assert (Hm := C p Up q V). destruct (map_get m (Some q)) as [u|] eqn:G; [|contradiction]. apply (m_map t m ds I q u Nq) in G. destruct (m_used t m ds I q u G) as (_ & p' & Up' & V' & Eu).
          assert (Ep : uri_of p = u) by (rewrite <- Eu; apply (proj1 U p p' Up Up'); rewrite V, V'; reflexivity). rewrite Ep.
          apply (resolves_here (declaration (Some q) u)); [apply declared_in, G|repeat split|]. intros b u' Hb Db. apply (ds_unique q u' u); [apply (root_declares b q u' Hb Db)|exact G].
      - rewrite (Np eq_refl). apply (resolves_here default).
        + destruct (r_first attrs0 root ds R) as [rest ->]. left. reflexivity.
        + repeat split.
        + intros b u Hb Db. apply (root_default b u Hb Db).
    Qed.
    Lemma resolve_deep env p u : Forall (fun attrs => Forall (fun a => ~ is_declaration a) attrs) env -> resolves [root] p u -> resolves (env ++ [root]) p u.
    Proof.
      intros F H. induction F as [|attrs env A F IH]; [exact H|]. cbn [app]. apply resolves_out; [|exact IH]. intros b u' Hb Db. rewrite Forall_forall in A. apply (A b Hb). exists p, u'. exact Db.
    Qed.
    Lemma resolved_sub s : subtree t s -> forall env, Forall (fun attrs => Forall (fun a => ~ is_declaration a) attrs) env -> resolved (env ++ [root]) s.
    Proof.
      induction s as [p l attrs ks IH] using tree_ind2. intros S env F. assert (Hi := S p attrs (inside_here p l attrs ks)). assert (F' : Forall (fun attrs => Forall (fun a => ~ is_declaration a) attrs) (attrs :: env)) by (constructor; [apply (undeclared p attrs Hi)|exact F]).
      destruct (inside_fine t FP U p attrs Hi) as (Up & Np & Fa). constructor.
      - apply (resolve_deep (attrs :: env)); [exact F'|]. apply resolve_root; assumption.
      - apply Forall_impl with (2 := Fa). intros a [Ua Na]. destruct (prefix_value (a_prefix a)) as [q|] eqn:V; [|right; left; reflexivity]. right. right. rewrite <- V. apply (resolve_deep (attrs :: env)); [exact F'|]. apply resolve_root; [exact Ua|rewrite V; exact Na].
      - assert (Sk := sub_kids t _ _ _ _ S). clear - IH Sk F'. induction IH as [|k ks Hk _ IHk]; [constructor|]. apply Forall_cons_iff in Sk. destruct Sk as [S1 S2]. constructor; [apply (Hk S1 (attrs :: env)); exact F'|apply IHk, S2].
    Qed.
    Lemma resolved_all : resolved [] (Node (PKnown SVG) local root kids).
    Proof.
      constructor.
      - apply (resolve_root (PKnown SVG)); [apply (used_elem t (PKnown SVG) attrs0 Root)|reflexivity].
      - apply Forall_forall. intros a Ha. destruct (in_root a Ha) as [-> |[Hd|H0]].
        + left. apply first_decl.
        + left. assert (D := decls_decl ds). rewrite Forall_forall in D. apply D, Hd.
        + destruct (inside_fine t FP U _ _ Root) as (_ & _ & F). rewrite Forall_forall in F. destruct (F a H0) as [Ua Na]. destruct (prefix_value (a_prefix a)) as [q|] eqn:V; [|right; left; reflexivity]. right. right. rewrite <- V. apply resolve_root; [exact Ua|rewrite V; exact Na].
      - assert (Sk : Forall (subtree t) kids) by (apply (sub_kids t (PKnown SVG) local attrs0 kids); intros p b H; exact H). apply Forall_forall. intros k Hk. rewrite Forall_forall in Sk. apply (resolved_sub k (Sk k Hk) []). constructor.
    Qed.
    Lemma root_well : well_formed root.
    Proof.
      destruct FP as (F1 & _ & _ & _ & F5). split.
      - apply (Permutation_NoDup (l := map written (default :: decls ds ++ attrs0))); [apply Permutation_map, Permutation_sym, R|]. cbn [map]. rewrite map_app.
        assert (N0 : forall x p u, In x (map written attrs0) -> x <> written (declaration p u)).
        { intros x p u Hx Ex. apply in_map_iff in Hx. destruct Hx as (a & Ea & Ha). assert (F := undeclared _ _ Root). rewrite Forall_forall in F. apply (F a Ha). rewrite Ex in Ea. unfold written in Ea. injection Ea as E1 E2.
          destruct p as [q|]; [exists (Some q)|exists None]; exists (a_value a); cbn in E1, E2; repeat split; assumption. }
        constructor.
        + intros H. apply in_app_or in H. destruct H as [H|H]; [|apply (N0 _ None (known_uri SVG) H); reflexivity]. unfold decls in H. rewrite map_map in H. apply in_map_iff in H. destruct H as (x & E & _). discriminate.
        + apply nodup_app.
          * unfold decls. rewrite map_map. assert (N := m_nodup t m ds I). clear - N. induction ds as [|[q u] l IH]; [constructor|]. cbn [map fst] in *. inversion N as [|? ? Hq N']; subst. constructor; [|apply IH, N'].
            intros H. apply in_map_iff in H. destruct H as ([q' u'] & E & H). unfold written in E. cbn in E. injection E as ->. apply Hq. apply in_map_iff. exists (q, u'). split; [reflexivity|exact H].
          * apply (proj1 (F1 _ _ Root)).
          * intros x Hx Hx'. unfold decls in Hx. rewrite map_map in Hx. apply in_map_iff in Hx. destruct Hx as ([q u] & E & _). apply (N0 x (Some q) u Hx'). symmetry. exact E.
      - intros a uri Ha D. apply (root_declares a _ uri Ha) in D. destruct (m_used t m ds I _ _ D) as (_ & p & Up & V & _). apply (proj1 (F5 p Up)). exact V.
    Qed.
    Lemma all_well : all_well_formed (Node (PKnown SVG) local root kids).
    Proof.
      intros p attrs H. apply inside_cases in H. destruct H as [[_ E]|(k & Hk & Hik)]; [rewrite E; apply root_well|]. destruct FP as (F1 & _). apply (F1 p attrs). apply (inside_below (PKnown SVG) local attrs0 kids k p attrs Hk Hik).
    Qed.
  End Resolve.
End Root.
Lemma names_ok t : from_parser t -> uniform t -> root_plain t -> xml_at_root t -> exists t', build t = Some t' /\ same_but_root t t' /\ resolved [] t' /\ all_well_formed t'.
Proof.
  destruct t as [p local attrs kids]. intros FP U RP X. assert (Ep : p = PKnown SVG) by (apply (proj2 U p attrs (inside_here p local attrs kids)); exact RP). subst p.
  destruct (build_ok local attrs kids FP U X) as (m & root & ds & E & I & R & C). exists (Node (PKnown SVG) local root kids). split; [exact E|]. split; [|split].
  - repeat split. apply R.
  - apply (resolved_all local attrs kids FP U m root ds I R C).
  - apply (all_well local attrs kids FP m root ds I R).
Qed.

