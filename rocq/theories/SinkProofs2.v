From Coq Require Import String List NArith Bool Lia Permutation Arith.
From Verif Require Import Chars NameModel SinkModel SinkSpec SinkProofs.
Import ListNotations.

Section Induction.
  Variable P : tree -> Prop.
  Hypothesis H : forall p local attrs kids, Forall P kids -> P (Node p local attrs kids).
  Fixpoint tree_ind2 (t : tree) : P t :=
    match t with Node p local attrs kids => H p local attrs kids ((fix go l : Forall P l := match l with [] => Forall_nil _ | x :: l => Forall_cons _ (tree_ind2 x) (go l) end) kids) end.
End Induction.
Lemma build_other_eq p local attrs kids m root : build_other (Node p local attrs kids) m root =
  match add_to_other m root p attrs with
  | None => None
  | Some (m, root, attrs) => match build_list kids m root with None => None | Some (m, root, kids) => Some (m, root, Node p local attrs kids) end
  end.
Proof.
  cbn [build_other]. destruct (add_to_other m root p attrs) as [[[m1 root1] attrs1]|]; [|reflexivity].
  assert (E : forall l m root, (fix go (l : list tree) (m : nmap) (root : list attr) : option (nmap * list attr * list tree) :=
                   match l with
                   | [] => Some (m, root, [])
                   | t :: l => match build_other t m root with
                               | None => None
                               | Some (m, root, t) => match go l m root with None => None | Some (m, root, l) => Some (m, root, t :: l) end
                               end
                   end) l m root = build_list l m root).
  { induction l as [|t l IH]; intros m2 root2; [reflexivity|]. cbn [build_list]. destruct (build_other t m2 root2) as [[[m3 root3] t3]|]; [|reflexivity]. rewrite IH. reflexivity. }
  rewrite E. reflexivity.
Qed.
Lemma is_ns_known p k : is_ns p (NSKnown k) = true -> uri_of p = known_uri k.
Proof. unfold uri_of. induction p as [k'|n m|p IH a]; cbn [is_ns prefix_ns]; [|discriminate|exact IH]. intros E. destruct k, k'; try discriminate; reflexivity. Qed.
Lemma set_append root x : Forall (fun a => prefix_eqb (a_prefix a) (a_prefix x) && text_eqb (a_local a) (a_local x) = false) root -> set_named_item root x = root ++ [x].
Proof. intros F. induction F as [|a l E F IH]; [reflexivity|]. cbn [set_named_item app]. rewrite E, IH. reflexivity. Qed.

Section Build.
  Variable t : tree.
  Hypothesis FP : from_parser t.
  Hypothesis U : uniform t.
  Variable attrs0 : list attr.
  Variable p0 : prefix.
  Hypothesis Root : inside t p0 attrs0.

  Definition default : attr := declaration None (known_uri SVG).
  Record rinv (root : list attr) (ds : list (text * text)) : Prop := mkRinv {
    r_first : exists rest, root = default :: rest;
    r_only : only_declarations attrs0 root;
    r_perm : Permutation root (default :: decls ds ++ attrs0) }.
  Lemma has_first root ds : rinv root ds -> has_xmlns root = true.
  Proof. intros [(rest & ->) _ _]. reflexivity. Qed.
  Lemma first_decl : is_declaration default.
  Proof. exists None, (known_uri SVG). repeat split. Qed.
  Lemma decls_decl ds : Forall is_declaration (decls ds).
  Proof. unfold decls. apply Forall_forall. intros a H. apply in_map_iff in H. destruct H as ([q u] & <- & _). exists (Some q), u. repeat split. Qed.
  Lemma only_app l m d : is_declaration d -> only_declarations l m -> only_declarations l (m ++ [d]).
  Proof. intros D H. rewrite <- (app_nil_r m) in H. apply only_insert; assumption. Qed.
  Lemma fresh_in_root root ds q u : rinv root ds -> ~ In q (map fst ds) -> set_named_item root (declaration (Some q) u) = root ++ [declaration (Some q) u].
  Proof.
    intros R Nq. apply set_append. apply (Permutation_Forall (Permutation_sym (r_perm root ds R))). constructor; [reflexivity|]. apply Forall_app. split.
    - apply Forall_forall. intros a H. unfold decls in H. apply in_map_iff in H. destruct H as ([q' u'] & <- & H). cbn [declaration a_local fst snd]. destruct (text_eqb q' q) eqn:E; [|apply andb_false_r].
      exfalso. apply Nq. apply text_eqb_spec in E. subst q'. apply in_map_iff. exists (q, u'). split; [reflexivity|exact H].
    - apply Forall_forall. intros a H. cbn [declaration a_prefix]. unfold prefix_eqb. cbn [prefix_ns]. destruct (is_ns (a_prefix a) (NSKnown XMLNS)) eqn:E; [|reflexivity]. exfalso.
      apply is_ns_known in E. destruct FP as (_ & _ & _ & _ & F5). exact (proj1 (proj2 (F5 _ (used_attr t p0 attrs0 a Root H))) E).
  Qed.
  Lemma add_decls root ds nd new : rinv root ds -> filter nonxml new = decls nd -> Forall is_declaration new -> 1 + count_xml new <= List.length root ->
    exists root', insert_all (if has_xmlns root then 1 else 0) 0 new root = Some root' /\ rinv root' (nd ++ ds).
  Proof.
    intros R D F L. rewrite (has_first root ds R). destruct (insert_all_ok new 0 root ltac:(lia) F) as (root' & E & P & O & Hd). exists root'. split; [exact E|]. constructor.
    - destruct (r_first root ds R) as [rest ->]. apply (Hd default rest eq_refl).
    - apply O, R.
    - rewrite P, D, (r_perm root ds R). unfold decls. rewrite map_app. rewrite <- Permutation_middle. rewrite app_assoc. reflexivity.
  Qed.
  Lemma new_decls m (ds : list (text * text)) attrs m' new (nd : list (text * text)) : collect m attrs = (m', new) -> Forall is_declaration new.
  Proof.
    clear. revert m m' new. induction attrs as [|a attrs IH]; intros m m' new E; cbn [collect] in E; [injection E as <- <-; constructor|].
    destruct (find_new_xmlns m (a_prefix a)) as [m1 x] eqn:Ef. destruct (collect m1 attrs) as [m2 rest] eqn:Ec. injection E as <- <-. specialize (IH _ _ _ Ec). destruct x as [d|]; [|exact IH]. constructor; [|exact IH].
    unfold find_new_xmlns in Ef. destruct ((_ || _) && _); [|discriminate]. apply (f_equal snd) in Ef. cbn [snd] in Ef. injection Ef as <-. destruct (prefix_value (a_prefix a)) as [q|].
    - exists (Some q), (ns_uri (prefix_ns (a_prefix a))). repeat split.
    - exists None, (ns_uri (prefix_ns (a_prefix a))). repeat split.
  Qed.
  Definition fine (p : prefix) (attrs : list attr) : Prop := used t p /\ (prefix_value p = None -> p = PKnown SVG) /\ Forall (fun a => used t (a_prefix a) /\ (prefix_value (a_prefix a) = None -> a_prefix a = PKnown SVG)) attrs.
  Lemma inside_fine p attrs : inside t p attrs -> fine p attrs.
  Proof.
    intros I. split; [apply (used_elem t p attrs I)|]. split; [apply (proj2 U p attrs I)|]. apply Forall_forall. intros a H. split; [apply (used_attr t p attrs a I H)|]. destruct FP as (_ & _ & _ & F4 & _). apply (F4 p attrs a I H).
  Qed.
  Definition covered (m : nmap) (p : prefix) : Prop := forall q, prefix_value p = Some q -> map_get m (Some q) <> None.
  Lemma other_ok m root ds p attrs : minv t m ds -> rinv root ds -> fine p attrs -> ((exists p, used t p /\ prefix_value p = Some xml) -> map_get m (Some xml) <> None) ->
    exists m' root' ds', add_to_other m root p attrs = Some (m', root', attrs) /\ minv t m' ds' /\ rinv root' ds' /\ (forall q, map_get m q <> None -> map_get m' q <> None) /\
    covered m' p /\ Forall (fun a => covered m' (a_prefix a)) attrs.
  Proof.
    intros I R (Up & Np & F) X. unfold add_to_other. assert (L := find_new_cases t FP U m ds p I Up Np). destruct L as [K|V G E|q V Nq G].
    - destruct (collect_ok t FP U attrs m ds I F) as (m' & new & nd & E & D & I' & Mo & Co & X1 & X2 & X3). rewrite E.
      assert (C0 : count_xml new = 0).
      { destruct (count_xml new) as [|n] eqn:C; [reflexivity|]. destruct (map_get m (Some xml)) eqn:G; [apply X1; discriminate|]. exfalso. apply X; [|reflexivity].
        clear - E C F G. revert m m' new E C G. induction attrs as [|a attrs IH]; intros m m' new E C G; cbn [collect] in E; [injection E as <- <-; discriminate|].
        apply Forall_cons_iff in F. destruct F as [[Ua Na] F]. destruct (prefix_value (a_prefix a)) as [q|] eqn:V.
        - destruct (text_dec q xml) as [-> |Nq]; [exists (a_prefix a); split; assumption|]. destruct (find_new_xmlns m (a_prefix a)) as [m1 x] eqn:Ef. destruct (collect m1 attrs) as [m2 rest] eqn:Ec. injection E as <- <-.
          assert (G1 : map_get m1 (Some xml) = None /\ forall d, x = Some d -> text_eqb (a_local d) (lit "xml") = false).
          { unfold find_new_xmlns in Ef. rewrite V in Ef. destruct ((_ || _) && _).
            - assert (E1 := f_equal fst Ef). assert (E2 := f_equal snd Ef). cbn [fst snd] in E1, E2. subst m1 x. split; [rewrite get_other; [exact G|]; intros Z; injection Z as Z; contradiction|]. intros d Hd. injection Hd as <-. cbn [declaration a_local]. destruct (text_eqb q (lit "xml")) eqn:T; [apply text_eqb_spec in T; contradiction|reflexivity].
            - injection Ef as <- <-. split; [exact G|discriminate]. }
          destruct G1 as [G1 G2]. apply (IH F m1 m2 rest Ec); [|exact G1]. destruct x as [d|]; [|exact C]. unfold count_xml in *. cbn [filter] in C. rewrite (G2 d eq_refl) in C. exact C.
        - destruct (find_new_xmlns m (a_prefix a)) as [m1 x] eqn:Ef. destruct (collect m1 attrs) as [m2 rest] eqn:Ec. injection E as <- <-.
          assert (G1 : map_get m1 (Some xml) = None /\ forall d, x = Some d -> text_eqb (a_local d) (lit "xml") = false).
          { unfold find_new_xmlns in Ef. rewrite V in Ef. destruct ((_ || _) && _).
            - assert (E1 := f_equal fst Ef). assert (E2 := f_equal snd Ef). cbn [fst snd] in E1, E2. subst m1 x. split; [rewrite get_other; [exact G|discriminate]|]. intros d Hd. injection Hd as <-. reflexivity.
            - injection Ef as <- <-. split; [exact G|discriminate]. }
          destruct G1 as [G1 G2]. apply (IH F m1 m2 rest Ec); [|exact G1]. destruct x as [d|]; [|exact C]. unfold count_xml in *. cbn [filter] in C. rewrite (G2 d eq_refl) in C. exact C. }
      destruct (add_decls root ds nd new R D (new_decls m ds attrs m' new nd E)) as (root' & Ei & R'); [rewrite C0; destruct (r_first root ds R) as [rest ->]; cbn; lia|]. rewrite Ei.
      exists m', root', (nd ++ ds). split; [reflexivity|]. split; [exact I'|]. split; [exact R'|]. split; [exact Mo|]. split; [intros q Hq; apply Mo, K, Hq|].
      apply Forall_forall. intros a Ha q Hq. apply (Co a q Ha Hq).
    - exfalso. apply X; [|exact G]. exists p. split; assumption.
    - assert (I1 := minv_new t m ds p q I Up V Nq G). cbn [declaration prefix_is_empty a_prefix prefix_value known_name].
      assert (Fr : ~ In q (map fst ds)). { intros H. apply in_map_iff in H. destruct H as ([q' u] & Eq & H). cbn [fst] in Eq. subst q'. apply (m_map t m ds I q u Nq) in H. rewrite G in H. discriminate. }
      assert (S := fresh_in_root root ds q (uri_of p) R Fr). cbn [declaration] in S. rewrite S. clear S.
      assert (R1 : rinv (root ++ [declaration (Some q) (uri_of p)]) ((q, uri_of p) :: ds)).
      { constructor.
        - destruct (r_first root ds R) as [rest ->]. eexists. reflexivity.
        - apply only_app; [exists (Some q), (uri_of p); repeat split|apply R].
        - rewrite <- Permutation_cons_append, (r_perm root ds R). unfold decls. cbn [map fst snd]. apply perm_swap. }
      destruct (collect_ok t FP U attrs _ _ I1 F) as (m' & new & nd & E & D & I' & Mo & Co & X1 & X2 & X3). rewrite E.
      assert (Mo' : forall k, map_get m k <> None -> map_get m' k <> None) by (intros k Hk; apply Mo; rewrite get_cons; destruct (otext_eqb (Some q) k); [discriminate|exact Hk]).
      assert (C0 : count_xml new = 0).
      { destruct (map_get m (Some xml)) eqn:Gx; [apply X1; rewrite get_cons; destruct (otext_eqb (Some q) (Some xml)); [discriminate|rewrite Gx; discriminate]|].
        assert (NX : forall a, In a attrs -> prefix_value (a_prefix a) <> Some xml). { intros a Ha C. rewrite Forall_forall in F. apply X; [|reflexivity]. exists (a_prefix a). split; [apply (F a Ha)|exact C]. }
        clear - E NX. revert E. generalize ((Some q, uri_of p) :: m). revert m' new. induction attrs as [|a attrs IH]; intros m' new m0 E; cbn [collect] in E; [injection E as <- <-; reflexivity|].
        destruct (find_new_xmlns m0 (a_prefix a)) as [m1 x] eqn:Ef. destruct (collect m1 attrs) as [m2 rest] eqn:Ec. injection E as <- <-. assert (IHr := IH (fun b Hb => NX b (or_intror Hb)) _ _ _ Ec). destruct x as [d|]; [|exact IHr].
        unfold count_xml. cbn [filter]. assert (T : text_eqb (a_local d) (lit "xml") = false); [|rewrite T; exact IHr].
        unfold find_new_xmlns in Ef. destruct ((_ || _) && _); [|discriminate]. apply (f_equal snd) in Ef. cbn [snd] in Ef. injection Ef as <-. assert (N := NX a (or_introl eq_refl)). destruct (prefix_value (a_prefix a)) as [k|]; cbn [declaration a_local]; [|reflexivity].
        destruct (text_eqb k (lit "xml")) eqn:T; [|reflexivity]. exfalso. apply N. apply text_eqb_spec in T. rewrite T. reflexivity. }
      destruct (add_decls _ _ nd new R1 D (new_decls _ ds attrs m' new nd E)) as (root' & Ei & R'); [rewrite C0; destruct (r_first _ _ R1) as [rest ->]; cbn; lia|]. cbn [declaration] in Ei. rewrite Ei.
      exists m', root', (nd ++ (q, uri_of p) :: ds). split; [reflexivity|]. split; [exact I'|]. split; [exact R'|]. split; [exact Mo'|]. split.
      + intros k Hk. rewrite V in Hk. injection Hk as <-. apply Mo. rewrite get_same. discriminate.
      + apply Forall_forall. intros a Ha k Hk. apply (Co a k Ha Hk).
  Qed.
  Definition covers (m : nmap) (s : tree) : Prop := forall p, used s p -> covered m p.
  Lemma covers_node m p local attrs kids : covered m p -> Forall (fun a => covered m (a_prefix a)) attrs -> Forall (covers m) kids -> covers m (Node p local attrs kids).
  Proof.
    intros C A K r Hr. inversion Hr as [q b Hi|q b a Hi Ha]; subst; inversion Hi as [? ? ? ?|? ? ? ? k ? ? Hk Hik]; subst.
    - exact C.
    - rewrite Forall_forall in K. apply (K k Hk). apply (used_elem k r b Hik).
    - rewrite Forall_forall in A. apply A, Ha.
    - rewrite Forall_forall in K. apply (K k Hk). apply (used_attr k q b a Hik Ha).
  Qed.
  Definition grows (m m' : nmap) : Prop := forall q, map_get m q <> None -> map_get m' q <> None.
  Lemma covers_grow m m' s : grows m m' -> covers m s -> covers m' s.
  Proof. intros G C p Hp q Hq. apply G, (C p Hp q Hq). Qed.
  Definition subtree (s : tree) : Prop := forall p attrs, inside s p attrs -> inside t p attrs.
  Definition builds (s : tree) : Prop := subtree s -> forall m root ds, minv t m ds -> rinv root ds -> ((exists p, used t p /\ prefix_value p = Some xml) -> map_get m (Some xml) <> None) ->
    exists m' root' ds', build_other s m root = Some (m', root', s) /\ minv t m' ds' /\ rinv root' ds' /\ grows m m' /\ covers m' s.
  Lemma list_ok kids : Forall builds kids -> Forall subtree kids -> forall m root ds, minv t m ds -> rinv root ds -> ((exists p, used t p /\ prefix_value p = Some xml) -> map_get m (Some xml) <> None) ->
    exists m' root' ds', build_list kids m root = Some (m', root', kids) /\ minv t m' ds' /\ rinv root' ds' /\ grows m m' /\ Forall (covers m') kids.
  Proof.
    intros B. induction B as [|k kids Bk B IH]; intros S m root ds I R X.
    - exists m, root, ds. repeat (split; [assumption || reflexivity|]). split; [intros q Hq; exact Hq|constructor].
    - apply Forall_cons_iff in S. destruct S as [Sk S]. cbn [build_list]. destruct (Bk Sk m root ds I R X) as (m1 & root1 & ds1 & E1 & I1 & R1 & G1 & C1). rewrite E1.
      destruct (IH S m1 root1 ds1 I1 R1) as (m2 & root2 & ds2 & E2 & I2 & R2 & G2 & C2); [intros H; apply G1, X, H|]. rewrite E2. exists m2, root2, ds2. split; [reflexivity|]. split; [exact I2|]. split; [exact R2|]. split; [intros q Hq; apply G2, G1, Hq|].
      constructor; [apply (covers_grow m1 m2 k G2 C1)|exact C2].
  Qed.
  Lemma sub_kids p local attrs kids : subtree (Node p local attrs kids) -> Forall subtree kids.
  Proof. intros S. apply Forall_forall. intros k Hk q b H. apply S. apply (inside_below p local attrs kids k q b Hk H). Qed.
  Lemma tree_ok s : builds s.
  Proof.
    induction s as [p local attrs kids IH] using tree_ind2. intros S m root ds I R X. rewrite build_other_eq.
    destruct (other_ok m root ds p attrs I R (inside_fine p attrs (S p attrs (inside_here p local attrs kids))) X) as (m1 & root1 & ds1 & E1 & I1 & R1 & G1 & C1 & A1). rewrite E1.
    destruct (list_ok kids IH (sub_kids _ _ _ _ S) m1 root1 ds1 I1 R1) as (m2 & root2 & ds2 & E2 & I2 & R2 & G2 & C2); [intros H; apply G1, X, H|]. rewrite E2. exists m2, root2, ds2. split; [reflexivity|]. split; [exact I2|]. split; [exact R2|]. split; [intros q Hq; apply G2, G1, Hq|].
    apply covers_node; [intros q Hq; apply G2, C1, Hq| |exact C2]. apply Forall_impl with (2 := A1). intros a Ha q Hq. apply G2, Ha, Hq.
  Qed.
End Build.
