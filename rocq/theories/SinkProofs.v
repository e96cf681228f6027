From Coq Require Import String List NArith Bool Lia Permutation Arith.
From Verif Require Import Chars NameModel SinkModel SinkSpec.
Import ListNotations.

Lemma otext_eqb_spec a b : otext_eqb a b = true <-> a = b.
Proof. destruct a as [a|], b as [b|]; cbn [otext_eqb]; try (split; [discriminate|discriminate]); [|split; reflexivity]. rewrite text_eqb_spec. split; [intros ->; reflexivity|intros E; injection E as ->; reflexivity]. Qed.
Lemma text_eqb_refl a : text_eqb a a = true.
Proof. apply text_eqb_spec. reflexivity. Qed.
Lemma text_dec (a b : text) : {a = b} + {a <> b}.
Proof. destruct (text_eqb a b) eqn:E; [left; apply text_eqb_spec, E|right; intros C; apply text_eqb_spec in C; congruence]. Qed.
Lemma get_cons p u m q : map_get ((p, u) :: m) q = if otext_eqb p q then Some u else map_get m q.
Proof. unfold map_get. cbn [find fst]. destruct (otext_eqb p q); reflexivity. Qed.
Lemma get_same p u m : map_get ((p, u) :: m) p = Some u.
Proof. rewrite get_cons. assert (E : otext_eqb p p = true) by (apply otext_eqb_spec; reflexivity). rewrite E. reflexivity. Qed.
Lemma get_other p u m q : p <> q -> map_get ((p, u) :: m) q = map_get m q.
Proof. intros H. rewrite get_cons. destruct (otext_eqb p q) eqn:E; [apply otext_eqb_spec in E; contradiction|reflexivity]. Qed.

Definition decls (ds : list (text * text)) : list attr := map (fun x => declaration (Some (fst x)) (snd x)) ds.
Definition xml : text := lit "xml".

Section Build.
  Variable t : tree.
  Hypothesis FP : from_parser t.
  Hypothesis U : uniform t.

  (** The state of the map, with what is declared. *)
  Record minv (m : nmap) (ds : list (text * text)) : Prop := mkMinv {
    m_nodup : NoDup (map fst ds);
    m_used : forall q u, In (q, u) ds -> q <> xml /\ exists p, used t p /\ prefix_value p = Some q /\ uri_of p = u;
    m_map : forall q u, q <> xml -> (map_get m (Some q) = Some u <-> In (q, u) ds);
    m_none : map_get m None = Some (known_uri SVG);
    m_xml : forall u, map_get m (Some xml) = Some u -> u = known_uri XML }.
  Lemma minv_perm m ds ds' : Permutation ds ds' -> minv m ds -> minv m ds'.
  Proof.
    intros P [A B C D E]. constructor; try assumption.
    - apply (Permutation_NoDup (l := map fst ds)); [apply Permutation_map, P|exact A].
    - intros q u H. apply B. apply (Permutation_in (q, u) (Permutation_sym P)), H.
    - intros q u Hq. rewrite (C q u Hq). split; apply Permutation_in; [exact P|apply Permutation_sym, P].
  Qed.
  (** The three things that can happen. *)
  Inductive looked (m : nmap) (ds : list (text * text)) (p : prefix) : nmap * option attr -> Prop :=
  | looked_known : (forall q, prefix_value p = Some q -> map_get m (Some q) <> None) -> looked m ds p (m, None)
  | looked_xml : prefix_value p = Some xml -> map_get m (Some xml) = None -> uri_of p = known_uri XML -> looked m ds p ((Some xml, known_uri XML) :: m, Some (declaration (Some xml) (known_uri XML)))
  | looked_new q : prefix_value p = Some q -> q <> xml -> map_get m (Some q) = None -> looked m ds p ((Some q, uri_of p) :: m, Some (declaration (Some q) (uri_of p))).
  Lemma find_new_cases m ds p : minv m ds -> used t p -> (prefix_value p = None -> p = PKnown SVG) -> looked m ds p (find_new_xmlns m p).
  Proof.
    intros I Up Hn. unfold find_new_xmlns. destruct (prefix_value p) as [q|] eqn:V.
    - assert (E : prefix_is_empty p = false) by (unfold prefix_is_empty; rewrite V; reflexivity). rewrite E. cbn [negb orb]. unfold find_xml_uri. rewrite V.
      destruct FP as (_ & _ & _ & _ & F5). destruct (F5 p Up) as (_ & _ & X). fold (uri_of p).
      destruct (map_get m (Some q)) as [u|] eqn:G.
      + assert (Eu : u = uri_of p).
        { destruct (text_dec q xml) as [-> |Nq].
          - rewrite (m_xml m ds I u G). symmetry. apply X. exact V.
          - apply (m_map m ds I q u Nq) in G. destruct (m_used m ds I q u G) as (_ & p' & Up' & V' & Eu). rewrite <- Eu. apply (proj1 U p' p Up' Up). rewrite V', V. reflexivity. }
        rewrite Eu, text_eqb_refl. cbn [negb andb]. apply looked_known. intros q' E'. rewrite V in E'. injection E' as <-. rewrite G. discriminate.
      + cbn [negb andb]. destruct (text_dec q xml) as [-> |Nq].
        * assert (Ex : uri_of p = known_uri XML) by (apply X; exact V). rewrite Ex. apply looked_xml; assumption.
        * apply looked_new; assumption.
    - rewrite (Hn eq_refl). unfold find_xml_uri. cbn [prefix_value known_name prefix_ns ns_uri]. rewrite (m_none m ds I), text_eqb_refl. cbn [negb]. rewrite andb_false_r. apply looked_known. intros q E. cbn in E. discriminate.
  Qed.
  Lemma minv_xml m ds : minv m ds -> minv ((Some xml, known_uri XML) :: m) ds.
  Proof.
    intros [A B C D E]. constructor; [exact A|exact B| | |].
    - intros q u Hq. rewrite get_other; [apply C, Hq|]. intros X. injection X as X. apply Hq. symmetry. exact X.
    - rewrite get_other; [exact D|discriminate].
    - intros u. rewrite get_same. intros X. injection X as X. symmetry. exact X.
  Qed.
  Lemma minv_new m ds p q : minv m ds -> used t p -> prefix_value p = Some q -> q <> xml -> map_get m (Some q) = None -> minv ((Some q, uri_of p) :: m) ((q, uri_of p) :: ds).
  Proof.
    intros I Up V Nq G. destruct I as [A B C D E]. constructor.
    - cbn [map fst]. constructor; [|exact A]. intros H. apply in_map_iff in H. destruct H as ([q' u] & E' & H). cbn [fst] in E'. subst q'. apply (C q u Nq) in H. rewrite G in H. discriminate.
    - intros q' u [H|H]; [|apply B, H]. injection H as <- <-. split; [exact Nq|]. exists p. auto.
    - intros q' u Nq'. destruct (text_dec q q') as [<- |D'].
      + rewrite get_same. split; [intros H; injection H as <-; left; reflexivity|]. intros [H|H]; [injection H as <-; reflexivity|]. apply (C q u Nq) in H. rewrite G in H. discriminate.
      + rewrite get_other by (intros X; injection X as X; contradiction). rewrite (C q' u Nq'). split; [intros H; right; exact H|]. intros [H|H]; [injection H as H1 _; contradiction|exact H].
    - rewrite get_other; [exact D|discriminate].
    - intros u. rewrite get_other; [apply E|]. intros X. injection X as X. contradiction.
  Qed.
  Definition nonxml (d : attr) : bool := negb (text_eqb (a_local d) (lit "xml")).
  Definition count_xml (l : list attr) : nat := List.length (filter (fun d => text_eqb (a_local d) (lit "xml")) l).
  Lemma decl_local q u : a_local (declaration (Some q) u) = q.
  Proof. reflexivity. Qed.
  Lemma collect_ok attrs : forall m ds, minv m ds -> Forall (fun a => used t (a_prefix a) /\ (prefix_value (a_prefix a) = None -> a_prefix a = PKnown SVG)) attrs ->
    exists m' new nd, collect m attrs = (m', new) /\ filter nonxml new = decls nd /\ minv m' (nd ++ ds) /\ (forall q, map_get m q <> None -> map_get m' q <> None) /\
    (forall a q, In a attrs -> prefix_value (a_prefix a) = Some q -> map_get m' (Some q) <> None) /\
    (map_get m (Some xml) <> None -> count_xml new = 0) /\ count_xml new <= 1 /\ (count_xml new <> 0 -> attrs <> []).
  Proof.
    induction attrs as [|a attrs IH]; intros m ds I F.
    - exists m, [], []. split; [reflexivity|]. split; [reflexivity|]. split; [exact I|]. split; [auto|]. split; [intros a q []|]. split; [reflexivity|]. split; [cbn; lia|]. intros C. exfalso. apply C. reflexivity.
    - apply Forall_cons_iff in F. destruct F as [[Ua Na] F]. cbn [collect]. assert (L := find_new_cases m ds (a_prefix a) I Ua Na). destruct L as [K|V G X|q V Nq G].
      + destruct (IH m ds I F) as (m' & new & nd & E & D & I' & Mo & Co & X1 & X2 & X3). rewrite E. exists m', new, nd. split; [reflexivity|]. split; [exact D|]. split; [exact I'|]. split; [exact Mo|]. split; [|split; [exact X1|split; [exact X2|intros _; discriminate]]].
        intros b q [<- |Hb] Vb; [apply Mo, K, Vb|apply (Co b q Hb Vb)].
      + destruct (IH ((Some xml, known_uri XML) :: m) ds (minv_xml m ds I) F) as (m' & new & nd & E & D & I' & Mo & Co & X1 & X2 & X3). rewrite E. exists m', (declaration (Some xml) (known_uri XML) :: new), nd.
        assert (Z : map_get ((Some xml, known_uri XML) :: m) (Some xml) <> None) by (rewrite get_same; discriminate).
        assert (Ml : text_eqb (a_local (declaration (Some xml) (known_uri XML))) (lit "xml") = true) by reflexivity.
        split; [reflexivity|]. split; [cbn [filter]; unfold nonxml at 1; rewrite Ml; exact D|]. split; [exact I'|]. split; [|split; [|split; [|split; [|intros _; discriminate]]]].
        * intros q Hq. apply Mo. rewrite get_cons. destruct (otext_eqb (Some xml) q); [discriminate|exact Hq].
        * intros b q [<- |Hb] Vb; [rewrite V in Vb; injection Vb as <-; apply Mo, Z|apply (Co b q Hb Vb)].
        * intros C. contradiction.
        * unfold count_xml. cbn [filter]. rewrite Ml. cbn [List.length]. fold (count_xml new). rewrite (X1 Z). lia.
      + destruct (IH _ _ (minv_new m ds (a_prefix a) q I Ua V Nq G) F) as (m' & new & nd & E & D & I' & Mo & Co & X1 & X2 & X3). rewrite E. exists m', (declaration (Some q) (uri_of (a_prefix a)) :: new), ((q, uri_of (a_prefix a)) :: nd).
        assert (Ml : text_eqb (a_local (declaration (Some q) (uri_of (a_prefix a)))) (lit "xml") = false). { rewrite decl_local. destruct (text_eqb q (lit "xml")) eqn:C; [apply text_eqb_spec in C; contradiction|reflexivity]. }
        assert (Z : forall k, map_get m k <> None -> map_get ((Some q, uri_of (a_prefix a)) :: m) k <> None) by (intros k Hk; rewrite get_cons; destruct (otext_eqb (Some q) k); [discriminate|exact Hk]).
        split; [reflexivity|]. split; [cbn [filter]; unfold nonxml at 1; rewrite Ml; cbn [negb]; rewrite D; reflexivity|]. split; [apply (minv_perm m' (nd ++ (q, uri_of (a_prefix a)) :: ds)); [apply Permutation_sym, Permutation_middle|exact I']|]. split; [|split; [|split; [|split; [|intros _; discriminate]]]].
        * intros k Hk. apply Mo, Z, Hk.
        * intros b k [<- |Hb] Vb; [rewrite V in Vb; injection Vb as <-; apply Mo; rewrite get_same; discriminate|apply (Co b k Hb Vb)].
        * intros C. unfold count_xml. cbn [filter]. rewrite Ml. apply X1, Z, C.
        * unfold count_xml. cbn [filter]. rewrite Ml. exact X2.
  Qed.
End Build.

(** ** Insertion into the attributes of the root *)
Lemma insert_at_ok {A} (x : A) i : forall l, i <= List.length l -> exists l1 l2, l = l1 ++ l2 /\ List.length l1 = i /\ insert_at i x l = Some (l1 ++ x :: l2).
Proof.
  induction i as [|i IH]; intros l L.
  - exists [], l. split; [reflexivity|]. split; [reflexivity|]. destruct l; reflexivity.
  - destruct l as [|y l]; [cbn in L; lia|]. destruct (IH l ltac:(cbn in L; lia)) as (l1 & l2 & -> & Hl & E). exists (y :: l1), l2. split; [reflexivity|]. split; [cbn; lia|]. cbn [insert_at]. rewrite E. reflexivity.
Qed.
Lemma only_refl l : only_declarations l l.
Proof. induction l; constructor; assumption. Qed.
Lemma only_insert l l1 d l2 : is_declaration d -> only_declarations l (l1 ++ l2) -> only_declarations l (l1 ++ d :: l2).
Proof.
  intros D H. remember (l1 ++ l2) as m eqn:E. revert l1 E. induction H as [|x l m X H IH|a l m H IH]; intros l1 E.
  - destruct l1; [|discriminate]. destruct l2; [|discriminate]. apply only_add; [exact D|constructor].
  - destruct l1 as [|y l1]; cbn [app] in *.
    + subst l2. apply only_add; [exact D|]. apply only_add; assumption.
    + injection E as -> E. apply only_add; [exact X|]. apply IH, E.
  - destruct l1 as [|y l1]; cbn [app] in *.
    + subst l2. apply only_add; [exact D|]. apply only_same; assumption.
    + injection E as -> E. apply only_same. apply IH, E.
Qed.
Lemma insert_all_ok new : forall i root, 1 + i + count_xml new <= List.length root -> Forall is_declaration new ->
  exists root', insert_all 1 i new root = Some root' /\ Permutation root' (filter nonxml new ++ root) /\ (forall l, only_declarations l root -> only_declarations l root') /\
  forall d rest, root = d :: rest -> exists rest', root' = d :: rest'.
Proof.
  induction new as [|d new IH]; intros i root L F.
  - exists root. cbn [insert_all filter app]. repeat split; auto. intros d rest ->. exists rest. reflexivity.
  - apply Forall_cons_iff in F. destruct F as [Fd F]. cbn [insert_all]. unfold count_xml in L. cbn [filter] in *. unfold nonxml at 1. destruct (text_eqb (a_local d) (lit "xml")) eqn:X.
    + cbn [negb]. cbn [List.length] in L. fold (count_xml new) in L. apply IH; [lia|exact F].
    + cbn [negb]. fold (count_xml new) in L. destruct (insert_at_ok d (1 + i) root ltac:(lia)) as (l1 & l2 & -> & Hl & E). rewrite E.
      destruct (IH (S i) (l1 ++ d :: l2)) as (root' & E' & P & O & Hd); [rewrite app_length in *; cbn [List.length]; lia|exact F|]. exists root'. split; [exact E'|]. split; [|split].
      * rewrite P. cbn [app]. rewrite <- Permutation_middle. rewrite <- Permutation_middle. reflexivity.
      * intros l H. apply O. apply only_insert; assumption.
      * intros h rest Hr. destruct l1 as [|y l1]; [cbn in Hl; lia|]. cbn [app] in Hr. injection Hr as -> _. apply (Hd h (l1 ++ d :: l2)). reflexivity.
Qed.
