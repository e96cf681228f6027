From Coq Require Import String List NArith ZArith QArith Bool Lia.
From Verif Require Import Chars NameModel AttrTable ElemModel TextModel JsxNamesModel JsxModel JsxSpec JsxProofs PresetModel PresetSpec PresetProofs.
Import ListNotations.

Lemma jsx_all (P : jsx -> Prop) :
  (forall n a sc kids cl, Forall P kids -> P (JElement n a sc kids cl)) -> (forall kids, Forall P kids -> P (JFragment kids)) ->
  (forall t, P (JText t)) -> P JEmpty -> (forall x, P (JName x)) -> (forall u x yes no, P yes -> (forall j, no = Some j -> P j) -> P (JWhen u x yes no)) -> forall j, P j.
Proof.
  intros E F T Y N W. fix IH 1. intros j.
  assert (K : forall l : list jsx, Forall P l) by (fix KI 1; intros [|k l]; constructor; [apply IH|apply KI]).
  destruct j as [n a sc kids cl|kids|t| |x|u x yes [no|]]; [apply E, K|apply F, K|apply T|apply Y|apply N| |];
    apply W; [apply IH|intros j H; injection H as <-; apply IH|apply IH|intros j H; discriminate].
Qed.

(** ** Rendered nodes without a name *)
Lemma without_app n a b : without n (a ++ b) <-> without n a /\ without n b.
Proof.
  unfold without. rewrite flat_map_app. split.
  - intros H. split; intros d I; apply H, in_app_iff; auto.
  - intros [A B] d I. apply in_app_iff in I. destruct I; auto.
Qed.
Lemma without_nil n : without n [].
Proof. intros d []. Qed.
Lemma without_text n t : without n [DText t].
Proof. intros d []. Qed.
Lemma without_elem n m ps kids : without n [DElem m ps kids] <-> m <> n /\ without n kids.
Proof.
  unfold without. cbn [flat_map]. rewrite app_nil_r. cbn [elems]. split.
  - intros H. split; [intros X; apply (H (DElem m ps kids)); [left; reflexivity|exact X]|]. intros d I. apply H. right. exact I.
  - intros [A B] d [<-|I]; [exact A|apply B, I].
Qed.
Lemma at_first_app n P l l' r : at_first n P l l' -> at_first n P (l ++ r) (l' ++ r).
Proof. induction 1; cbn [app]; [rewrite <- app_assoc; apply af_here; assumption|apply af_inside; assumption|apply af_later; assumption]. Qed.
Lemma at_first_skip n P a l l' : without n a -> at_first n P l l' -> at_first n P (a ++ l) (a ++ l').
Proof.
  induction a as [|d a IH]; intros W H; [exact H|]. change (d :: a) with ([d] ++ a) in W. apply without_app in W. cbn [app]. apply af_later; [apply W|apply IH; [apply W|exact H]].
Qed.

Section render.
Variable s : env.
Lemma seq_app {A} (l m : list (option (list A))) : seq (l ++ m) = match seq l, seq m with Some a, Some b => Some (a ++ b) | _, _ => None end.
Proof.
  induction l as [|[a|] l IH]; cbn [app seq]; [destruct (seq m); reflexivity| |reflexivity]. rewrite IH. destruct (seq l); [|reflexivity].
  destruct (seq m); [rewrite app_assoc; reflexivity|reflexivity].
Qed.
Lemma element_render n a (sc : bool) kids cl l : render s (JElement n a sc kids cl) = Some l -> exists ks, seq (map (render s) kids) = Some ks /\ l = [DElem n (eval_attrs s a) ks] /\
  apart kids = true /\ (intrinsic n || existsb (text_eqb n) (e_scope s))%bool = true /\ (if sc then kids = [] /\ cl = None else cl = Some n).
Proof.
  cbn [render]. destruct (_ && _ && apart kids)%bool eqn:C; [|discriminate]. apply andb_true_iff in C. destruct C as [C A]. apply andb_true_iff in C. destruct C as [C1 C2].
  destruct (seq (map (render s) kids)) as [ks|]; [|discriminate]. intros E. injection E as <-. exists ks. split; [reflexivity|]. split; [reflexivity|]. split; [exact A|]. split; [exact C1|].
  destruct sc.
  - apply andb_true_iff in C2. destruct C2 as [C2 C3]. destruct kids; [|discriminate]. destruct cl; [discriminate|]. split; reflexivity.
  - destruct cl as [m|]; [|discriminate]. apply text_eqb_spec in C2. subst m. reflexivity.
Qed.
Lemma render_element n a (sc : bool) kids cl ks : seq (map (render s) kids) = Some ks -> apart kids = true -> (intrinsic n || existsb (text_eqb n) (e_scope s))%bool = true ->
  (if sc then kids = [] /\ cl = None else cl = Some n) -> render s (JElement n a sc kids cl) = Some [DElem n (eval_attrs s a) ks].
Proof.
  intros K A I C. cbn [render]. rewrite K, A, I. destruct sc.
  - destruct C as [-> ->]. reflexivity.
  - subst cl. rewrite teq_refl. reflexivity.
Qed.
Definition lacks (name : text) (j : jsx) : Prop := forall e, In e (jelems j) -> jname e <> name.
Lemma lacks_kids name l : Forall (lacks name) l <-> forall e, In e (flat_map jelems l) -> jname e <> name.
Proof.
  rewrite Forall_forall. split.
  - intros H e I. apply in_flat_map in I. destruct I as (k & K & I). apply (H k K e I).
  - intros H k K e I. apply H, in_flat_map. eauto.
Qed.
Lemma seq_without name kids ks : Forall (fun k => forall l, lacks name k -> render s k = Some l -> without name l) kids -> Forall (lacks name) kids ->
  seq (map (render s) kids) = Some ks -> without name ks.
Proof.
  intros F. revert ks. induction F as [|k l H F IH]; cbn [map seq]; intros ks L E; [injection E as <-; apply without_nil|].
  inversion L as [|? ? L1 L2]; subst. destruct (render s k) as [x|] eqn:R; [|discriminate]. destruct (seq (map (render s) l)) as [y|] eqn:S; [|discriminate]. injection E as <-.
  apply without_app. split; [apply H; [exact L1|reflexivity]|apply IH; [exact L2|reflexivity]].
Qed.
Lemma lacks_without name j : forall l, lacks name j -> render s j = Some l -> without name l.
Proof.
  induction j as [n a sc kids cl IH|kids IH|t| |x|u x yes no IHy IHn] using jsx_all; intros l L R.
  - apply element_render in R. destruct R as (ks & K & -> & _). apply without_elem. split; [apply (L (JElement n a sc kids cl)); left; reflexivity|].
    eapply seq_without; [exact IH| |exact K]. apply lacks_kids. intros e I. apply L. right. exact I.
  - cbn [render] in R. destruct (apart kids); [|discriminate]. eapply seq_without; [exact IH| |exact R]. apply lacks_kids. exact L.
  - cbn [render] in R. destruct (jsx_text t) as [[|]|]; [|injection R as <-|discriminate]; [injection R as <-; apply without_nil|apply without_text].
  - injection R as <-. apply without_nil.
  - cbn [render] in R. injection R as <-. destruct (e_name s x) as [[|]|]; [apply without_nil|apply without_text|apply without_nil].
  - cbn [render] in R. destruct (if u then _ else _).
    + apply IHy; [|exact R]. intros e I. apply L. cbn [jelems]. apply in_app_iff. auto.
    + destruct no as [j|]; [|injection R as <-; apply without_nil]. apply (IHn j eq_refl); [|exact R]. intros e I. apply L. cbn [jelems]. apply in_app_iff. auto.
Qed.

(** ** Changing the first element *)
Inductive quiet (name : text) (Q : list jattr -> list jsx -> Prop) : jsx -> Prop :=
| q_element n a sc kids cl : (n = name -> Q a kids) -> Forall (quiet name Q) kids -> quiet name Q (JElement n a sc kids cl)
| q_fragment kids : Forall (quiet name Q) kids -> quiet name Q (JFragment kids)
| q_text t : quiet name Q (JText t)
| q_empty : quiet name Q JEmpty
| q_name x : quiet name Q (JName x)
| q_when u x yes no : lacks name (JWhen u x yes no) -> quiet name Q (JWhen u x yes no).
Definition go name f := fix go (l : list jsx) : option (list jsx) := match l with
  | [] => None
  | k :: r => match update_first name f k with Some k' => Some (k' :: r) | None => option_map (cons k) (go r) end
  end.
Lemma update_element name f n a sc kids cl : update_first name f (JElement n a sc kids cl) =
  if text_eqb n name then Some (f (JElement n a sc kids cl)) else option_map (fun ks => JElement n a sc ks cl) (go name f kids).
Proof. reflexivity. Qed.
Lemma update_fragment name f kids : update_first name f (JFragment kids) = option_map JFragment (go name f kids).
Proof. reflexivity. Qed.
Definition istext (j : jsx) : bool := match j with JText _ => true | _ => false end.
Definition good_change (name : text) (Q : list jattr -> list jsx -> Prop) (f : jsx -> jsx) (P : dom -> list dom -> Prop) : Prop :=
  forall a sc kids cl d, Q a kids -> render s (JElement name a sc kids cl) = Some [d] ->
    exists y, render s (f (JElement name a sc kids cl)) = Some y /\ P d y /\ istext (f (JElement name a sc kids cl)) = false.
Lemma pairs_head j l : istext j = false -> pairs_apart (j :: l) = pairs_apart l.
Proof. destruct j; [reflexivity|reflexivity|discriminate|reflexivity|reflexivity|reflexivity]. Qed.
Lemma keep_nontext j : istext j = false -> (match j with JText [] => false | _ => true end) = true.
Proof. destruct j; [reflexivity|reflexivity|discriminate|reflexivity|reflexivity|reflexivity]. Qed.
Lemma apart_replace a k k' b : istext k = false -> istext k' = false -> apart (a ++ k :: b) = apart (a ++ k' :: b).
Proof.
  intros K K'. unfold apart. rewrite !filter_app. cbn [filter]. rewrite (keep_nontext k K), (keep_nontext k' K').
  induction (filter _ a) as [|x l IH]; cbn [app]; [rewrite !pairs_head by assumption; reflexivity|].
  destruct x as [| |t| | |]; cbn [pairs_apart]; try exact IH. destruct l as [|y l]; cbn [app] in *.
  - destruct k, k'; try discriminate; exact IH.
  - destruct y; try exact IH. reflexivity.
Qed.
Lemma go_spec name f kids kids' : go name f kids = Some kids' -> exists a k k' b, kids = a ++ k :: b /\ kids' = a ++ k' :: b /\ update_first name f k = Some k' /\
  Forall (fun x => update_first name f x = None) a.
Proof.
  revert kids'. induction kids as [|k r IH]; cbn [go]; [discriminate|]. destruct (update_first name f k) as [k'|] eqn:U.
  - intros ? E. injection E as <-. exists [], k, k', r. auto.
  - intros kids' E. destruct (go name f r) as [r'|] eqn:G; [|discriminate]. cbn [option_map] in E. injection E as <-.
    destruct (IH r' eq_refl) as (a & x & x' & b & -> & -> & X & F). exists (k :: a), x, x', b. auto.
Qed.
Lemma go_none name f kids : go name f kids = None -> Forall (fun x => update_first name f x = None) kids.
Proof.
  induction kids as [|k r IH]; cbn [go]; [constructor|]. destruct (update_first name f k) eqn:U; [discriminate|]. intros E. constructor; [exact U|]. apply IH.
  destruct (go name f r); [discriminate|reflexivity].
Qed.
Lemma update_none name f j : forall Q l, quiet name Q j -> update_first name f j = None -> render s j = Some l -> without name l.
Proof.
  assert (K : forall Q kids, Forall (fun j => forall Q l, quiet name Q j -> update_first name f j = None -> render s j = Some l -> without name l) kids ->
     Forall (quiet name Q) kids -> Forall (fun x => update_first name f x = None) kids -> forall ks, seq (map (render s) kids) = Some ks -> without name ks).
  { clear. intros Q kids. induction 1 as [|k r H F IH]; intros QS US ks E; cbn [map seq] in E; [injection E as <-; apply without_nil|].
    inversion QS; inversion US; subst. destruct (render s k) eqn:R; [|discriminate]. destruct (seq (map (render s) r)) eqn:S; [|discriminate]. injection E as <-.
    apply without_app. split; [eapply H; eauto|apply IH; auto]. }
  induction j as [n a sc kids cl IH|kids IH|t| |x|u x yes no IHy IHn] using jsx_all; intros Q l QJ U R.
  - rewrite update_element in U. destruct (text_eqb n name) eqn:E; [discriminate|]. destruct (go name f kids) eqn:G; [discriminate|]. apply go_none in G.
    apply element_render in R. destruct R as (ks & R & -> & _). apply without_elem. split; [intros ->; rewrite teq_refl in E; discriminate|].
    inversion QJ; subst. eapply K; eauto.
  - rewrite update_fragment in U. destruct (go name f kids) eqn:G; [discriminate|]. apply go_none in G. cbn [render] in R. destruct (apart kids); [|discriminate].
    inversion QJ; subst. eapply K; eauto.
  - eapply lacks_without; [|exact R]. intros e [].
  - eapply lacks_without; [|exact R]. intros e [].
  - eapply lacks_without; [|exact R]. intros e [].
  - inversion QJ; subst. eapply lacks_without; eauto.
Qed.
Lemma seq_mid a k b l : seq (map (render s) (a ++ k :: b)) = Some l -> exists x y z, seq (map (render s) a) = Some x /\ render s k = Some y /\ seq (map (render s) b) = Some z /\ l = x ++ y ++ z.
Proof.
  rewrite map_app, seq_app. cbn [map seq]. destruct (seq (map (render s) a)) as [x|]; [|discriminate]. destruct (render s k) as [y|]; [|discriminate].
  destruct (seq (map (render s) b)) as [z|]; [|discriminate]. intros E. injection E as <-. exists x, y, z. auto.
Qed.
Lemma mid_seq a k b x y z : seq (map (render s) a) = Some x -> render s k = Some y -> seq (map (render s) b) = Some z -> seq (map (render s) (a ++ k :: b)) = Some (x ++ y ++ z).
Proof. intros A K B. rewrite map_app, seq_app. cbn [map seq]. rewrite A, K, B. reflexivity. Qed.
Lemma none_without name f a : forall Q x, Forall (quiet name Q) a -> Forall (fun x => update_first name f x = None) a -> seq (map (render s) a) = Some x -> without name x.
Proof.
  induction a as [|k a IH]; intros Q x QS US E; cbn [map seq] in E; [injection E as <-; apply without_nil|].
  inversion QS; inversion US; subst. destruct (render s k) eqn:R; [|discriminate]. destruct (seq (map (render s) a)) eqn:S; [|discriminate]. injection E as <-.
  apply without_app. split; [eapply update_none; eauto|eapply IH; eauto].
Qed.
Lemma update_some name Q f P : good_change name Q f P -> forall j j' l, quiet name Q j -> update_first name f j = Some j' -> render s j = Some l ->
  exists l', render s j' = Some l' /\ at_first name P l l' /\ istext j = false /\ istext j' = false.
Proof.
  intros G. assert (K : forall kids kids' ks, Forall (fun j => forall j' l, quiet name Q j -> update_first name f j = Some j' -> render s j = Some l ->
       exists l', render s j' = Some l' /\ at_first name P l l' /\ istext j = false /\ istext j' = false) kids ->
     Forall (quiet name Q) kids -> go name f kids = Some kids' -> seq (map (render s) kids) = Some ks ->
     exists ks', seq (map (render s) kids') = Some ks' /\ at_first name P ks ks' /\ apart kids' = apart kids /\ kids <> []).
  { intros kids kids' ks F QS GO E. apply go_spec in GO. destruct GO as (a & k & k' & b & -> & -> & U & NA). apply seq_mid in E. destruct E as (x & y & z & A & R & B & ->).
    apply Forall_app in F. destruct F as [_ F]. inversion F as [|? ? H _]; subst. apply Forall_app in QS. destruct QS as [QA QS]. inversion QS as [|? ? QK QB]; subst.
    destruct (H k' y QK U R) as (y' & R' & AF & T & T'). exists (x ++ y' ++ z). split; [apply mid_seq; assumption|]. split.
    - apply at_first_skip; [exact (none_without name f a Q x QA NA A)|]. apply at_first_app, AF.
    - split; [apply apart_replace; assumption|]. destruct a; discriminate. }
  induction j as [n a sc kids cl IH|kids IH|t| |x|u x yes no IHy IHn] using jsx_all; intros j' l QJ U R; try discriminate.
  - rewrite update_element in U. destruct (text_eqb n name) eqn:E.
    + apply text_eqb_spec in E. subst n. injection U as <-. destruct (element_render _ _ _ _ _ _ R) as (ks & _ & -> & _).
      inversion QJ as [? ? ? ? ? QA _| | | | |]; subst. destruct (G a sc kids cl _ (QA eq_refl) R) as (y & Y & PY & T). exists y. split; [exact Y|].
      split; [|split; [reflexivity|exact T]]. rewrite <- (app_nil_r y). apply af_here, PY.
    + destruct (go name f kids) as [kids'|] eqn:GO; [|discriminate]. cbn [option_map] in U. injection U as <-.
      apply element_render in R. destruct R as (ks & KS & -> & AP & IN & CL). inversion QJ; subst.
      destruct (K kids kids' ks IH) as (ks' & KS' & AF & AP' & NE); [assumption|exact GO|exact KS|]. exists [DElem n (eval_attrs s a) ks'].
      split; [|split; [apply af_inside; [intros ->; rewrite teq_refl in E; discriminate|exact AF]|split; reflexivity]].
      apply render_element; [exact KS'|congruence|exact IN|]. destruct sc; [destruct CL; contradiction|exact CL].
  - rewrite update_fragment in U. destruct (go name f kids) as [kids'|] eqn:GO; [|discriminate]. cbn [option_map] in U. injection U as <-.
    cbn [render] in R. destruct (apart kids) eqn:AP; [|discriminate]. inversion QJ; subst.
    destruct (K kids kids' l IH) as (ks' & KS' & AF & AP' & NE); [assumption|exact GO|exact R|]. exists ks'. cbn [render]. rewrite AP', AP. split; [exact KS'|]. split; [exact AF|split; reflexivity].
Qed.
(** Other names stay quiet. *)
Lemma update_quiet name (Q0 : list jattr -> list jsx -> Prop) f other (Q : list jattr -> list jsx -> Prop) : (forall a sc kids cl, Q0 a kids -> quiet other Q (JElement name a sc kids cl) -> quiet other Q (f (JElement name a sc kids cl))) ->
  (forall a kids kids', go name f kids = Some kids' -> Q a kids -> Q a kids') ->
  forall j j', update_first name f j = Some j' -> quiet name Q0 j -> quiet other Q j -> quiet other Q j'.
Proof.
  intros F QK j. induction j as [n a sc kids cl IH|kids IH|t| |x|u x yes no IHy IHn] using jsx_all; intros j' U Q0J QJ; try discriminate.
  - rewrite update_element in U. inversion Q0J as [? ? ? ? ? QA0 QS0| | | | |]; subst. destruct (text_eqb n name) eqn:E.
    + apply text_eqb_spec in E. subst n. injection U as <-. apply F; [apply QA0; reflexivity|exact QJ].
    + destruct (go name f kids) as [kids'|] eqn:GO; [|discriminate]. cbn [option_map] in U. injection U as <-. inversion QJ as [? ? ? ? ? QA QS| | | | |]; subst.
      constructor; [intros X; eapply QK; eauto|]. apply go_spec in GO. destruct GO as (x & k & k' & b & -> & -> & U & NA).
      apply Forall_app in IH. destruct IH as [_ IH]. inversion IH as [|? ? H _]; subst. apply Forall_app in QS. destruct QS as [QS1 QS2]. inversion QS2; subst.
      apply Forall_app in QS0. destruct QS0 as [_ QS0]. inversion QS0; subst.
      apply Forall_app. split; [assumption|]. constructor; [apply H; assumption|assumption].
  - rewrite update_fragment in U. inversion Q0J as [|? QS0| | | |]; subst. destruct (go name f kids) as [kids'|] eqn:GO; [|discriminate]. cbn [option_map] in U. injection U as <-. inversion QJ as [|? QS| | | |]; subst.
    constructor. apply go_spec in GO. destruct GO as (x & k & k' & b & -> & -> & U & NA).
    apply Forall_app in IH. destruct IH as [_ IH]. inversion IH as [|? ? H _]; subst. apply Forall_app in QS. destruct QS as [QS1 QS2]. inversion QS2; subst.
    apply Forall_app in QS0. destruct QS0 as [_ QS0]. inversion QS0; subst.
    apply Forall_app. split; [assumption|]. constructor; [apply H; assumption|assumption].
Qed.
End render.
