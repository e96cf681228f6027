From Coq Require Import List NArith Bool Arith Lia.
From Verif Require Import TextModel TextSpec TextProofs ServerModel ServerSpec.
Import ListNotations.

(** ** One diagnostic *)
Lemma to_diagnostic : forall u source p d, error_to_diagnostic source u p = Some d -> tells u source p d.
Proof.
  intros u source [m s r h] d H. unfold error_to_diagnostic in H. cbn [p_range p_severity p_text p_help] in H.
  assert (G : forall rg, Some (Diagnostic rg (match s with Off => None | Warn => Some WARNING | Err => Some ERROR end) m (match h with Some h => Some (u, rg, h) | None => None end)) = Some d ->
    (match r with Some (s, t) => told_place source s (r_start rg) /\ told_place source t (r_end rg) | None => rg = Range (0, 0)%N (0, 0)%N end) -> tells u source (Problem m s r h) d).
  { intros rg E R. injection E as <-. unfold tells. cbn [d_message p_text p_severity d_severity p_range d_range p_help d_related].
    split; [reflexivity|]. split; [destruct s; split; congruence|]. split; [destruct s; split; congruence|]. split; [exact R|]. destruct h; reflexivity. }
  destruct r as [[a b]|].
  - destruct (to_line_and_col a (bytes_of source)) as [[l c]|] eqn:A; [|discriminate]. destruct (to_line_and_col b (bytes_of source)) as [[l' c']|] eqn:B; [|discriminate].
    apply (G _ H). cbn [r_start r_end fst snd]. split.
    + exists l, c. split; [apply line_col_exact; exact A|reflexivity].
    + exists l', c'. split; [apply line_col_exact; exact B|reflexivity].
  - apply (G _ H). reflexivity.
Qed.
Lemma to_diagnostic_total : forall u source p, in_text source p -> error_to_diagnostic source u p <> None.
Proof.
  intros u source [m s r h] I. unfold error_to_diagnostic, in_text in *. cbn [p_range] in *. destruct r as [[a b]|]; [|discriminate]. destruct I as [A B].
  destruct (to_line_and_col a (bytes_of source)) eqn:X; [|apply line_col_panic in X; lia]. destruct (to_line_and_col b (bytes_of source)) eqn:Y; [discriminate|apply line_col_panic in Y; lia].
Qed.
Lemma collect_forall : forall A B (f : A -> option B) l r, collect (map f l) = Some r -> Forall2 (fun a b => f a = Some b) l r.
Proof.
  induction l as [|a l IH]; intros r H; cbn [map collect] in H; [injection H as <-; constructor|]. destruct (f a) as [b|] eqn:F; [|discriminate]. cbn [option_map] in H.
  destruct (collect (map f l)) as [r'|]; [|discriminate]. injection H as <-. constructor; [exact F|]. apply IH. reflexivity.
Qed.
Lemma collect_total : forall A B (f : A -> option B) l, Forall (fun a => f a <> None) l -> collect (map f l) <> None.
Proof.
  induction 1 as [|a l H F IH]; [discriminate|]. cbn [map collect]. destruct (f a); [|congruence]. destruct (collect (map f l)); [discriminate|congruence].
Qed.
Lemma forall2_impl : forall A B (P Q : A -> B -> Prop) l r, (forall a b, P a b -> Q a b) -> Forall2 P l r -> Forall2 Q l r.
Proof. intros A B P Q l r H F. induction F; constructor; auto. Qed.

(** ** Events *)
Lemma last_change_rev : forall l, last_change l = match rev l with t :: _ => Some t | [] => None end.
Proof.
  induction l as [|t l IH]; [reflexivity|]. destruct l as [|t' l]; [reflexivity|]. cbn [last_change] in *. rewrite IH. cbn [rev]. destruct (rev l) as [|x y]; reflexivity.
Qed.
Section S.
Variable analyse : N -> list N -> outcome.
Lemma serve_app : forall a b ns, serve analyse (a ++ b) = Some ns -> exists x y, serve analyse a = Some x /\ serve analyse b = Some y /\ ns = x ++ y.
Proof.
  induction a as [|e a IH]; intros b ns H; cbn [app serve] in *; [exists [], ns; auto|]. destruct (handle analyse e) as [h|]; [|discriminate].
  destruct (serve analyse (a ++ b)) as [z|] eqn:E; [|discriminate]. injection H as <-. destruct (IH b z E) as (x & y & X & Y & ->). rewrite X. exists (h ++ x), y. rewrite app_assoc. auto.
Qed.
Lemma shown_app : forall x y u, shown (x ++ y) u = fold_left (fun now n => match n with Publish v d => if N.eqb u v then d else now end) y (shown x u).
Proof. intros. unfold shown. apply fold_left_app. Qed.
(** The text that an event makes an editor have. *)
Definition sets (e : event) (u : N) : option (list N) :=
  match e with DidOpen v t => if N.eqb u v then Some t else None | DidChange v l => if N.eqb u v then last_change l else None | _ => None end.
Lemma current_snoc : forall l e u, current (l ++ [e]) u = match sets e u with Some t => Some t | None => match e with DidClose v => if N.eqb u v then None else current l u | _ => current l u end end.
Proof.
  intros l e u. unfold current. rewrite fold_left_app. cbn [fold_left]. fold (current l u). destruct e as [v t|v c|v|v]; cbn [follow sets]; try reflexivity.
  - destruct (N.eqb u v); reflexivity.
  - rewrite last_change_rev. destruct (N.eqb u v); [|reflexivity]. destruct (rev c); reflexivity.
Qed.
Lemma handled : forall e ns u x, handle analyse e = Some ns ->
  fold_left (fun now n => match n with Publish v d => if N.eqb u v then d else now end) ns x =
  match sets e u with Some t => match analyse u t with Problems _ => shown ns u | _ => x end | None => x end /\
  (forall t l, sets e u = Some t -> analyse u t = Problems l -> Forall2 (tells u t) l (shown ns u)).
Proof.
  assert (L : forall v t ns u x, lint analyse v t = Some ns ->
    fold_left (fun now n => match n with Publish v d => if N.eqb u v then d else now end) ns x =
    (if N.eqb u v then match analyse u t with Problems _ => shown ns u | _ => x end else x) /\
    (forall l, u = v -> analyse u t = Problems l -> Forall2 (tells u t) l (shown ns u))).
  { intros v t ns u x H. unfold lint in H. destruct (N.eqb_spec u v) as [<-|N].
    - destruct (analyse u t) as [| |l]; try (injection H as <-; split; [reflexivity|discriminate]).
      destruct (collect _) as [d|] eqn:C; [|discriminate]. cbn [option_map] in H. injection H as <-. unfold shown. cbn [fold_left]. rewrite N.eqb_refl. split; [reflexivity|]. intros l' _ E. injection E as <-.
      apply collect_forall in C. revert C. apply forall2_impl. intros a b. apply to_diagnostic.
    - split; [|congruence]. destruct (analyse v t) as [| |l]; try (injection H as <-; reflexivity). destruct (collect _); [|discriminate]. injection H as <-. cbn [fold_left]. destruct (N.eqb_spec u v); [congruence|reflexivity]. }
  intros e ns u x H. destruct e as [v t|v c|v|v]; cbn [handle sets] in *.
  - destruct (L v t ns u x H) as [A B]. rewrite A. destruct (N.eqb_spec u v) as [E|N]; (split; [reflexivity|]); [|discriminate]. intros t' l T. injection T as <-. apply B. exact E.
  - destruct (last_change c) as [t|].
    + destruct (L v t ns u x H) as [A B]. rewrite A. destruct (N.eqb_spec u v) as [E|N]; (split; [reflexivity|]); [|discriminate]. intros t' l T. injection T as <-. apply B. exact E.
    + injection H as <-. cbn [fold_left]. destruct (N.eqb u v); (split; [reflexivity|discriminate]).
  - injection H as <-. split; [reflexivity|discriminate].
  - injection H as <-. split; [reflexivity|discriminate].
Qed.
Lemma served_snoc : forall l e ns, serve analyse (l ++ [e]) = Some ns -> exists x y, serve analyse l = Some x /\ handle analyse e = Some y /\ ns = x ++ y.
Proof.
  intros l e ns H. apply serve_app in H. destruct H as (x & y & X & Y & ->). cbn [serve] in Y. destruct (handle analyse e) as [h|]; [|discriminate]. injection Y as <-. exists x, h. rewrite app_nil_r. auto.
Qed.
(** When a text has problems they are shown. *)
Lemma problems_shown : forall l ns u t p, serve analyse l = Some ns -> current l u = Some t -> analyse u t = Problems p -> Forall2 (tells u t) p (shown ns u).
Proof.
  intros l. induction l as [|e l IH] using rev_ind; intros ns u t p S C A; [discriminate C|]. apply served_snoc in S. destruct S as (x & y & X & Y & ->).
  rewrite shown_app. destruct (handled e y u (shown x u) Y) as [E B]. rewrite E. rewrite current_snoc in C. destruct (sets e u) as [t'|] eqn:T.
  - injection C as ->. rewrite A. apply (B _ _ eq_refl A).
  - apply (IH x u t p X); [|exact A]. destruct e as [v z|v z|v|v]; try exact C. destruct (N.eqb u v); [discriminate|exact C].
Qed.
(** What is shown was said of a text the document had. *)
Lemma shown_true : forall l ns u, serve analyse l = Some ns -> shown ns u = [] \/ exists t p, had l u t /\ analyse u t = Problems p /\ Forall2 (tells u t) p (shown ns u).
Proof.
  intros l. induction l as [|e l IH] using rev_ind; intros ns u S; [injection S as <-; left; reflexivity|]. apply served_snoc in S. destruct S as (x & y & X & Y & ->).
  rewrite shown_app. destruct (handled e y u (shown x u) Y) as [E B]. rewrite E.
  assert (K : shown x u = [] \/ exists t p, had (l ++ [e]) u t /\ analyse u t = Problems p /\ Forall2 (tells u t) p (shown x u)).
  { destruct (IH x u X) as [Z|(t & p & (a & b & -> & C) & A & F)]; [left; exact Z|]. right. exists t, p. split; [exists a, (b ++ [e]); rewrite app_assoc; auto|auto]. }
  destruct (sets e u) as [t|] eqn:T; [|exact K]. destruct (analyse u t) as [| |p] eqn:A; [exact K|exact K|]. right. exists t, p. split; [|split; [exact A|apply (B _ _ eq_refl A)]].
  exists (l ++ [e]), []. rewrite app_nil_r. split; [reflexivity|]. rewrite current_snoc, T. reflexivity.
Qed.
(** It stays as it was when a text has none, or cannot be read, or the document is closed. *)
Lemma shown_stays : forall l e ns u, serve analyse (l ++ [e]) = Some ns -> (forall t, sets e u = Some t -> analyse u t = Clean \/ analyse u t = Unparsed) ->
  exists x, serve analyse l = Some x /\ shown ns u = shown x u.
Proof.
  intros l e ns u S H. apply served_snoc in S. destruct S as (x & y & X & Y & ->). exists x. split; [exact X|]. rewrite shown_app. destruct (handled e y u (shown x u) Y) as [-> _].
  destruct (sets e u) as [t|]; [|reflexivity]. destruct (H t eq_refl) as [-> | ->]; reflexivity.
Qed.
(** The server goes on. *)
Lemma serve_total : (forall u t p, analyse u t = Problems p -> Forall (in_text t) p) -> forall l, serve analyse l <> None.
Proof.
  intros H. assert (L : forall u t, lint analyse u t <> None).
  { intros u t. unfold lint. destruct (analyse u t) as [| |p] eqn:A; try discriminate. pose proof (collect_total _ _ (error_to_diagnostic t u) p) as C.
    destruct (collect _); [discriminate|]. exfalso. apply C; [|reflexivity]. apply H in A. revert A. apply Forall_impl. intros a. apply to_diagnostic_total. }
  induction l as [|e l IH]; [discriminate|]. cbn [serve]. assert (E : handle analyse e <> None). { destruct e as [u t|u c|u|u]; cbn [handle]; try discriminate; [apply L|]. destruct (last_change c); [apply L|discriminate]. }
  destruct (handle analyse e); [|congruence]. destruct (serve analyse l); [discriminate|congruence].
Qed.
End S.

(** ** Places *)
Lemma encode_ascii : forall c, (c < 128)%N -> encode c = [c].
Proof. intros c H. unfold encode. destruct (N.ltb_spec c 128); [reflexivity|lia]. Qed.
Lemma encode_high : forall c, (128 <= c)%N -> Forall (fun b => (128 <= b)%N) (encode c) /\ units c < List.length (encode c).
Proof.
  intros c H. unfold encode, units. destruct (N.ltb_spec c 128); [lia|]. destruct (N.ltb_spec c 2048), (N.ltb_spec c 65536); try lia; (split; [repeat constructor; try (generalize (c / 64)%N, (c mod 64)%N, (c / 4096)%N, (c / 262144)%N; intros; lia)|cbn [List.length]; lia]).
  all: try (generalize (c / 64 mod 64)%N, (c / 4096 mod 64)%N; intros; lia).
Qed.
Lemma bytes_app : forall a b, bytes_of (a ++ b) = bytes_of a ++ bytes_of b.
Proof. intros. apply flat_map_app. Qed.
Lemma bytes_in : forall l, In 10%N (bytes_of l) <-> In 10%N l.
Proof.
  intros l. unfold bytes_of. rewrite in_flat_map. split.
  - intros (c & I & E). destruct (N.ltb_spec c 128); [rewrite encode_ascii in E by assumption; destruct E as [->|[]]; exact I|]. apply encode_high in H. destruct H as [F _]. rewrite Forall_forall in F. apply F in E. lia.
  - intros I. exists 10%N. split; [exact I|]. left. reflexivity.
Qed.
Lemma bytes_count : forall l, count_occ N.eq_dec (bytes_of l) 10%N = count_occ N.eq_dec l 10%N.
Proof.
  induction l as [|c l IH]; [reflexivity|]. cbn [bytes_of flat_map]. fold (bytes_of l). rewrite count_occ_app, IH. change (c :: l) with ([c] ++ l). rewrite count_occ_app. f_equal.
  destruct (N.ltb_spec c 128); [rewrite encode_ascii by assumption; reflexivity|]. apply encode_high in H as G. destruct G as [F _].
  transitivity 0; [apply count_occ_not_In; intros E; rewrite Forall_forall in F; apply F in E; lia|]. symmetry. apply count_occ_not_In. intros [E|[]]. lia.
Qed.
Lemma length_units : forall l, ~ In 10%N l -> fold_right (fun c n => units c + n) 0 l <= List.length (bytes_of l) /\
  (fold_right (fun c n => units c + n) 0 l = List.length (bytes_of l) <-> Forall (fun c => (c < 128)%N) l).
Proof.
  induction l as [|c l IH]; intros N; [split; [cbn; lia|split; [constructor|reflexivity]]|]. destruct IH as [L E]; [intros I; apply N; right; exact I|].
  cbn [bytes_of flat_map fold_right]. fold (bytes_of l). rewrite app_length. destruct (N.ltb_spec c 128) as [H|H].
  - rewrite encode_ascii by exact H. cbn [List.length]. assert (U : units c = 1) by (unfold units; destruct (N.ltb_spec c 65536); [reflexivity|lia]). rewrite U. split; [lia|]. split.
    + intros K. constructor; [exact H|]. apply E. lia.
    + intros F. inversion F as [|? ? _ F']; subst. apply E in F'. lia.
  - destruct (encode_high c H) as [_ G]. split; [lia|]. split; [lia|]. intros F. inversion F; subst. lia.
Qed.
Lemma place_line : forall l line column, paired l -> ~ In 10%N l -> place l line column = (line, column + fold_right (fun c n => units c + n) 0 l).
Proof.
  induction l as [|c l IH]; intros line column P N; cbn [place fold_right]; [f_equal; lia|]. destruct P as [C P].
  destruct (N.eqb_spec c 10) as [->|T]; [exfalso; apply N; left; reflexivity|]. destruct (N.eqb_spec c 13) as [->|R].
  - destruct (C eq_refl) as (r & ->). exfalso. apply N. right. left. reflexivity.
  - rewrite IH; [f_equal; lia|exact P|]. intros I. apply N. right. exact I.
Qed.
Lemma place_lines : forall a b line column, paired (a ++ b) -> (a = [] \/ exists x, a = x ++ [10%N]) ->
  place (a ++ b) line column = place b (line + count_occ N.eq_dec a 10%N) (match a with [] => column | _ => 0 end).
Proof.
  induction a as [|c a IH]; intros b line column P E; [cbn [app count_occ]; now rewrite Nat.add_0_r|]. cbn [app] in *. destruct P as [C P].
  assert (A : a = [] \/ exists x, a = x ++ [10%N]). { destruct E as [E|([|y x] & E)]; [discriminate| |]; injection E as _ ->; [left; reflexivity|right; eexists; reflexivity]. }
  assert (Z : a = [] -> c = 10%N). { intros ->. destruct E as [E|([|y x] & E)]; [discriminate|injection E as ->; reflexivity|]. injection E as _ E. destruct x; discriminate. }
  cbn [place]. destruct (N.eqb_spec c 10) as [->|T].
  - rewrite (IH b _ 0 P A). cbn [count_occ]. destruct (N.eq_dec 10 10) as [_|]; [|congruence]. f_equal; [lia|destruct a; reflexivity].
  - cbn [count_occ]. destruct (N.eq_dec c 10) as [|_]; [congruence|]. destruct a as [|d a]; [exfalso; auto|]. destruct (N.eqb_spec c 13) as [->|R].
    + destruct (C eq_refl) as (r & R). cbn [app] in R. injection R as -> R. cbn [app] in IH |- *. rewrite (IH b line (S column) P A). reflexivity.
    + rewrite (IH b line (column + units c) P A). reflexivity.
Qed.
Lemma last_line_split : forall l, exists a, l = a ++ last_line l /\ (a = [] \/ exists x, a = x ++ [10%N]) /\ ~ In 10%N (last_line l).
Proof.
  induction l as [|c l (a & E & H & N)]; [exists []; split; [reflexivity|]; split; [left; reflexivity|intros []]|]. cbn [last_line]. destruct (existsb (N.eqb 10) (c :: l)) eqn:X.
  - exists (c :: a). cbn [app]. rewrite <- E. split; [reflexivity|]. split; [|exact N]. right. destruct H as [->|(x & ->)]; [|exists (c :: x); reflexivity].
    exists []. cbn [app] in *. f_equal. apply existsb_exists in X. destruct X as (z & I & Z). apply N.eqb_eq in Z. subst z. destruct I as [I|I]; [exact I|]. rewrite E in I. contradiction.
  - exists []. split; [reflexivity|]. split; [left; reflexivity|]. intros I. assert (existsb (N.eqb 10) (c :: l) = true) by (apply existsb_exists; exists 10%N; split; [exact I|apply N.eqb_refl]). congruence.
Qed.
(** The line told is the line of the editor, and the column is when the line is ASCII up to there, and else it is too far. *)
Lemma places : forall before after line column, paired before ->
  position (bytes_of (before ++ after)) (List.length (bytes_of before)) line column ->
  fst (place before 0 0) = line /\ snd (place before 0 0) <= column /\ (snd (place before 0 0) = column <-> Forall (fun c => (c < 128)%N) (last_line before)).
Proof.
  intros before after line column P H. destruct (last_line_split before) as (a & E & A & N). remember (last_line before) as b. clear Heqb. subst before.
  assert (W : position (bytes_of ((a ++ b) ++ after)) (List.length (bytes_of (a ++ b))) (count_occ N.eq_dec a 10%N) (List.length (bytes_of b))).
  { exists (bytes_of a), (bytes_of b), (bytes_of after). rewrite !bytes_app. split; [now rewrite app_assoc|]. split; [reflexivity|]. split; [|split; [rewrite bytes_in; exact N|split; [apply bytes_count|reflexivity]]].
    destruct A as [->|(x & ->)]; [left; reflexivity|]. right. exists (bytes_of x). rewrite bytes_app. reflexivity. }
  apply line_col_exact in H. apply line_col_exact in W. rewrite H in W. injection W as -> ->.
  rewrite (place_lines a b 0 0 P A).
  assert (Q : paired b). { clear - P. induction a as [|c a IH]; [exact P|]. destruct P as [_ P]. apply IH. exact P. }
  rewrite (place_line b _ _ Q N). cbn [fst snd]. replace (match a with [] => 0 | _ => 0 end) with 0 by (destruct a; reflexivity). cbn [Nat.add]. destruct (length_units b N) as [L I]. split; [reflexivity|]. split; [exact L|exact I].
Qed.
