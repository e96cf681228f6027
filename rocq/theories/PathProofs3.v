From Coq Require Import String List NArith ZArith Bool Arith Lia.
From Verif Require Import Chars ParseModel ParseSpec ParseProofs ParseProofs2 ParseProofs3 ParseProofs4 PathModel PathSpec PathProofs PathProofs2.
Import ListNotations.

(** ** The text of a number *)
Lemma drop_zeros_app n l : match l with [] => True | c :: _ => c <> 0%N end ->
  drop_while (N.eqb 0) (repeat 0%N n ++ l) = l.
Proof.
  intros H. induction n as [|n IH]; cbn [repeat app]; [|exact IH].
  destruct l as [|[|c] l]; try reflexivity. contradiction.
Qed.
Lemma shortest_exact n a ds b e : ds <> [] -> hd 0%N ds <> 0%N -> last ds 0%N <> 0%N ->
  shortest n (repeat 0%N a ++ ds ++ repeat 0%N b) e = Dec n ds (e + Z.of_nat b).
Proof.
  intros NE H L. unfold shortest. rewrite drop_zeros_app.
  2:{ destruct ds; [contradiction|exact H]. }
  destruct (exists_last NE) as (ds' & x & ->). rewrite last_last in L.
  rewrite !rev_app_distr, rev_repeat. cbn [rev app]. rewrite drop_zeros_app by exact L.
  cbn [rev]. rewrite rev_involutive. f_equal.
  rewrite !app_length, repeat_length. simpl List.length. rewrite rev_length. lia.
Qed.

Lemma rust_f64_plain s n i tf f : sign_text s n -> Forall digit i -> fraction tf f -> i ++ f <> [] ->
  rust_f64 (s ++ i ++ tf) = Some (shortest n (map (fun c => (c - 48)%N) (i ++ f)) (- Z.of_nat (List.length f))).
Proof.
  intros SG I FR NE.
  assert (HTF : match tf with [] => True | c :: _ => ~ digit c end).
  { destruct FR as [[-> _]|[-> _]]; simpl; [exact Logic.I|unfold digit; lia]. }
  unfold rust_f64. rewrite (sign_app s n); [|exact SG|].
  2:{ destruct i as [|c i]; simpl; [|apply digit_not_sign; inversion I; auto].
      destruct FR as [[-> ->]|[-> _]]; simpl; [contradiction|reflexivity]. }
  rewrite (digits_all_app i tf) by assumption.
  match goal with |- context [match ?X with pair _ _ => _ end] =>
    assert (HF : X = (map (fun c => (c - 48)%N) f, [])) end.
  { destruct FR as [[-> ->]|[-> F]]; simpl; [reflexivity|]. apply digits_all, F. }
  rewrite HF. rewrite <- map_app.
  destruct (map (fun c => (c - 48)%N) (i ++ f)) as [|y ys] eqn:EM.
  { destruct (i ++ f); [contradiction|discriminate]. }
  rewrite map_length. reflexivity.
Qed.

Lemma digit_char_digit c : (c < 10)%N -> digit (digit_char c).
Proof. unfold digit, digit_char. lia. Qed.
Lemma map_digit_chars l : Forall (fun c => (c < 10)%N) l -> Forall digit (map digit_char l).
Proof. induction 1; simpl; constructor; auto. apply digit_char_digit; auto. Qed.
Lemma map_sub l : map (fun c => (c - 48)%N) (map digit_char l) = l.
Proof. induction l; simpl; f_equal; auto. unfold digit_char. lia. Qed.
Lemma map_sub_zeros n : map (fun c => (c - 48)%N) (zeros n) = repeat 0%N n.
Proof. induction n; simpl; f_equal; auto. Qed.
Lemma zeros_digits n : Forall digit (zeros n).
Proof. induction n; simpl; constructor; auto. unfold digit. lia. Qed.

Lemma strip_suffix_end c s : strip_suffix c (s ++ [c]) = s.
Proof. unfold strip_suffix. rewrite rev_app_distr. cbn [rev app]. rewrite N.eqb_refl. apply rev_involutive. Qed.
Lemma strip_suffix_other c s x : x <> c -> strip_suffix c (s ++ [x]) = s ++ [x].
Proof. intros D. unfold strip_suffix. rewrite rev_app_distr. cbn [rev app]. apply N.eqb_neq in D. rewrite D. reflexivity. Qed.
Lemma contains_dot a b : contains [DOT] (a ++ DOT :: b) = true.
Proof. apply contains_spec. exists a, b. reflexivity. Qed.

Definition T (d : dec) : text := short_number (ryu d).
(** the number printed for it is read back as this *)
Definition norm0 (d : dec) : dec := match dig d with [] => zero | _ => d end.
Lemma norm0_same d : same_number d (norm0 d).
Proof. unfold norm0, same_number. destruct (dig d) eqn:E; [right; auto|left; auto]. Qed.

Definition pos (d : dec) : Z := (Z.of_nat (List.length (dig d)) + ex d)%Z.

(** the shape of the printed number *)
Record shape (d : dec) (s i tf f : text) : Prop := {
  sh_text : T d = s ++ i ++ tf;
  sh_sign : sign_text s (neg d && negb (match dig d with [] => true | _ => false end));
  sh_plus : s <> [43%N];
  sh_int : Forall digit i;
  sh_frac : fraction tf f;
  sh_frac_ne : tf <> [] -> f <> [];
  sh_ne : i ++ f <> [];
  sh_read : rust_f64 (s ++ i ++ tf) = Some (norm0 d);
  sh_small : dig d <> [] -> (pos d <= 0)%Z -> i = [];
  sh_whole : (ex d < 0)%Z -> tf <> []
}.

Lemma no_prefix_0dot c r : c <> 48%N -> starts_with (lit "0.") (c :: r) = false.
Proof. intros H. unfold starts_with. cbn. destruct (N.eqb_spec 48 c) as [<-|]; [contradiction|]. destruct c as [|p]; try reflexivity.
  do 6 (destruct p as [p|p|]; try reflexivity). contradiction. Qed.
Lemma no_prefix_m0dot c r : c <> 48%N -> starts_with (lit "-0.") (45%N :: c :: r) = false.
Proof. intros H. unfold starts_with. cbn. destruct c as [|p]; try reflexivity.
  do 6 (destruct p as [p|p|]; try reflexivity). contradiction. Qed.

(** shortening a number that does not begin with a zero *)
Lemma short_plain (sg body : text) c r : body = c :: r -> (49 <= c <= 57)%N -> sg = [] \/ sg = [45%N] ->
  forall raw, raw = sg ++ body ->
  (if text_eqb raw (lit "0.") || text_eqb raw (lit "-0.") then lit "0"
   else let raw := raw in
     if starts_with (lit "0.") raw then tl raw
     else if starts_with (lit "-0.") raw then 45%N :: tl (tl raw) else raw) = sg ++ body.
Proof.
  intros -> C SG raw ->. destruct SG as [->| ->]; cbn [app].
  - assert (text_eqb (c :: r) (lit "0.") = false) as ->. { apply text_eqb_neq. intros E. inversion E. lia. }
    assert (text_eqb (c :: r) (lit "-0.") = false) as ->. { apply text_eqb_neq. intros E. inversion E. lia. }
    rewrite no_prefix_0dot by lia. cbn [orb]. cbv zeta.
    assert (starts_with (lit "-0.") (c :: r) = false) as ->; [|reflexivity].
    destruct (starts_with (lit "-0.") (c :: r)) eqn:S; [|reflexivity]. exfalso. unfold starts_with in S.
    destruct (strip_prefix (lit "-0.") (c :: r)) eqn:P; [|discriminate]. apply strip_prefix_spec in P. inversion P. lia.
  - assert (text_eqb (45%N :: c :: r) (lit "0.") = false) as -> by reflexivity.
    assert (text_eqb (45%N :: c :: r) (lit "-0.") = false) as ->. { apply text_eqb_neq. intros E. inversion E. lia. }
    cbn [orb]. cbv zeta. rewrite no_prefix_m0dot by lia.
    assert (starts_with (lit "0.") (45%N :: c :: r) = false) as -> by reflexivity. reflexivity.
Qed.

Lemma short_whole sg c r : (49 <= c <= 57)%N -> sg = [] \/ sg = [45%N] ->
  short_number (sg ++ (c :: r) ++ lit ".0") = sg ++ c :: r.
Proof.
  intros C SG. unfold short_number.
  assert (E : sg ++ (c :: r) ++ lit ".0" = (sg ++ c :: r ++ [DOT]) ++ [48%N]).
  { rewrite <- app_assoc. cbn [app]. rewrite <- app_assoc. reflexivity. }
  assert (CD : contains [DOT] (sg ++ (c :: r) ++ lit ".0") = true).
  { replace (sg ++ (c :: r) ++ lit ".0") with ((sg ++ c :: r) ++ DOT :: [48%N]) by (rewrite <- app_assoc; reflexivity). apply contains_dot. }
  rewrite CD, E, strip_suffix_end.
  assert (E2 : sg ++ c :: r ++ [DOT] = (sg ++ c :: r) ++ [DOT]) by (rewrite <- app_assoc; reflexivity).
  assert (NZ : text_eqb (sg ++ c :: r ++ [DOT]) (lit "0.") || text_eqb (sg ++ c :: r ++ [DOT]) (lit "-0.") = false).
  { apply orb_false_iff. rewrite !text_eqb_neq. destruct SG as [->| ->]; split; intros X; inversion X; lia. }
  rewrite NZ, E2, strip_suffix_end.
  pose proof (short_plain sg (c :: r) c r eq_refl C SG (sg ++ c :: r) eq_refl) as SP. cbv zeta in SP.
  assert (NZ' : text_eqb (sg ++ c :: r) (lit "0.") || text_eqb (sg ++ c :: r) (lit "-0.") = false).
  { apply orb_false_iff. rewrite !text_eqb_neq. destruct SG as [->| ->]; split; intros X; inversion X; lia. }
  rewrite NZ' in SP. exact SP.
Qed.

Lemma short_mixed sg c r x : (49 <= c <= 57)%N -> sg = [] \/ sg = [45%N] -> (49 <= x <= 57)%N -> In DOT r ->
  short_number (sg ++ (c :: r) ++ [x]) = sg ++ (c :: r) ++ [x].
Proof.
  intros C SG X ID. unfold short_number.
  assert (E : sg ++ (c :: r) ++ [x] = (sg ++ c :: r) ++ [x]) by (rewrite <- app_assoc; reflexivity).
  apply in_split in ID. destruct ID as (r1 & r2 & ->).
  assert (CD : contains [DOT] (sg ++ (c :: r1 ++ DOT :: r2) ++ [x]) = true).
  { replace (sg ++ (c :: r1 ++ DOT :: r2) ++ [x]) with ((sg ++ c :: r1) ++ DOT :: r2 ++ [x])
      by (rewrite <- app_assoc; cbn [app]; rewrite <- app_assoc; reflexivity). apply contains_dot. }
  rewrite CD, E, strip_suffix_other by lia.
  assert (XD : x <> DOT) by (unfold DOT; lia).
  rewrite (strip_suffix_other DOT _ x XD).
  rewrite <- E.
  exact (short_plain sg ((c :: r1 ++ DOT :: r2) ++ [x]) c _ eq_refl C SG _ eq_refl).
Qed.

Lemma short_fraction sg r x : sg = [] \/ sg = [45%N] -> (49 <= x <= 57)%N ->
  short_number (sg ++ lit "0." ++ r ++ [x]) = sg ++ [DOT] ++ r ++ [x].
Proof.
  intros SG X. unfold short_number.
  assert (E : sg ++ lit "0." ++ r ++ [x] = (sg ++ lit "0." ++ r) ++ [x]) by (rewrite <- !app_assoc; reflexivity).
  assert (CD : contains [DOT] (sg ++ lit "0." ++ r ++ [x]) = true).
  { replace (sg ++ lit "0." ++ r ++ [x]) with ((sg ++ [48%N]) ++ DOT :: r ++ [x]) by (rewrite <- app_assoc; reflexivity). apply contains_dot. }
  rewrite CD, E, strip_suffix_other by lia.
  assert (XD : x <> DOT) by (unfold DOT; lia).
  rewrite (strip_suffix_other DOT _ x XD), <- E.
  assert (NZ : text_eqb (sg ++ lit "0." ++ r ++ [x]) (lit "0.") || text_eqb (sg ++ lit "0." ++ r ++ [x]) (lit "-0.") = false).
  { apply orb_false_iff. rewrite !text_eqb_neq. destruct SG as [->| ->]; split; intros Y; inversion Y; destruct r; discriminate. }
  rewrite NZ. destruct SG as [->| ->].
  - cbn [app]. assert (starts_with (lit "0.") (lit "0." ++ r ++ [x]) = true) as ->; [|reflexivity].
    unfold starts_with. assert (strip_prefix (lit "0.") (lit "0." ++ r ++ [x]) = Some (r ++ [x])) as -> by (apply strip_prefix_spec; reflexivity). reflexivity.
  - assert (starts_with (lit "0.") ([45%N] ++ lit "0." ++ r ++ [x]) = false) as -> by reflexivity.
    assert (starts_with (lit "-0.") ([45%N] ++ lit "0." ++ r ++ [x]) = true) as ->; [|reflexivity].
    unfold starts_with. assert (strip_prefix (lit "-0.") ([45%N] ++ lit "0." ++ r ++ [x]) = Some (r ++ [x])) as -> by (apply strip_prefix_spec; reflexivity). reflexivity.
Qed.

Lemma shape_exists d : canonical d -> plain d -> exists s i tf f, shape d s i tf f.
Proof.
  destruct d as [n ds k]. unfold canonical, plain. cbn [dig ex neg]. intros CA PL.
  destruct ds as [|c ds].
  { subst k. exists [], (lit "0"), [], []. split; cbn [dig ex neg]; auto.
    - destruct n; reflexivity.
    - rewrite andb_false_r. left; auto.
    - discriminate.
    - repeat constructor; simpl; lia.
    - left; auto.
    - discriminate.
    - contradiction.
    - lia. }
  destruct CA as (C0 & CL & CF). destruct PL as [PL|PL]; [discriminate|].
  set (sg := if n then [45%N] else []).
  assert (SG : sg = [] \/ sg = [45%N]) by (destruct n; auto).
  assert (SGT : sign_text sg (n && negb false)) by (destruct n; [right; right|left]; auto).
  assert (SGP : sg <> [43%N]) by (destruct n; discriminate).
  pose proof (map_digit_chars _ CF) as DC.
  assert (HC : (49 <= digit_char c <= 57)%N).
  { inversion CF; subst. unfold digit_char. lia. }
  assert (NEd : c :: ds <> []) by discriminate.
  destruct (exists_last NEd) as (ds' & x & EL).
  assert (HX : (49 <= digit_char x <= 57)%N).
  { rewrite EL, last_last in CL. rewrite EL in CF. apply Forall_app in CF. destruct CF as [_ CF]. inversion CF; subst.
    unfold digit_char. lia. }
  assert (NM : n && negb false = n) by (destruct n; reflexivity).
  unfold T, ryu. cbn [dig ex neg]. fold sg.
  set (L := Z.of_nat (List.length (c :: ds))) in *.
  destruct ((0 <=? k)%Z && (L + k <=? 16)%Z) eqn:CASE1.
  - (* whole *)
    apply andb_true_iff in CASE1. destruct CASE1 as [K1 K2]. apply Z.leb_le in K1.
    exists sg, (map digit_char (c :: ds) ++ zeros (Z.to_nat k)), [], [].
    assert (IN : Forall digit (map digit_char (c :: ds) ++ zeros (Z.to_nat k))) by (apply Forall_app; split; [exact DC|apply zeros_digits]).
    assert (INE : (map digit_char (c :: ds) ++ zeros (Z.to_nat k)) ++ [] <> []) by discriminate.
    split; cbn [dig ex neg].
    + unfold T, ryu. cbn [dig ex neg]. fold sg. fold L.
      assert ((0 <=? k)%Z && (L + k <=? 16)%Z = true) as -> by (apply andb_true_iff; split; [apply Z.leb_le|]; auto).
      cbn [map]. rewrite app_nil_r.
      replace (sg ++ (digit_char c :: map digit_char ds) ++ zeros (Z.to_nat k) ++ lit ".0")
        with (sg ++ (digit_char c :: (map digit_char ds ++ zeros (Z.to_nat k))) ++ lit ".0")
        by (cbn [app]; rewrite <- !app_assoc; reflexivity).
      rewrite short_whole by auto. reflexivity.
    + exact SGT.
    + exact SGP.
    + exact IN.
    + left; auto.
    + contradiction.
    + exact INE.
    + rewrite (rust_f64_plain sg n _ [] []); [|rewrite NM in SGT; exact SGT|exact IN|left; auto|exact INE].
      rewrite app_nil_r, map_app, map_sub, map_sub_zeros. f_equal.
      pose proof (shortest_exact n 0 (c :: ds) (Z.to_nat k) (- Z.of_nat (List.length (@nil N))) ltac:(discriminate) C0 CL) as SE.
      cbn [repeat app] in SE. cbn [app]. rewrite SE. unfold norm0. cbn [dig]. f_equal. simpl. lia.
    + intros _ P. unfold pos in P. cbn [dig ex] in P. fold L in P. unfold L in P. simpl List.length in P. lia.
    + lia.
  - destruct ((0 <? L + k)%Z && (L + k <=? 16)%Z) eqn:CASE2.
    + (* a point inside *)
      apply andb_true_iff in CASE2. destruct CASE2 as [K1 K2]. apply Z.ltb_lt in K1. apply Z.leb_le in K2.
      assert (KN : (k < 0)%Z).
      { apply andb_false_iff in CASE1. rewrite Z.leb_gt, Z.leb_gt in CASE1. lia. }
      set (j := Z.to_nat (L + k)).
      assert (J1 : 0 < j) by (unfold j; lia).
      assert (J2 : j < List.length (c :: ds)) by (unfold j, L; lia).
      set (cs := map digit_char (c :: ds)) in *.
      assert (LC : List.length cs = List.length (c :: ds)) by (unfold cs; apply map_length).
      assert (I1 : Forall digit (firstn j cs)).
      { rewrite <- (firstn_skipn j cs) in DC. apply Forall_app in DC. tauto. }
      assert (F1 : Forall digit (skipn j cs)).
      { rewrite <- (firstn_skipn j cs) in DC. apply Forall_app in DC. tauto. }
      assert (FN : skipn j cs <> []).
      { intros E. apply (f_equal (@List.length N)) in E. rewrite skipn_length in E. simpl List.length in E at 2. lia. }
      assert (NEI : firstn j cs ++ skipn j cs <> []) by (rewrite firstn_skipn; discriminate).
      assert (EC : cs = map digit_char ds' ++ [digit_char x]) by (unfold cs; rewrite EL, map_app; reflexivity).
      assert (SK : exists r', skipn j cs = r' ++ [digit_char x]).
      { destruct (exists_last FN) as (r' & y & E). exists r'. rewrite E. f_equal. f_equal.
        rewrite <- (firstn_skipn j cs) in EC. rewrite E, app_assoc in EC. apply app_inj_tail in EC. tauto. }
      destruct SK as (r' & SK).
      assert (FI : exists r0, firstn j cs = digit_char c :: r0).
      { unfold cs. cbn [map]. destruct j; [lia|]. cbn [firstn]. eexists. reflexivity. }
      destruct FI as (r0 & FI).
      exists sg, (firstn j cs), (DOT :: skipn j cs), (skipn j cs).
      split; cbn [dig ex neg].
      * unfold T, ryu. cbn [dig ex neg]. fold sg. fold L. rewrite CASE1.
        assert ((0 <? L + k)%Z && (L + k <=? 16)%Z = true) as -> by (apply andb_true_iff; rewrite Z.ltb_lt, Z.leb_le; auto).
        fold cs. fold j. rewrite SK, FI.
        replace (sg ++ (digit_char c :: r0) ++ [DOT] ++ r' ++ [digit_char x])
          with (sg ++ (digit_char c :: (r0 ++ [DOT] ++ r')) ++ [digit_char x]) by (cbn [app]; rewrite <- !app_assoc; reflexivity).
        rewrite short_mixed; auto; [|rewrite in_app_iff; right; left; reflexivity].
        cbn [app]. rewrite <- !app_assoc. reflexivity.
      * exact SGT.
      * exact SGP.
      * exact I1.
      * right. split; [reflexivity|exact F1].
      * intros _. exact FN.
      * exact NEI.
      * rewrite (rust_f64_plain sg n _ (DOT :: skipn j cs) (skipn j cs)); [|rewrite NM in SGT; exact SGT|exact I1|right; split; [reflexivity|exact F1]|exact NEI].
        rewrite firstn_skipn. unfold cs at 1. rewrite map_sub. f_equal.
        pose proof (shortest_exact n 0 (c :: ds) 0 (- Z.of_nat (List.length (skipn j cs))) ltac:(discriminate) C0 CL) as SE.
        cbn [repeat app] in SE. rewrite app_nil_r in SE. rewrite SE. unfold norm0. cbn [dig]. f_equal.
        rewrite skipn_length, LC. unfold j, L in *. lia.
      * intros _ P. unfold pos in P. cbn [dig ex] in P. fold L in P. lia.
      * intros _. discriminate.
    + (* a fraction *)
      assert (K : (-5 < L + k <= 0)%Z).
      { apply andb_false_iff in CASE2. rewrite Z.ltb_ge, Z.leb_gt in CASE2. lia. }
      set (z := Z.to_nat (- (L + k))).
      exists sg, [], (DOT :: zeros z ++ map digit_char (c :: ds)), (zeros z ++ map digit_char (c :: ds)).
      assert (F1 : Forall digit (zeros z ++ map digit_char (c :: ds))) by (apply Forall_app; split; [apply zeros_digits|exact DC]).
      assert (FN : zeros z ++ map digit_char (c :: ds) <> []) by (intros E; apply app_eq_nil in E; destruct E; discriminate).
      split; cbn [dig ex neg].
      * unfold T, ryu. cbn [dig ex neg]. fold sg. fold L. rewrite CASE1, CASE2.
        assert ((-5 <? L + k)%Z && (L + k <=? 0)%Z = true) as -> by (apply andb_true_iff; rewrite Z.ltb_lt, Z.leb_le; lia).
        fold z. rewrite EL, map_app. cbn [map].
        replace (sg ++ lit "0." ++ zeros z ++ map digit_char ds' ++ [digit_char x])
          with (sg ++ lit "0." ++ (zeros z ++ map digit_char ds') ++ [digit_char x]) by (rewrite <- !app_assoc; reflexivity).
        rewrite short_fraction by auto. rewrite <- !app_assoc. reflexivity.
      * exact SGT.
      * exact SGP.
      * constructor.
      * right. split; [reflexivity|exact F1].
      * intros _. exact FN.
      * exact FN.
      * rewrite (rust_f64_plain sg n [] _ (zeros z ++ map digit_char (c :: ds))); [|rewrite NM in SGT; exact SGT|constructor|right; split; [reflexivity|exact F1]|exact FN].
        cbn [app]. rewrite map_app, map_sub, map_sub_zeros. f_equal.
        pose proof (shortest_exact n z (c :: ds) 0 (- Z.of_nat (List.length (zeros z ++ map digit_char (c :: ds)))) ltac:(discriminate) C0 CL) as SE.
        cbn [repeat] in SE. rewrite app_nil_r in SE. rewrite SE. unfold norm0. cbn [dig]. f_equal.
        rewrite app_length, map_length. unfold zeros. rewrite repeat_length. unfold z, L in *. lia.
      * intros _ _. reflexivity.
      * intros _. discriminate.
Qed.
