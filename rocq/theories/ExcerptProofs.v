From Coq Require Import List NArith Bool Arith Lia.
From Verif Require Import TextModel TextSpec TextProofs ExcerptModel ExcerptSpec.
Import ListNotations.

Lemma split_ne l : exists w ws, split_nl l = w :: ws.
Proof. destruct l as [|c l]; cbn [split_nl]; [eauto|]. destruct (N.eqb c 10); [eauto|]. destruct (split_nl l); eauto. Qed.
Lemma split_above l : concat (map (fun l => l ++ [10%N]) (split_nl l)) = l ++ [10%N].
Proof.
  induction l as [|c l IH]; [reflexivity|]. cbn [split_nl]. destruct (N.eqb_spec c 10) as [->|D].
  - cbn [map concat app]. rewrite IH. reflexivity.
  - destruct (split_ne l) as (w & ws & E). rewrite E in *. cbn [map concat app] in *. f_equal. exact IH.
Qed.
Lemma split_below l : concat (map (fun l => 10%N :: l) (split_nl l)) = 10%N :: l.
Proof.
  induction l as [|c l IH]; [reflexivity|]. cbn [split_nl]. destruct (N.eqb_spec c 10) as [->|D].
  - cbn [map concat app]. rewrite IH. reflexivity.
  - destruct (split_ne l) as (w & ws & E). rewrite E in *. cbn [map concat app] in *. injection IH as IH. rewrite IH. reflexivity.
Qed.
Lemma split_no l : Forall (fun l => ~ In 10%N l) (split_nl l).
Proof.
  induction l as [|c l IH]; cbn [split_nl]; [constructor; [intros []|constructor]|]. destruct (N.eqb_spec c 10) as [->|D]; [constructor; [intros []|exact IH]|].
  destruct (split_ne l) as (w & ws & E). rewrite E in *. inversion IH as [|x y Hx Hy]; subst. constructor; [intros [H|H]; [congruence|exact (Hx H)]|exact Hy].
Qed.
Lemma split_len l : List.length (split_nl l) = bytecount 10 l + 1.
Proof.
  induction l as [|c l IH]; [reflexivity|]. cbn [split_nl bytecount]. destruct (N.eqb c 10); [cbn [List.length]; rewrite IH; lia|].
  destruct (split_ne l) as (w & ws & E). rewrite E in *. cbn [List.length] in *. lia.
Qed.
Lemma split_one l : ~ In 10%N l -> split_nl l = [l].
Proof.
  induction l as [|c l IH]; intros H; [reflexivity|]. cbn [split_nl]. destruct (N.eqb_spec c 10) as [->|D]; [destruct H; left; reflexivity|].
  rewrite IH; [reflexivity|]. intros X. apply H. right. exact X.
Qed.
Lemma last_hd_rev {A} (l : list A) d : l <> [] -> hd_error (rev l) = Some (last l d).
Proof.
  intros H. destruct (exists_last H) as (m & x & ->). rewrite rev_app_distr, last_last. reflexivity.
Qed.
Lemma count_none l : ~ In 10%N l -> bytecount 10 l = 0.
Proof. intros H. rewrite bytecount_occ. apply count_occ_not_In. exact H. Qed.
Lemma bytecount_app l m : bytecount 10 (l ++ m) = bytecount 10 l + bytecount 10 m.
Proof. induction l as [|c l IH]; [reflexivity|]. cbn [app bytecount]. rewrite IH. lia. Qed.
Lemma position_nl_spec l : match position_nl l with Some j => exists a b, l = a ++ 10%N :: b /\ List.length a = j /\ ~ In 10%N a | None => ~ In 10%N l end.
Proof.
  induction l as [|c l IH]; cbn [position_nl]; [intros []|]. destruct (N.eqb_spec c 10) as [->|D].
  - exists [], l. split; [reflexivity|]. split; [reflexivity|]. intros [].
  - destruct (position_nl l) as [j|].
    + destruct IH as (a & b & -> & <- & Ha). exists (c :: a), b. split; [reflexivity|]. split; [reflexivity|]. intros [H|H]; [congruence|exact (Ha H)].
    + intros [H|H]; [congruence|exact (IH H)].
Qed.
Lemma prefix_of_line b rest l q : ~ In 10%N b -> b ++ rest = l ++ 10%N :: q -> List.length b <= List.length l.
Proof.
  revert l. induction b as [|c b IH]; intros l Hb E; [cbn; lia|]. destruct l as [|d l].
  - cbn in E. injection E as -> _. destruct Hb. left. reflexivity.
  - cbn in E. injection E as _ E. cbn. apply le_n_S, (IH l); [|exact E]. intros H. apply Hb. right. exact H.
Qed.

Lemma lines_at source s : s <= List.length source ->
  exists above b line tail below,
    let line_start := match rposition (fun c => N.eqb c 10) (firstn s source) with Some i => i + 1 | None => 0 end in
    let line_end := match position_nl (skipn line_start source) with Some i => i + line_start | None => List.length source end in
    source = above ++ line ++ tail /\ List.length above = line_start /\ firstn s source = above ++ b /\ ~ In 10%N b /\ List.length b <= List.length line /\ ~ In 10%N line /\
    firstn (line_end - line_start) (skipn line_start source) = line /\
    (above = [] \/ exists a, above = a ++ [10%N] /\ firstn (line_start - 1) source = a) /\
    (tail = [] /\ below = [] \/ tail = 10%N :: below) /\ skipn (Nat.min (List.length source) (line_end + 1)) source = below.
Proof.
  intros L. pose proof (rposition_spec (firstn s source)) as R. pose proof (firstn_skipn s source) as FS.
  assert (X : exists above b, firstn s source = above ++ b /\ ~ In 10%N b /\ List.length above = match rposition (fun c => N.eqb c 10) (firstn s source) with Some i => i + 1 | None => 0 end /\
    (above = [] \/ exists a, above = a ++ [10%N] /\ firstn (match rposition (fun c => N.eqb c 10) (firstn s source) with Some i => i + 1 | None => 0 end - 1) source = a)).
  { destruct (rposition _ (firstn s source)) as [i|].
    - destruct R as (a & b & E & La & Nb). exists (a ++ [10%N]), b. split; [rewrite E, <- app_assoc; reflexivity|]. split; [exact Nb|]. split; [rewrite app_length; cbn; lia|]. right. exists a. split; [reflexivity|].
      rewrite <- FS, E, <- app_assoc. rewrite firstn_app. replace (i + 1 - 1 - List.length a) with 0 by lia. rewrite firstn_O, app_nil_r. apply firstn_all2. lia.
    - exists [], (firstn s source). split; [reflexivity|]. split; [exact R|]. split; [reflexivity|]. left. reflexivity. }
  destruct X as (above & b & E & Nb & La & Hp). set (line_start := match rposition _ (firstn s source) with Some i => i + 1 | None => 0 end) in *.
  set (r := b ++ skipn s source).
  assert (S : source = above ++ r) by (unfold r; rewrite app_assoc, <- E; symmetry; exact FS).
  assert (K : skipn line_start source = r) by (rewrite S, <- La; rewrite skipn_app, Nat.sub_diag, skipn_all; reflexivity).
  assert (LS : List.length source = line_start + List.length r) by (rewrite S, app_length; lia).
  pose proof (position_nl_spec r) as P. cbv zeta. rewrite K. destruct (position_nl r) as [j|] eqn:Ej.
  - destruct P as (l & q & Er & Ll & Nl). exists above, b, l, (10%N :: q), q.
    split; [rewrite <- Er; exact S|]. split; [exact La|]. split; [exact E|]. split; [exact Nb|]. split; [apply (prefix_of_line b (skipn s source) l q Nb), Er|]. split; [exact Nl|].
    split; [replace (j + line_start - line_start) with j by lia; rewrite Er, firstn_app, <- Ll, Nat.sub_diag, firstn_all, firstn_O; apply app_nil_r|]. split; [exact Hp|]. split; [right; reflexivity|].
    rewrite Nat.min_r by (rewrite LS, Er, app_length; cbn; lia). rewrite S, Er.
    replace (above ++ l ++ 10%N :: q) with ((above ++ l ++ [10%N]) ++ q) by (rewrite <- !app_assoc; reflexivity).
    assert (Lx : List.length (above ++ l ++ [10%N]) = j + line_start + 1) by (rewrite !app_length; cbn; lia).
    rewrite skipn_app, <- Lx, Nat.sub_diag, skipn_all. reflexivity.
  - exists above, b, r, [], []. split; [rewrite app_nil_r; exact S|]. split; [exact La|]. split; [exact E|]. split; [exact Nb|]. split; [unfold r; rewrite app_length; lia|]. split; [exact P|].
    split; [apply firstn_all2; lia|]. split; [exact Hp|]. split; [left; split; reflexivity|]. rewrite Nat.min_l by lia. apply skipn_all.
Qed.

Theorem excerpt_shows source s e : s <= List.length source -> exists x, excerpt_of source s e = Some x /\ shows source s x /\ x_indent x = x_column x /\ x_marks x = e - s.
Proof.
  intros L. unfold excerpt_of. destruct (Nat.ltb_spec (List.length source) s) as [X|_]; [lia|].
  destruct (lines_at source s L) as (above & b & line & tail & below & H). cbv zeta in H |- *.
  set (line_start := match rposition _ (firstn s source) with Some i => i + 1 | None => 0 end) in *.
  set (line_end := match position_nl (skipn line_start source) with Some i => i + line_start | None => List.length source end) in *.
  destruct H as (S & La & E & Nb & Lb & Nl & El & Hp & Ht & Hn).
  rewrite El, Hn, (split_one line Nl), E, bytecount_app, (count_none b Nb), Nat.add_0_r. cbn [List.length number_from].
  assert (Ls : List.length above + List.length b = s) by (rewrite <- app_length, <- E; apply firstn_length_le, L).
  assert (N1 : (bytecount 10 above + 1 + 1 <? bytecount 10 above + 1 - 1 + 1) = false) by (apply Nat.ltb_ge; lia). rewrite N1.
  eexists. split; [reflexivity|]. split; [|split; reflexivity].
  set (up := match above with [] => [] | _ => split_nl (removelast above) end).
  assert (Up : concat (map (fun l => l ++ [10%N]) up) = above /\ Forall (fun l => ~ In 10%N l) up /\ List.length up = bytecount 10 above /\
    beside (match last (split_nl (firstn (line_start - 1) source)) [] with [] => None | _ => Some (bytecount 10 above + 1 - 1, last (split_nl (firstn (line_start - 1) source)) []) end) (bytecount 10 above) (hd_error (rev up))).
  { destruct Hp as [-> |(a & -> & Ea)].
    - subst up. cbn in La. rewrite <- La. cbn. auto.
    - assert (U : up = split_nl a) by (subst up; rewrite removelast_last; destruct (a ++ [10%N]) eqn:Z; [destruct a; discriminate|reflexivity]). rewrite U.
      split; [apply split_above|]. split; [apply split_no|]. assert (Lc : List.length (split_nl a) = bytecount 10 (a ++ [10%N])) by (rewrite split_len, bytecount_app; reflexivity). split; [exact Lc|].
      rewrite Ea. rewrite (last_hd_rev (split_nl a) []) by (destruct (split_ne a) as (w & ws & ->); discriminate).
      unfold beside. replace (bytecount 10 (a ++ [10%N]) + 1 - 1) with (bytecount 10 (a ++ [10%N])) by lia. destruct (last (split_nl a) []); reflexivity. }
  destruct Up as (U1 & U2 & U3 & U4).
  set (down := match tail with [] => [] | _ => split_nl below end).
  assert (Dn : concat (map (fun l => 10%N :: l) down) = tail /\ Forall (fun l => ~ In 10%N l) down /\
    beside (match hd [] (split_nl below) with [] => None | _ => Some (bytecount 10 above + 1 - 1 + 1 + 1, hd [] (split_nl below)) end) (bytecount 10 above + 2) (hd_error down)).
  { destruct Ht as [(-> & ->)| ->]; subst down.
    - cbn. auto.
    - split; [apply split_below|]. split; [apply split_no|]. destruct (split_ne below) as (w & ws & ->). cbn [hd hd_error]. unfold beside. replace (bytecount 10 above + 1 - 1 + 1 + 1) with (bytecount 10 above + 2) by lia. destruct w; reflexivity. }
  destruct Dn as (D1 & D2 & D3).
  exists up, line, down. cbn [x_number x_column x_lines x_prev x_next]. split; [unfold in_lines; rewrite U1, D1; auto|]. rewrite U3. split; [reflexivity|]. split; [reflexivity|]. rewrite U1. split; [rewrite La; lia|]. split; [lia|]. split; assumption.
Qed.

(** ** The mark *)
Lemma chars_ascii l : ascii l -> chars l = List.length l.
Proof.
  intros H. unfold chars. induction H as [|c l Hc H IH]; [reflexivity|]. cbn [filter]. destruct (N.leb_spec 128 c) as [X|X]; [exfalso; apply N.lt_nge in Hc; contradiction|]. cbn. f_equal. exact IH.
Qed.
Theorem excerpt_marks source s e x : s <= e <= List.length source -> excerpt_of source s e = Some x -> ~ In 10%N (firstn (e - s) (skipn s source)) -> (forall n l, In (n, l) (x_lines x) -> ascii l) -> marks source s e x.
Proof.
  intros L X Nn A. assert (L' : s <= List.length source) by lia. destruct (excerpt_shows source s e L') as (x' & X' & (above & line & below & (S & _ & _ & _) & _ & Hl & Hs & Hc & _) & Hi & Hm).
  rewrite X' in X. injection X as <-. set (up := concat (map (fun l => l ++ [10%N]) above)) in *. set (down := concat (map (fun l => 10%N :: l) below)) in *.
  assert (Al : ascii line) by (apply (A (List.length above + 1)); rewrite Hl; left; reflexivity).
  assert (R : skipn s source = skipn (x_column x') line ++ down).
  { rewrite <- Hs, S. rewrite skipn_app. rewrite skipn_all2 by lia. replace (List.length up + x_column x' - List.length up) with (x_column x') by lia. cbn [app].
    rewrite skipn_app. replace (x_column x' - List.length line) with 0 by lia. reflexivity. }
  assert (Le : e - s <= List.length (skipn (x_column x') line)).
  { destruct (Nat.le_gt_cases (e - s) (List.length (skipn (x_column x') line))) as [H|H]; [exact H|exfalso]. apply Nn. rewrite R, firstn_app. apply in_or_app. right.
    destruct below as [|w ws].
    - subst down. cbn in R. assert (Q : List.length (skipn s source) = List.length (skipn (x_column x') line)) by (rewrite R, app_nil_r; reflexivity). rewrite skipn_length in Q. lia.
    - subst down. cbn [map concat app]. destruct (e - s - List.length (skipn (x_column x') line)) as [|k] eqn:Z; [lia|]. left. reflexivity. }
  exists (List.length above + 1), (firstn (x_column x') line), (firstn (e - s) (skipn (x_column x') line)), (skipn (e - s) (skipn (x_column x') line)).
  rewrite !firstn_skipn. split; [exact Hl|]. split; [rewrite R, firstn_app; replace (e - s - List.length (skipn (x_column x') line)) with 0 by lia; rewrite firstn_O, app_nil_r; reflexivity|].
  assert (A1 : ascii (firstn (x_column x') line)) by (unfold ascii in *; rewrite Forall_forall in *; intros c Hc'; apply Al; rewrite <- (firstn_skipn (x_column x') line); apply in_or_app; left; exact Hc').
  assert (A2 : ascii (firstn (e - s) (skipn (x_column x') line))).
  { unfold ascii in *; rewrite Forall_forall in *; intros c Hc'; apply Al. rewrite <- (firstn_skipn (x_column x') line); apply in_or_app; right. rewrite <- (firstn_skipn (e - s) (skipn (x_column x') line)). apply in_or_app. left. exact Hc'. }
  rewrite (chars_ascii _ A1), (chars_ascii _ A2), firstn_length_le, firstn_length_le by lia. split; assumption.
Qed.

(** ** Ranges without length *)
Lemma naive_end_name name rest n : Forall name_byte name -> ends_name rest -> naive_end (name ++ rest) n = n + List.length name.
Proof.
  intros H R. revert n. induction H as [|c name (W & G & _) H IH]; intros n; cbn [app naive_end List.length].
  - destruct rest as [|c rest]; cbn [naive_end]; [lia|]. assert (X : ascii_white c || N.eqb c 62 = true) by (destruct R as [R| ->]; [rewrite R|]; reflexivity). rewrite X. lia.
  - rewrite W. apply N.eqb_neq in G. rewrite G. cbn. rewrite IH. lia.
Qed.
Theorem element_named before name rest : name <> [] -> Forall name_byte name -> ends_name rest ->
  let source := before ++ 60%N :: name ++ rest in let s := List.length before in
  display_context source s s = excerpt_of source (s + 1) (s + 1 + List.length name).
Proof.
  intros Ne H R source s. unfold display_context. rewrite Nat.eqb_refl. unfold naive_range.
  assert (K : skipn s source = 60%N :: name ++ rest) by (unfold source, s; rewrite skipn_app, Nat.sub_diag, skipn_all; reflexivity).
  rewrite K. cbn [naive_start]. destruct name as [|c name]; [contradiction|]. cbn [app].
  inversion H as [|x y (W & G & L) Hn]; subst. rewrite W. apply N.eqb_neq in L. rewrite L. cbn [negb andb].
  assert (K2 : skipn (S s) source = (c :: name) ++ rest).
  { unfold source. replace (before ++ 60%N :: (c :: name) ++ rest) with ((before ++ [60%N]) ++ (c :: name) ++ rest) by (rewrite <- app_assoc; reflexivity).
    rewrite skipn_app. rewrite skipn_all2 by (rewrite app_length; cbn; unfold s; lia). replace (S s - List.length (before ++ [60%N])) with 0 by (rewrite app_length; unfold s; cbn [List.length]; lia). reflexivity. }
  rewrite K2, (naive_end_name (c :: name) rest (S s) H R). f_equal; lia.
Qed.
Lemma naive_start_none rest n : naive_start rest n = None <-> exists c r, rest = c :: r /\ Forall (fun c => ascii_white c = true \/ c = 60%N) r.
Proof.
  revert n. induction rest as [|c rest IH]; intros n; cbn [naive_start].
  - split; [discriminate|]. intros (c & r & E & _). discriminate.
  - destruct rest as [|d rest].
    + split; [intros _; exists c, []; split; [reflexivity|constructor]|reflexivity].
    + destruct (negb (ascii_white d) && negb (N.eqb d 60)) eqn:B.
      * split; [discriminate|]. intros (x & r & E & F). injection E as _ <-. inversion F as [|y z Hy Hz]; subst. apply andb_true_iff in B. destruct B as (B1 & B2). destruct Hy as [Hy| ->]; [rewrite Hy in B1|]; discriminate.
      * rewrite IH. apply andb_false_iff in B. assert (D : ascii_white d = true \/ d = 60%N).
        { destruct B as [B|B]; apply negb_false_iff in B; [left; exact B|right; apply N.eqb_eq, B]. }
        split; intros (x & r & E & F); injection E as <- <-; [exists c, (d :: rest)|exists d, rest]; (split; [reflexivity|]); [constructor; assumption|inversion F; assumption].
Qed.
Lemma naive_start_le rest n m : naive_start rest n = Some m -> m <= n + List.length rest.
Proof.
  revert n. induction rest as [|c rest IH]; intros n; cbn [naive_start]; [intros [= ->]; lia|]. destruct rest as [|d rest]; [discriminate|].
  destruct (negb (ascii_white d) && negb (N.eqb d 60)); [intros [= <-]; cbn; lia|]. intros H. apply IH in H. cbn in *. lia.
Qed.
Theorem panic_exact source s e : s <= List.length source -> (display_context source s e = None <-> s = e /\ exists before c r, source = before ++ c :: r /\ List.length before = s /\ Forall (fun c => ascii_white c = true \/ c = 60%N) r).
Proof.
  intros L. unfold display_context. destruct (Nat.eqb_spec s e) as [<- |D].
  - unfold naive_range. destruct (naive_start (skipn s source) s) as [m|] eqn:E.
    + split.
      * intros X. exfalso. apply naive_start_le in E. rewrite skipn_length in E. assert (M : m <= List.length source) by lia.
        destruct (excerpt_shows source m (naive_end (skipn m source) m) M) as (x & Y & _). rewrite Y in X. discriminate.
      * intros (_ & before & c & r & -> & <- & F). exfalso. rewrite skipn_app, Nat.sub_diag, skipn_all in E. cbn [skipn app] in E.
        assert (Z : naive_start (c :: r) (List.length before) = None) by (apply naive_start_none; eauto). congruence.
    + split; [|reflexivity]. intros _. split; [reflexivity|]. apply naive_start_none in E. destruct E as (c & r & E & F). exists (firstn s source), c, r. rewrite <- E, firstn_skipn. split; [reflexivity|]. split; [apply firstn_length_le, L|exact F].
  - split; [|intros (X & _); contradiction]. intros X. exfalso. destruct (excerpt_shows source s e L) as (x & Y & _). rewrite Y in X. discriminate.
Qed.

(** ** The result *)
Theorem result_exact l : match lint_result l with
  | Some (e, w) => List.length (filter (fun s => match s with Err => true | _ => false end) l) = e /\ List.length (filter (fun s => match s with Warn => true | _ => false end) l) = w /\ (e <> 0 \/ w <> 0)
  | None => Forall (fun s => s = Off) l end.
Proof.
  unfold lint_result. destruct (Nat.ltb_spec 0 (List.length (filter (fun s => match s with Err => true | _ => false end) l))) as [H|H]; cbn [orb].
  - split; [reflexivity|]. split; [reflexivity|]. left. lia.
  - destruct (Nat.ltb_spec 0 (List.length (filter (fun s => match s with Warn => true | _ => false end) l))) as [H2|H2].
    + split; [reflexivity|]. split; [reflexivity|]. right. lia.
    + induction l as [|s l IH]; constructor; destruct s; cbn in H, H2; try lia; auto.
Qed.

(** ** Where it goes wrong *)
Lemma wide_chars : exists source s e x, s < e <= List.length source /\ ~ In 10%N source /\ display_context source s e = Some x /\ ~ marks source s e x.
Proof.
  exists [195%N; 169%N; 97%N], 2, 3. eexists. split; [cbn; lia|]. split; [cbn; intros [H|[H|[H|[]]]]; discriminate|]. split; [vm_compute; reflexivity|].
  intros (n & before & marked & after & E & M & I & _). cbn in M. subst marked. cbn in E, I. injection E as _ E.
  destruct before as [|a [|b [|c l]]]; cbn in E.
  - discriminate.
  - discriminate.
  - injection E as <- <- _. discriminate I.
  - destruct l; discriminate.
Qed.
Lemma many_lines : exists source s e x, s < e <= List.length source /\ ascii source /\ display_context source s e = Some x /\ ~ marks source s e x.
Proof.
  exists [97%N; 10%N; 98%N], 0, 3. eexists. split; [cbn; lia|]. split; [repeat constructor|]. split; [vm_compute; reflexivity|].
  intros (n & before & marked & after & E & M & I & _). cbn in M. subst marked. cbn in E. injection E as _ E. apply (f_equal (@List.length N)) in E. rewrite !app_length in E. cbn in E. lia.
Qed.

Lemma display_shows : forall source s e, s <= List.length source -> s <> e -> exists x, display_context source s e = Some x /\ shows source s x /\ x_indent x = x_column x /\ x_marks x = e - s.
Proof. intros source s e L D. unfold display_context. apply Nat.eqb_neq in D. rewrite D. exact (excerpt_shows source s e L). Qed.
Lemma display_marks : forall source s e x, s < e <= List.length source -> display_context source s e = Some x -> ~ In 10%N (firstn (e - s) (skipn s source)) -> (forall n l, In (n, l) (x_lines x) -> ascii l) -> marks source s e x.
Proof.
  intros source s e x L X. unfold display_context in X. assert (D : (s =? e) = false) by (apply Nat.eqb_neq; lia). rewrite D in X.
  refine (excerpt_marks source s e x _ X). lia.
Qed.
