From Coq Require Import String List NArith ZArith QArith Qpower Bool Arith Lia.
From Verif Require Import Chars ParseModel ParseSpec ParseProofs ParseProofs2 ParseProofs3 ParseProofs4 ListProofs ClockModel ClockProofs
  TransformTextModel TransformTextSpec.
Import ListNotations.
Open Scope nat_scope.

Lemma num_eqb_ok a b : num_eqb a b = true -> (value a == value b)%Q.
Proof.
  unfold num_eqb. cbv zeta. intros E. apply Z.eqb_eq in E. unfold signed in E. set (k := Z.min (ex a) (ex b)) in *.
  assert (H : forall d, (k <= ex d)%Z ->
    (value d == inject_Z ((if neg d then - of_digits (dig d) else of_digits (dig d)) * 10 ^ (ex d - k)) * inject_Z 10 ^ k)%Q).
  { intros d K. unfold value. rewrite inject_Z_mult, Zpower_Qpower by lia. rewrite <- Qmult_assoc, <- Qpower_plus by discriminate.
    replace (ex d - k + k)%Z with (ex d) by ring. reflexivity. }
  rewrite (H a), (H b) by (unfold k; lia). rewrite E. reflexivity.
Qed.

(** ** What a printed number begins with *)
Lemma number_start t d : rust_f64 t = Some d -> exists c t', t = c :: t' /\ is_whitespace c = false /\ c <> 44%N /\ c <> 41%N.
Proof.
  intros R. apply rust_f64_sound in R. destruct R as (n & m & e & N & _).
  destruct (number_head _ _ _ _ N) as (c & t' & -> & W). exists c, t'. split; [reflexivity|]. split; [exact W|].
  destruct N as (s & i & tf & f & te & x & E & SG & I & FR & NE & EX & _ & _).
  assert (K : (c = 43 \/ c = 45 \/ c = 46 \/ 48 <= c <= 57)%N).
  { destruct SG as [[-> _]|[[-> _]|[-> _]]]; cbn [app] in E; [|injection E as ->; auto|injection E as ->; auto].
    destruct i as [|c0 i].
    - destruct FR as [[-> ->]|[-> _]]; [contradiction|]. injection E as ->. auto.
    - injection E as -> _. inversion I as [|? ? D _]. unfold digit in D. auto. }
  lia.
Qed.

(** The text is empty or ends in a closing parenthesis. *)
Definition closed (r : text) : Prop := r = [] \/ ends_in 41%N r.
Lemma closed_not_ends c x r : closed r -> c <> 41%N -> ~ ends_in c (x ++ 41%N :: r).
Proof.
  intros [->|(u & ->)] N (v & E).
  - apply app_inj_tail in E. destruct E; congruence.
  - rewrite app_comm_cons, app_assoc in E. apply app_inj_tail in E. destruct E; congruence.
Qed.

Section Read.
  Variable finite : dec -> bool.
  Variable f32 : dec -> dec.
  Variable print : dec -> text.
  Variable C : Type.
  Variable css : text -> option C.
  Variable print_css : C -> text.
  Notation ok := (reads_back finite f32 print).
  Notation number := (parse_f32 finite f32).
  (** What the printed number is read as. *)
  Definition back (d : dec) : dec := match rust_f64 (print d) with Some d' => f32 d' | None => d end.
  Lemma back_value d : ok d -> (value d == value (back d))%Q.
  Proof. intros (d' & R & _ & V). unfold back. rewrite R. symmetry. exact V. Qed.

  (** Behind a number: white space or the closing parenthesis. *)
  Definition sep_head (r : text) : Prop := exists c r', r = c :: r' /\ (c = 32%N \/ c = 41%N).
  Lemma number_at a d r : ok d -> sep_head r -> ~ ends_in 46%N r -> number (at_ a (print d ++ r)) = Ok (back d) (at_ (a ++ print d) r).
  Proof.
    intros (d' & R & F & _) (c & r' & -> & K) E. unfold parse_f32, bind, back. rewrite R.
    assert (N : is_number (print d)) by (apply rust_f64_sound in R; destruct R as (n & m & e & N & _); exists n, m, e; exact N).
    pose proof (f64_exact_dec finite a [] (print d) (c :: r') d' (Forall_nil _) N) as H. cbn [app] in H.
    rewrite H; [reflexivity| |exact E|exact R|exact F].
    unfold stops, digit. split; [lia|]. split; intros; lia.
  Qed.
  Lemma skip_comma_at a r : match r with [] => True | c :: _ => is_whitespace c = false /\ c <> 44%N end -> ~ ends_in 44%N r ->
    skip_comma_and_whitespace (at_ a r) = Ok tt (at_ a r).
  Proof.
    intros H E. unfold skip_comma_and_whitespace, bind. rewrite skip_ws_head by (destruct r; [exact I|apply H]).
    assert (D : take_while (N.eqb 44) r = [] /\ drop_while (N.eqb 44) r = r).
    { apply take_while_none. destruct r; [exact I|]. destruct H as [_ H]. apply N.eqb_neq. congruence. }
    destruct D as [D1 D2]. rewrite skip_char_at by (rewrite D2; exact E). rewrite D1, D2, app_nil_r.
    apply skip_ws_head. destruct r; [exact I|apply H].
  Qed.
  Lemma skip_space_at a d r : ok d -> ~ ends_in 44%N (print d ++ r) ->
    skip_comma_and_whitespace (at_ a (32%N :: print d ++ r)) = Ok tt (at_ (a ++ [32%N]) (print d ++ r)).
  Proof.
    intros (d' & R & _) E. destruct (number_start _ _ R) as (c & t & P & W & N & _).
    pose proof (skip_comma_at (a ++ [32%N]) (print d ++ r)) as H. rewrite P in *. cbn [app] in *. specialize (H (conj W N) E).
    unfold skip_comma_and_whitespace, bind in *. rewrite skip_ws_head in H by exact W.
    assert (S : skip_whitespace (at_ a (32%N :: c :: t ++ r)) = Ok tt (at_ (a ++ [32%N]) (c :: t ++ r))).
    { unfold skip_whitespace. rewrite skip_matches_at. cbn [take_while drop_while]. change (is_whitespace 32) with true. cbn iota. rewrite W. reflexivity. }
    rewrite S. exact H.
  Qed.
  Lemma close_at a r : close (at_ a (41%N :: r)) = Ok tt (at_ (a ++ [41%N]) r).
  Proof.
    unfold close, bind. rewrite skip_ws_head by reflexivity. pose proof (expect_char_at 41 a (41%N :: r)) as H. cbn iota in H. rewrite H by lia. reflexivity.
  Qed.
  Lemma maybe_some a d r : ok d -> sep_head r -> ~ ends_in 46%N r -> maybe_number finite f32 (at_ a (print d ++ r)) = Ok (Some (back d)) (at_ (a ++ print d) r).
  Proof. intros H S E. unfold maybe_number, try_parse. rewrite number_at by assumption. reflexivity. Qed.
  Lemma maybe_none a r : closed r -> maybe_number finite f32 (at_ a (41%N :: r)) = Ok None (at_ a (41%N :: r)).
  Proof.
    intros CL. unfold maybe_number, try_parse, parse_f32, bind.
    pose proof (closed_not_ends 46%N [] r CL ltac:(discriminate)) as ND. cbn [app] in ND.
    destruct (f64_no_panic finite a (41%N :: r) ND) as [(d & t & r' & _ & _ & E)|(e & q & E & I)].
    - exfalso. destruct (f64_sound finite _ _ _ _ ND E) as (w & t' & r'' & n & m & x & S & W & N & _).
      destruct (number_head _ _ _ _ N) as (c & t'' & -> & _).
      destruct w as [|y w]; [|injection S as <- _; inversion W; discriminate].
      cbn [app] in S. injection S as <- _.
      destruct N as (s & i & tf & f & te & xx & E2 & SG & II & FR & NE & EX & _ & _).
      destruct SG as [[-> _]|[[-> _]|[-> _]]]; cbn [app] in E2; [|discriminate|discriminate].
      destruct i as [|c0 i]; [destruct FR as [[-> ->]|[-> _]]; [contradiction|discriminate]|].
      injection E2 as <- _. inversion II as [|? ? D _]. unfold digit in D. lia.
    - rewrite E. cbn [p_input p_cursor]. rewrite I. reflexivity.
  Qed.

  Lemma function_at a c n x : (c < 128)%N -> is_name_start_char c = true -> Forall (fun y => is_name_char y = true) n ->
    parse_function finite f32 C (at_ a ((c :: n) ++ 40%N :: x)) = arguments finite f32 C (c :: n) (at_ (a ++ (c :: n) ++ [40%N]) x).
  Proof.
    intros L S F. unfold parse_function, bind. cbn [app]. rewrite expect_ident_at by assumption.
    destruct (take_while_app is_name_char n (40%N :: x) F eq_refl) as [-> ->].
    rewrite skip_ws_head by reflexivity. pose proof (expect_char_at 40 (a ++ c :: n) (40%N :: x)) as H. cbn iota in H. rewrite H by lia.
    cbn [N.eqb Pos.eqb]. rewrite <- app_assoc. reflexivity.
  Qed.

  Notation print_transform := (print_transform print C print_css).
  Notation print_transforms := (print_transforms print C print_css).
  Notation parse_transform := (parse_transform finite f32 C css).
  Notation parse_items := (parse_items finite f32 C css).

  Ltac not_ends CL :=
    rewrite ?app_assoc, ?app_comm_cons; rewrite ?app_assoc;
    first [ apply (closed_not_ends _ _ _ CL); discriminate
          | apply (closed_not_ends _ [] _ CL); discriminate ].
  Ltac sep := eexists _, _; split; [reflexivity|auto].

  Lemma head_not_comma d x : ok d -> match print d ++ x with [] => True | c :: _ => is_whitespace c = false /\ c <> 44%N end.
  Proof. intros (d' & R & _). destruct (number_start _ _ R) as (c & t & -> & W & N & _). cbn. auto. Qed.

  Lemma args6_at a v1 v2 v3 v4 v5 v6 r : ok v1 -> ok v2 -> ok v3 -> ok v4 -> ok v5 -> ok v6 -> closed r ->
    arguments finite f32 C (lit "matrix")
      (at_ a (print v1 ++ 32%N :: print v2 ++ 32%N :: print v3 ++ 32%N :: print v4 ++ 32%N :: print v5 ++ 32%N :: print v6 ++ 41%N :: r)) =
    Ok (TMatrix (back v1) (back v2) (back v3) (back v4) (back v5) (back v6))
       (at_ (a ++ print v1 ++ 32%N :: print v2 ++ 32%N :: print v3 ++ 32%N :: print v4 ++ 32%N :: print v5 ++ 32%N :: print v6 ++ [41%N]) r).
  Proof.
    intros O1 O2 O3 O4 O5 O6 CL. unfold arguments. change (text_eqb (lit "matrix") (lit "matrix")) with true. cbn iota. unfold bind, ret.
    do 5 (rewrite number_at; [|assumption|sep|not_ends CL]; rewrite skip_space_at; [|assumption|not_ends CL]).
    rewrite number_at; [|assumption|sep|not_ends CL]. rewrite close_at. f_equal. f_equal. rewrite <- !app_assoc. reflexivity.
  Qed.
  Lemma args1_at (name : text) (k : dec -> tf C) a v r :
    (forall p, arguments finite f32 C name p = bind (parse_f32 finite f32) (fun x => bind close (fun _ => ret (k x))) p) ->
    ok v -> closed r -> arguments finite f32 C name (at_ a (print v ++ 41%N :: r)) = Ok (k (back v)) (at_ (a ++ print v ++ [41%N]) r).
  Proof.
    intros E O CL. rewrite E. unfold bind, ret. rewrite number_at; [|assumption|sep|not_ends CL]. rewrite close_at, <- app_assoc. reflexivity.
  Qed.
  Definition two (k : dec -> option dec -> tf C) : parser -> out (tf C) :=
    bind (parse_f32 finite f32) (fun x => bind skip_comma_and_whitespace (fun _ => bind (maybe_number finite f32) (fun y =>
      bind close (fun _ => ret (k x y))))).
  Lemma two_some a k x y r : ok x -> ok y -> closed r ->
    two k (at_ a (print x ++ 32%N :: print y ++ 41%N :: r)) = Ok (k (back x) (Some (back y))) (at_ (a ++ print x ++ 32%N :: print y ++ [41%N]) r).
  Proof.
    intros O1 O2 CL. unfold two, bind, ret. rewrite number_at; [|assumption|sep|not_ends CL]. rewrite skip_space_at; [|assumption|not_ends CL].
    rewrite maybe_some; [|assumption|sep|not_ends CL]. rewrite close_at. f_equal. f_equal. rewrite <- !app_assoc. reflexivity.
  Qed.
  Lemma two_none a k x r : ok x -> closed r ->
    two k (at_ a (print x ++ 41%N :: r)) = Ok (k (back x) None) (at_ (a ++ print x ++ [41%N]) r).
  Proof.
    intros O1 CL. unfold two, bind, ret. rewrite number_at; [|assumption|sep|not_ends CL].
    rewrite skip_comma_at; [|split; [reflexivity|discriminate]|not_ends CL]. rewrite (maybe_none _ _ CL). rewrite close_at. f_equal. f_equal. rewrite <- !app_assoc. reflexivity.
  Qed.
  Lemma translate_args p : arguments finite f32 C (lit "translate") p =
    two (fun x y => match y with Some y => TTranslate x y | None => TTranslate x zero end) p.
  Proof.
    unfold arguments, two. change (text_eqb (lit "translate") (lit "matrix")) with false. change (text_eqb (lit "translate") (lit "translate")) with true.
    cbn iota. unfold bind. destruct (parse_f32 finite f32 p); try reflexivity. destruct (skip_comma_and_whitespace p0); try reflexivity.
    destruct (maybe_number finite f32 p1) as [[]| | |]; reflexivity.
  Qed.
  Lemma scale_args p : arguments finite f32 C (lit "scale") p =
    two (fun x y => match y with Some y => TScale x y | None => TScale x x end) p.
  Proof.
    unfold arguments, two. change (text_eqb (lit "scale") (lit "matrix")) with false. change (text_eqb (lit "scale") (lit "translate")) with false.
    change (text_eqb (lit "scale") (lit "scale")) with true.
    cbn iota. unfold bind. destruct (parse_f32 finite f32 p); try reflexivity. destruct (skip_comma_and_whitespace p0); try reflexivity.
    destruct (maybe_number finite f32 p1) as [[]| | |]; reflexivity.
  Qed.
  Lemma rotate3 a v x y r : ok v -> ok x -> ok y -> closed r ->
    arguments finite f32 C (lit "rotate") (at_ a (print v ++ 32%N :: print x ++ 32%N :: print y ++ 41%N :: r)) =
    Ok (TRotate (back v) (back x) (back y)) (at_ (a ++ print v ++ 32%N :: print x ++ 32%N :: print y ++ [41%N]) r).
  Proof.
    intros O1 O2 O3 CL. unfold arguments.
    change (text_eqb (lit "rotate") (lit "matrix")) with false. change (text_eqb (lit "rotate") (lit "translate")) with false.
    change (text_eqb (lit "rotate") (lit "scale")) with false. change (text_eqb (lit "rotate") (lit "rotate")) with true. cbn iota. unfold bind, ret.
    rewrite number_at; [|assumption|sep|not_ends CL]. rewrite skip_space_at; [|assumption|not_ends CL].
    rewrite maybe_some; [|assumption|sep|not_ends CL]. rewrite skip_space_at; [|assumption|not_ends CL].
    rewrite number_at; [|assumption|sep|not_ends CL]. rewrite close_at. f_equal. f_equal. rewrite <- !app_assoc. reflexivity.
  Qed.
  Lemma rotate1 a v r : ok v -> closed r ->
    arguments finite f32 C (lit "rotate") (at_ a (print v ++ 41%N :: r)) = Ok (TRotate (back v) zero zero) (at_ (a ++ print v ++ [41%N]) r).
  Proof.
    intros O1 CL. unfold arguments.
    change (text_eqb (lit "rotate") (lit "matrix")) with false. change (text_eqb (lit "rotate") (lit "translate")) with false.
    change (text_eqb (lit "rotate") (lit "scale")) with false. change (text_eqb (lit "rotate") (lit "rotate")) with true. cbn iota. unfold bind, ret.
    rewrite number_at; [|assumption|sep|not_ends CL].
    rewrite skip_comma_at; [|split; [reflexivity|discriminate]|not_ends CL]. rewrite (maybe_none _ _ CL). rewrite close_at. f_equal. f_equal. rewrite <- !app_assoc. reflexivity.
  Qed.

  (** The function reader, run on [name(rest]. *)
  Lemma call_at a name x v q : (exists c n, name = c :: n /\ (c < 128)%N /\ is_name_start_char c = true /\ Forall (fun y => is_name_char y = true) n) ->
    arguments finite f32 C name (at_ (a ++ name ++ [40%N]) x) = Ok v q -> parse_transform (at_ a (name ++ 40%N :: x)) = Ok v q.
  Proof.
    intros (c & n & -> & L & S & F) E. unfold TransformTextModel.parse_transform. apply or_else_ok. rewrite function_at by assumption. exact E.
  Qed.
  Ltac name_ok := eexists _, _; split; [reflexivity|]; split; [reflexivity|]; split; [reflexivity|]; cbn; repeat (apply Forall_cons; [reflexivity|]); apply Forall_nil.

  Lemma item_at a t r : plain finite f32 print t -> closed r ->
    exists t', parse_transform (at_ a (print_transform t ++ r)) = Ok t' (at_ (a ++ print_transform t) r) /\ equal t t'.
  Proof.
    intros P CL. destruct t as [v1 v2 v3 v4 v5 v6|x y|x y|v x y|v|v|c]; cbn [plain TransformTextModel.print_transform] in *.
    - destruct P as (O1 & O2 & O3 & O4 & O5 & O6). exists (TMatrix (back v1) (back v2) (back v3) (back v4) (back v5) (back v6)). split; [|cbn; repeat split; apply back_value; assumption].
      match goal with |- parse_transform (at_ a (?t ++ r)) = _ => replace (t ++ r) with (lit "matrix" ++ 40%N :: print v1 ++ 32%N :: print v2 ++ 32%N :: print v3 ++ 32%N :: print v4 ++ 32%N :: print v5 ++ 32%N :: print v6 ++ 41%N :: r) end.
      2:{ rewrite <- !app_assoc. reflexivity. }
      apply call_at; [name_ok|]. rewrite args6_at by assumption. f_equal. f_equal. rewrite <- !app_assoc. reflexivity.
    - destruct P as (O1 & O2). destruct (num_eqb y zero) eqn:Z.
      + exists (TTranslate (back x) zero). split; [|cbn; split; [apply back_value; assumption|apply num_eqb_ok, Z]].
        match goal with |- parse_transform (at_ a (?t ++ r)) = _ => replace (t ++ r) with (lit "translate" ++ 40%N :: print x ++ 41%N :: r) end.
        2:{ rewrite <- !app_assoc. reflexivity. }
        apply call_at; [name_ok|]. rewrite translate_args, two_none by assumption. f_equal. f_equal. rewrite <- !app_assoc. reflexivity.
      + exists (TTranslate (back x) (back y)). split; [|cbn; split; apply back_value; assumption].
        match goal with |- parse_transform (at_ a (?t ++ r)) = _ => replace (t ++ r) with (lit "translate" ++ 40%N :: print x ++ 32%N :: print y ++ 41%N :: r) end.
        2:{ rewrite <- !app_assoc. reflexivity. }
        apply call_at; [name_ok|]. rewrite translate_args, two_some by assumption. f_equal. f_equal. rewrite <- !app_assoc. reflexivity.
    - destruct P as (O1 & O2). destruct (num_eqb x y) eqn:Z.
      + exists (TScale (back x) (back x)). split; [|cbn; split; [apply back_value; assumption|rewrite <- (back_value x) by assumption; symmetry; apply num_eqb_ok, Z]].
        match goal with |- parse_transform (at_ a (?t ++ r)) = _ => replace (t ++ r) with (lit "scale" ++ 40%N :: print x ++ 41%N :: r) end.
        2:{ rewrite <- !app_assoc. reflexivity. }
        apply call_at; [name_ok|]. rewrite scale_args, two_none by assumption. f_equal. f_equal. rewrite <- !app_assoc. reflexivity.
      + exists (TScale (back x) (back y)). split; [|cbn; split; apply back_value; assumption].
        match goal with |- parse_transform (at_ a (?t ++ r)) = _ => replace (t ++ r) with (lit "scale" ++ 40%N :: print x ++ 32%N :: print y ++ 41%N :: r) end.
        2:{ rewrite <- !app_assoc. reflexivity. }
        apply call_at; [name_ok|]. rewrite scale_args, two_some by assumption. f_equal. f_equal. rewrite <- !app_assoc. reflexivity.
    - destruct P as (O1 & O2 & O3). destruct (num_eqb x zero && num_eqb y zero) eqn:Z.
      + apply andb_true_iff in Z. destruct Z as [Z1 Z2].
        exists (TRotate (back v) zero zero). split; [|cbn; split; [apply back_value; assumption|split; apply num_eqb_ok; assumption]].
        match goal with |- parse_transform (at_ a (?t ++ r)) = _ => replace (t ++ r) with (lit "rotate" ++ 40%N :: print v ++ 41%N :: r) end.
        2:{ rewrite <- !app_assoc. reflexivity. }
        apply call_at; [name_ok|]. rewrite rotate1 by assumption. f_equal. f_equal. rewrite <- !app_assoc. reflexivity.
      + exists (TRotate (back v) (back x) (back y)). split; [|cbn; split; [|split]; apply back_value; assumption].
        match goal with |- parse_transform (at_ a (?t ++ r)) = _ => replace (t ++ r) with (lit "rotate" ++ 40%N :: print v ++ 32%N :: print x ++ 32%N :: print y ++ 41%N :: r) end.
        2:{ rewrite <- !app_assoc. reflexivity. }
        apply call_at; [name_ok|]. rewrite rotate3 by assumption. f_equal. f_equal. rewrite <- !app_assoc. reflexivity.
    - exists (TSkewX (back v)). split; [|cbn; apply back_value; assumption].
      match goal with |- parse_transform (at_ a (?t ++ r)) = _ => replace (t ++ r) with (lit "skewX" ++ 40%N :: print v ++ 41%N :: r) end.
      2:{ rewrite <- !app_assoc. reflexivity. }
      apply call_at; [name_ok|]. rewrite (args1_at (lit "skewX") TSkewX) by (assumption || reflexivity). f_equal. f_equal. rewrite <- !app_assoc. reflexivity.
    - exists (TSkewY (back v)). split; [|cbn; apply back_value; assumption].
      match goal with |- parse_transform (at_ a (?t ++ r)) = _ => replace (t ++ r) with (lit "skewY" ++ 40%N :: print v ++ 41%N :: r) end.
      2:{ rewrite <- !app_assoc. reflexivity. }
      apply call_at; [name_ok|]. rewrite (args1_at (lit "skewY") TSkewY) by (assumption || reflexivity). f_equal. f_equal. rewrite <- !app_assoc. reflexivity.
    - destruct P.
  Qed.
  Lemma item_closed t r : plain finite f32 print t -> closed r -> ends_in 41%N (print_transform t ++ r).
  Proof.
    intros P [->|(u & ->)]; [|exists (print_transform t ++ u); apply app_assoc]. rewrite app_nil_r. unfold ends_in.
    destruct t; cbn [TransformTextModel.print_transform] in *; [..|destruct P]; rewrite ?app_assoc; eexists; reflexivity.
  Qed.
  Lemma list_closed l : Forall (plain finite f32 print) l -> closed (print_transforms l).
  Proof. induction 1 as [|t l P F IH]; [left; reflexivity|right]. apply (item_closed t _ P IH). Qed.
  Lemma item_head t r : plain finite f32 print t -> match print_transform t ++ r with [] => True | c :: _ => is_whitespace c = false /\ c <> 44%N end.
  Proof. intros P. destruct t; try destruct P; cbn; split; (reflexivity || discriminate). Qed.
  Lemma list_head l : Forall (plain finite f32 print) l -> match print_transforms l with [] => True | c :: _ => is_whitespace c = false /\ c <> 44%N end.
  Proof. destruct 1 as [|t l P F]; [exact I|]. apply (item_head t _ P). Qed.
  Lemma list_not_ends c l : Forall (plain finite f32 print) l -> c <> 41%N -> ~ ends_in c (print_transforms l).
  Proof.
    intros F N (u & E). destruct (list_closed l F) as [X|(v & X)]; rewrite X in E; [destruct u; discriminate|].
    apply app_inj_tail in E. destruct E; congruence.
  Qed.
  Lemma items_at l : Forall (plain finite f32 print) l -> css [] = None -> forall n a, List.length l < n ->
    exists l', parse_items n (at_ a (print_transforms l)) = Ok l' (at_ (a ++ print_transforms l) []) /\ Forall2 equal l l'.
  Proof.
    intros F NC. induction F as [|t l P F IH]; intros n a L; (destruct n as [|n]; [lia|]); cbn [TransformTextModel.parse_items]; unfold bind at 1.
    - exists []. split; [|constructor]. change (print_transforms []) with (@nil N).
      rewrite skip_comma_at; [|exact I|intros (u & E); destruct u; discriminate].
      unfold try_parse, TransformTextModel.parse_transform, or_else, try_parse, parse_function, bind at 1, expect_ident, bind at 1, cursor.
      unfold bind at 1. rewrite read_end. cbn [p_input p_cursor at_ app]. rewrite !app_nil_r.
      unfold parse_css, take_slice, bind. change (P a (blen a)) with (P a (blen a)).
      replace (P a (blen a)) with (at_ a []) by (unfold at_; rewrite app_nil_r; reflexivity).
      rewrite slice_at. unfold done, ret. rewrite NC. unfold fail. cbn [p_input p_cursor at_ app]. unfold at_. rewrite app_nil_r. reflexivity.
    - change (print_transforms (t :: l)) with (print_transform t ++ print_transforms l).
      rewrite skip_comma_at; [|apply item_head, P|]. 2:{ intros X. apply (list_not_ends 44%N (t :: l)); [constructor; assumption|discriminate|exact X]. }
      destruct (item_at a t (print_transforms l) P (list_closed l F)) as (t' & E & Q). unfold try_parse. rewrite E.
      destruct (IH n (a ++ print_transform t)) as (l' & E2 & Q2); [cbn in L; lia|]. rewrite E2. exists (t' :: l'). split; [|constructor; assumption].
      rewrite <- app_assoc. reflexivity.
  Qed.
  Lemma items_panic l : Forall (plain finite f32 print) l -> forall n a, n <= List.length l -> parse_items n (at_ a (print_transforms l)) = Panic.
  Proof.
    induction 1 as [|t l P F IH]; intros n a L; (destruct n as [|n]; [reflexivity|]); cbn in L; [lia|]. cbn [TransformTextModel.parse_items]. unfold bind at 1.
    change (print_transforms (t :: l)) with (print_transform t ++ print_transforms l).
    rewrite skip_comma_at; [|apply item_head, P|]. 2:{ intros X. apply (list_not_ends 44%N (t :: l)); [constructor; assumption|discriminate|exact X]. }
    destruct (item_at a t (print_transforms l) P (list_closed l F)) as (t' & E & Q). unfold try_parse. rewrite E. rewrite IH by lia. reflexivity.
  Qed.
  Lemma transforms_round_trip l : Forall (plain finite f32 print) l -> css [] = None -> List.length l < 2048 ->
    exists l' q, parse_string (parse_transforms finite f32 C css) (print_transforms l) = Ok l' q /\ Forall2 equal l l'.
  Proof.
    intros F NC L. destruct (items_at l F NC 2048 [] L) as (l' & E & Q). cbn [app] in E. exists l'.
    unfold parse_string, bind. change (new (print_transforms l)) with (at_ [] (print_transforms l)).
    rewrite skip_ws_head by (pose proof (list_head l F) as H; destruct (print_transforms l); [exact I|apply H]).
    unfold parse_transforms. rewrite E. rewrite skip_ws_head by exact I. unfold expect_done, ret. cbn [at_ p_cursor p_input].
    rewrite app_nil_r, Nat.ltb_irrefl. eexists. split; [reflexivity|exact Q].
  Qed.
  Lemma transforms_panic l : Forall (plain finite f32 print) l -> 2048 <= List.length l ->
    parse_string (parse_transforms finite f32 C css) (print_transforms l) = Panic.
  Proof.
    intros F L. unfold parse_string, bind. change (new (print_transforms l)) with (at_ [] (print_transforms l)).
    rewrite skip_ws_head by (pose proof (list_head l F) as H; destruct (print_transforms l); [exact I|apply H]).
    unfold parse_transforms. rewrite (items_panic l F 2048 [] L). reflexivity.
  Qed.
End Read.
