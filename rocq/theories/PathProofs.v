From Coq Require Import String List NArith ZArith Bool Arith Lia.
From Verif Require Import Chars ParseModel ParseSpec ParseProofs ParseProofs2 ParseProofs3 ParseProofs4 PathModel PathSpec.
Import ListNotations.

Definition ok_at {A} (m : parser -> out A) (Q : A -> text -> text -> Prop) (a b : text) : Prop :=
  (exists v t r, b = t ++ r /\ m (at_ a b) = Ok v (at_ (a ++ t) r) /\ Q v t r) \/
  (exists e q, m (at_ a b) = Fail e q /\ p_input q = a ++ b).

Lemma ok_bind {A B} (m : parser -> out A) (k : A -> parser -> out B) Q R a b :
  ok_at m Q a b ->
  (forall v t r, b = t ++ r -> Q v t r -> ok_at (k v) (fun x u s => R x (t ++ u) s) (a ++ t) r) ->
  ok_at (bind m k) R a b.
Proof.
  intros [(v & t & r & -> & E & HQ)|(e & q & E & I)] K.
  - destruct (K v t r eq_refl HQ) as [(x & u & s & -> & E' & HR)|(e & q & E' & I)].
    + left. exists x, (t ++ u), s. rewrite <- app_assoc. split; [reflexivity|]. split; [|exact HR].
      unfold bind. rewrite E, E', <- app_assoc. reflexivity.
    + right. exists e, q. unfold bind. rewrite E. split; [exact E'|]. rewrite I, <- app_assoc. reflexivity.
  - right. exists e, q. unfold bind. rewrite E. auto.
Qed.
Lemma ok_weaken {A} (m : parser -> out A) (Q R : A -> text -> text -> Prop) a b :
  ok_at m Q a b -> (forall v t r, b = t ++ r -> Q v t r -> R v t r) -> ok_at m R a b.
Proof.
  intros [(v & t & r & E & E' & HQ)|H] K; [left|right; exact H].
  exists v, t, r. split; [exact E|]. split; [exact E'|]. apply K; auto.
Qed.
Lemma ok_ret {A} (v : A) (Q : A -> text -> text -> Prop) a b : Q v [] b -> ok_at (ret v) Q a b.
Proof. intros H. left. exists v, [], b. rewrite app_nil_r. auto. Qed.
Lemma ok_fail {A} e (Q : A -> text -> text -> Prop) a b : ok_at (fail e) Q a b.
Proof. right. exists e, (at_ a b). split; reflexivity. Qed.
Lemma ok_skip f a b : ok_at (skip_matches f) (fun _ t r => span f b t r) a b.
Proof.
  left. exists tt, (take_while f b), (drop_while f b). split; [symmetry; apply take_drop|].
  split; [apply skip_matches_at|apply span_take].
Qed.
Lemma ok_try {A} (m : parser -> out A) Q a b : ok_at m Q a b ->
  (exists v t r, b = t ++ r /\ try_parse m (at_ a b) = Ok v (at_ (a ++ t) r) /\ Q v t r) \/
  (exists e, try_parse m (at_ a b) = Fail e (at_ a b)).
Proof.
  intros [(v & t & r & -> & E & HQ)|(e & q & E & I)].
  - left. exists v, t, r. unfold try_parse. rewrite E. auto.
  - right. exists e. unfold try_parse. rewrite E, I. reflexivity.
Qed.

Section Fine.
  Variable finite : dec -> bool.
  (** a property of the rest of the input that keeps [skip_char] on character boundaries *)
  Variable fine : text -> Prop.
  Hypothesis fine_suffix : forall t r, fine (t ++ r) -> fine r.
  Hypothesis fine_skip : forall c a b, c = DOT \/ c = COMMA -> fine b -> ok_at (skip_char c) (fun _ _ _ => True) a b.

  Lemma ok_mantissa a b : fine b -> ok_at skip_mantissa (fun _ _ _ => True) a b.
  Proof.
    intros F. unfold skip_mantissa. eapply ok_bind; [apply ok_skip|]. intros v t r -> _.
    apply fine_suffix in F. eapply ok_bind; [apply ok_skip|]. intros v' t' r' -> _.
    apply fine_suffix in F. eapply ok_bind; [apply fine_skip; auto|]. intros v'' t'' r'' -> _.
    eapply ok_weaken; [apply ok_skip|auto].
  Qed.
  Lemma cursor_at a b : cursor (at_ a b) = Ok (blen a) (at_ a b).
  Proof. reflexivity. Qed.
  Lemma ok_exponent a b : fine b -> ok_at skip_exponent (fun _ _ _ => True) a b.
  Proof.
    intros F. unfold skip_exponent, ok_at, bind. rewrite peek_at. destruct b as [|c b].
    { left. exists tt, [], []. split; [reflexivity|]. split; [rewrite app_nil_r; reflexivity|exact I]. }
    cbn [hd_error]. unfold is_any at 1 3. change (existsb (N.eqb c) (lit "eE")) with (N.eqb c 101 || (N.eqb c 69 || false)).
    rewrite orb_false_r. destruct (N.eqb c 101 || N.eqb c 69) eqn:E.
    2:{ left. exists tt, [], (c :: b). rewrite app_nil_r. auto. }
    assert (W : width c = 1) by (apply is_e in E; destruct E as [->| ->]; reflexivity).
    rewrite advance_at by exact W. rewrite peek_at.
    destruct (is_any (lit "xm") (hd_error b)).
    - left. exists tt, [], (c :: b). rewrite app_nil_r, rewind_at by exact W. auto.
    - rewrite cursor_at. destruct (ok_mantissa (a ++ [c]) b) as [(v & t & r & -> & E' & _)|(e & q & E' & I)].
      + apply (fine_suffix [c] b F).
      + rewrite E', cursor_at. destruct (blen (a ++ [c]) =? blen ((a ++ [c]) ++ t)).
        * right. eexists _, _. split; [reflexivity|]. unfold at_. cbn [p_input]. rewrite <- !app_assoc. reflexivity.
        * left. exists tt, (c :: t), r. rewrite <- app_assoc. auto.
      + rewrite E'. right. eexists _, _. split; [reflexivity|]. rewrite I, <- app_assoc. reflexivity.
  Qed.
  Lemma ok_f64 a b : fine b -> ok_at (parse_f64 finite) (fun _ t _ => t <> []) a b.
  Proof.
    intros F. unfold parse_f64. eapply ok_bind; [apply ok_skip|]. intros v w b1 -> _. apply fine_suffix in F.
    destruct (ok_mantissa (a ++ w) b1 F) as [(v1 & t1 & r1 & -> & E1 & _)|(e & q & E1 & I)].
    2:{ right. exists e, q. unfold bind. rewrite cursor_at, E1. auto. }
    apply fine_suffix in F.
    destruct (ok_exponent ((a ++ w) ++ t1) r1 F) as [(v2 & t2 & r2 & -> & E2 & _)|(e & q & E2 & I)].
    2:{ right. exists e, q. unfold bind. rewrite cursor_at, E1, E2. rewrite I, <- !app_assoc. auto. }
    unfold ok_at, bind. rewrite cursor_at, E1, E2.
    replace (((a ++ w) ++ t1) ++ t2) with ((a ++ w) ++ (t1 ++ t2)) by (rewrite !app_assoc; reflexivity).
    rewrite slice_from_at. destruct (rust_f64 (t1 ++ t2)) as [d|] eqn:R.
    - destruct (finite d).
      + left. exists d, (t1 ++ t2), r2. rewrite <- app_assoc. split; [reflexivity|]. split; [reflexivity|].
        intros X. apply app_eq_nil in X. destruct X as [_ X]. rewrite X in R. discriminate.
      + right. eexists _, _. split; [reflexivity|]. unfold at_. cbn [p_input]. rewrite <- !app_assoc. reflexivity.
    - right. eexists _, _. split; [reflexivity|]. unfold at_. cbn [p_input]. rewrite <- !app_assoc. reflexivity.
  Qed.
  Lemma ok_separator a b : fine b -> ok_at skip_separator (fun _ _ _ => True) a b.
  Proof.
    intros F. unfold skip_separator. eapply ok_bind; [apply ok_skip|]. intros v t r -> _. apply fine_suffix in F.
    eapply ok_bind; [apply fine_skip; auto|]. intros v' t' r' -> _. eapply ok_weaken; [apply ok_skip|auto].
  Qed.
  Lemma ok_number a b : fine b -> ok_at (parse_number finite) (fun _ t _ => t <> []) a b.
  Proof.
    intros F. unfold parse_number. eapply ok_bind; [apply ok_f64, F|]. intros d t r -> T. apply fine_suffix in F.
    eapply ok_bind; [apply ok_separator, F|]. intros v t' r' -> _. apply ok_ret.
    intros X. apply app_eq_nil in X. tauto.
  Qed.
  Lemma ok_flag a b : fine b -> ascii b -> ok_at parse_flag (fun _ t _ => t <> []) a b.
  Proof.
    intros F A. unfold parse_flag. destruct b as [|c b].
    - right. exists EndOfInput, (at_ a []). unfold bind. rewrite read_end. auto.
    - inversion A as [|? ? C A']; subst. eapply ok_bind with (Q := fun v t _ => t = [c]).
      + left. exists c, [c], b. split; [reflexivity|]. rewrite read_at by exact C. auto.
      + intros v t r E ->. injection E as <-. apply (fine_suffix [c] b) in F.
        eapply ok_bind; [apply ok_separator, F|]. intros v' t' r' -> _.
        destruct (N.eqb v 48); [apply ok_ret; discriminate|]. destruct (N.eqb v 49); [apply ok_ret; discriminate|apply ok_fail].
  Qed.
  Lemma ascii_suffix t r : ascii (t ++ r) -> ascii r.
  Proof. rewrite ascii_app. tauto. Qed.
  Lemma ok_args l a b : fine b -> (In true l -> ascii b) ->
    ok_at (parse_args finite l) (fun _ t _ => (l = [] -> t = []) /\ (l <> [] -> t <> [])) a b.
  Proof.
    revert a b. induction l as [|k l IH]; intros a b F A.
    - apply ok_ret. split; [reflexivity|contradiction].
    - cbn [parse_args]. eapply ok_bind with (Q := fun _ t _ => t <> []).
      + destruct k; [apply ok_flag; [exact F|apply A; left; reflexivity]|apply ok_number, F].
      + intros v t r -> T. eapply ok_bind; [apply IH|].
        * apply fine_suffix in F. exact F.
        * intros I. apply (ascii_suffix t). apply A. right. exact I.
        * intros v' t' r' -> _. apply ok_ret. split; [discriminate|]. intros _ X. apply app_eq_nil in X. tauto.
  Qed.

  (** the text of a command, if the next character is one *)
  Lemma parse_id_at a b :
    match b with
    | c :: r => match id_of_char c with
                | Some i => try_parse parse_id (at_ a b) = Ok i (at_ (a ++ [c]) r)
                | None => exists e, try_parse parse_id (at_ a b) = Fail e (at_ a b)
                end
    | [] => exists e, try_parse parse_id (at_ a b) = Fail e (at_ a b)
    end.
  Proof.
    destruct b as [|c r].
    - exists EndOfInput. unfold try_parse, parse_id, bind. rewrite read_end. reflexivity.
    - destruct (id_of_char c) as [i|] eqn:E.
      + assert (C : (c < 128)%N).
        { unfold id_of_char in E. destruct (N.ltb_spec c 128); [assumption|].
          destruct c as [|p]; [lia|]. do 8 (destruct p as [p|p|]; try discriminate; try lia). }
        unfold try_parse, parse_id, bind. rewrite read_at by exact C. rewrite E. reflexivity.
      + exists NoCommand. unfold try_parse, parse_id, bind, read, bind. rewrite current_at.
        unfold advance, ret. rewrite E. reflexivity.
  Qed.

  Lemma take_slice_at a b : exists q, take_slice (at_ a b) = Ok b q /\ p_input q = a ++ b.
  Proof. unfold take_slice, bind. rewrite slice_at. eexists. split; reflexivity. Qed.
  Lemma or_remaining_fail {A} (m : parser -> out A) e a b : m (at_ a b) = Fail e (at_ a b) ->
    exists q, or_remaining m (at_ a b) = Fail e q /\ p_input q = a ++ b.
  Proof.
    intros E. unfold or_remaining. rewrite E. destruct (take_slice_at a b) as (q & -> & I). exists q. auto.
  Qed.
  Lemma or_remaining_ok {A} (m : parser -> out A) p v q : m p = Ok v q -> or_remaining m p = Ok v q.
  Proof. intros E. unfold or_remaining. rewrite E. reflexivity. Qed.

  (** arcs are only met in ASCII input *)
  Hypothesis mode : (forall b, fine b -> ascii b) \/ (forall b, fine b -> forall c, In c b -> ~ arc_char c).
  Definition arc_safe (i : id) : Prop := is_arc i -> forall b, fine b -> ascii b.
  Definition inv (acc : list data) : Prop := match acc with [] => True | l :: _ => arc_safe (d_id l) end.

  Lemma id_of_char_arc c i : id_of_char c = Some i -> is_arc i -> arc_char c.
  Proof.
    intros E [->| ->]; unfold id_of_char in E; destruct c as [|p]; try discriminate;
      repeat (destruct p as [p|p|]; try discriminate); unfold arc_char; auto.
  Qed.
  Lemma id_of_char_close c : id_of_char c = Some ClosePath -> close_char c.
  Proof.
    intros E; unfold id_of_char in E; destruct c as [|p]; try discriminate;
      repeat (destruct p as [p|p|]; try discriminate); unfold close_char; auto.
  Qed.
  Lemma fine_arc c r i : fine (c :: r) -> id_of_char c = Some i -> arc_safe i.
  Proof.
    intros F E A. destruct mode as [M|M]; [exact M|]. exfalso.
    apply (M (c :: r) F c (or_introl eq_refl)). eapply id_of_char_arc; eauto.
  Qed.
  Lemma next_implicit_arc i : is_arc (next_implicit i) -> is_arc i.
  Proof. destruct i; simpl; auto; intros [H|H]; discriminate. Qed.
  Lemma next_implicit_close i : next_implicit i = ClosePath -> i = ClosePath.
  Proof. destruct i; simpl; auto; discriminate. Qed.

  Lemma ok_data imp i a b : fine b -> arc_safe i ->
    (exists d t r, b = t ++ r /\ or_remaining (try_parse (parse_data finite imp i)) (at_ a b) = Ok d (at_ (a ++ t) r) /\
                   d_id d = i /\ (i <> ClosePath -> t <> []) /\ (i = ClosePath -> t = [])) \/
    (exists e q, or_remaining (try_parse (parse_data finite imp i)) (at_ a b) = Fail e q /\ p_input q = a ++ b).
  Proof.
    intros F A.
    assert (OK : ok_at (parse_data finite imp i) (fun d t _ => d_id d = i /\ (i <> ClosePath -> t <> []) /\ (i = ClosePath -> t = [])) a b).
    { unfold parse_data. eapply ok_bind; [apply ok_args; [exact F|]|].
      - intros I. apply A; auto. destruct i; simpl in I; unfold is_arc; auto; intuition discriminate.
      - intros v t r -> [T1 T2]. apply ok_ret. rewrite app_nil_r. split; [reflexivity|]. split.
        + intros NC. apply T2. destruct i; try discriminate. contradiction.
        + intros ->. apply T1. reflexivity. }
    apply ok_try in OK. destruct OK as [(d & t & r & E & E' & Q)|(e & E)].
    - left. exists d, t, r. split; [exact E|]. split; [apply or_remaining_ok, E'|exact Q].
    - right. destruct (or_remaining_fail _ _ _ _ E) as (q & E' & I). exists e, q. auto.
  Qed.

  Definition step (acc : list data) : parser -> out data :=
    (c <- next_command false (hd_error acc) ;; or_remaining (try_parse (parse_data finite (fst c) (snd c)))).

  Lemma ok_step acc a b : fine b -> inv acc ->
    ok_at (step acc) (fun d t r => arc_safe (d_id d) /\
      ((t <> [] /\ d_id d <> ClosePath) \/
       (d_id d = ClosePath /\ exists z, close_char z /\ t = [z]) \/
       (d_id d = ClosePath /\ t = [] /\ (exists l acc', acc = l :: acc' /\ d_id l = ClosePath) /\
        match b with [] => True | c :: _ => id_of_char c = None end))) a b.
  Proof.
    intros F INV. unfold step.
    pose proof (parse_id_at a b) as PI.
    assert (CASES : (exists c r i, b = c :: r /\ id_of_char c = Some i /\ try_parse parse_id (at_ a b) = Ok i (at_ (a ++ [c]) r)) \/
                    ((exists e, try_parse parse_id (at_ a b) = Fail e (at_ a b)) /\ match b with [] => True | c :: _ => id_of_char c = None end)).
    { destruct b as [|c r]; [right; auto|]. destruct (id_of_char c) as [i|] eqn:E; [left; exists c, r, i; auto|right; auto]. }
    clear PI. destruct CASES as [(c & r & i & -> & IC & E)|[(e & E) NC]].
    - (* an explicit command *)
      assert (NX : (exists imp, next_command false (hd_error acc) (at_ a (c :: r)) = Ok (imp, i) (at_ (a ++ [c]) r)) \/
                   (exists e q, next_command false (hd_error acc) (at_ a (c :: r)) = Fail e q /\ p_input q = a ++ c :: r)).
      { unfold next_command, bind at 1. unfold bind. erewrite or_remaining_ok by (rewrite E; reflexivity).
        destruct acc as [|l acc]; cbn [hd_error].
        - cbn [snd]. destruct i; try (left; exists false; reflexivity);
            right; (destruct (or_remaining_fail (@fail (bool * id) ExpectedIdent) ExpectedIdent (a ++ [c]) r eq_refl) as (q & E' & I);
                    exists ExpectedIdent, q; split; [exact E'|rewrite I, <- app_assoc; reflexivity]).
        - left. cbn [fst snd negb andb]. destruct (id_eqb (next_implicit (d_id l)) i); eexists; reflexivity. }
      destruct NX as [(imp & NX)|(e & q & NX & I)].
      2:{ right. exists e, q. unfold bind. rewrite NX. auto. }
      pose proof (fine_arc c r i F IC) as AS.
      destruct (ok_data imp i (a ++ [c]) r (fine_suffix [c] r F) AS) as [(d & t & r' & -> & E' & DI & T1 & T2)|(e & q & E' & I)].
      + left. exists d, (c :: t), r'. split; [reflexivity|]. split.
        * unfold bind. rewrite NX. cbn [fst snd]. rewrite E', <- app_assoc. reflexivity.
        * rewrite DI. split; [exact AS|]. destruct (id_eq_dec i ClosePath) as [->|NE].
          -- right. left. split; [reflexivity|]. exists c. split; [apply id_of_char_close, IC|]. rewrite T2; reflexivity.
          -- left. split; [discriminate|exact NE].
      + right. exists e, q. unfold bind. rewrite NX. cbn [fst snd]. rewrite E'. split; [reflexivity|]. rewrite I, <- app_assoc. reflexivity.
    - (* no command letter *)
      destruct acc as [|l acc].
      + right. unfold bind. unfold next_command at 1, bind. cbn [hd_error].
        destruct (or_remaining_fail (fun p => match try_parse parse_id p with
            | Fail _ q => Fail NoCommand q | Ok i q => Ok (false, i) q | Panic => Panic | Loop => Loop end) NoCommand a b) as (q & E' & I).
        { rewrite E. reflexivity. }
        exists NoCommand, q. rewrite E'. auto.
      + set (i := next_implicit (d_id l)).
        assert (NX : next_command false (hd_error (l :: acc)) (at_ a b) = Ok (true, i) (at_ a b)).
        { unfold next_command, bind. cbn [hd_error]. erewrite or_remaining_ok by (rewrite E; reflexivity). reflexivity. }
        assert (AS : arc_safe i). { intros A. apply INV. apply next_implicit_arc, A. }
        destruct (ok_data true i a b F AS) as [(d & t & r' & -> & E' & DI & T1 & T2)|(e' & q & E' & I)].
        * left. exists d, t, r'. split; [reflexivity|]. split.
          -- unfold bind. rewrite NX. cbn [fst snd]. exact E'.
          -- rewrite DI. split; [exact AS|]. destruct (id_eq_dec i ClosePath) as [EC|NE].
             ++ right. right. split; [exact EC|]. split; [apply T2, EC|]. split; [|exact NC].
                exists l, acc. split; [reflexivity|]. apply next_implicit_close, EC.
             ++ left. split; [apply T1, NE|exact NE].
        * right. exists e', q. unfold bind. rewrite NX. cbn [fst snd]. auto.
  Qed.

  (** one turn of the loop: the separators, then a command *)
  Definition pre (acc : list data) : parser -> out unit :=
    (skip_whitespace ;;; match acc with [] => ret tt | _ => skip_char COMMA ;;; skip_whitespace end).
  Lemma parse_one_eq acc p : parse_one finite false acc p = bind (pre acc) (fun _ => step acc) p.
  Proof.
    unfold parse_one, pre, step, bind. destruct (skip_whitespace p) as [u q| | |]; auto.
  Qed.
  Lemma ok_pre acc a b : fine b -> ok_at (pre acc) (fun _ _ _ => True) a b.
  Proof.
    intros F. unfold pre. eapply ok_bind; [apply ok_skip|]. intros v t r -> _. apply fine_suffix in F.
    destruct acc as [|l acc]; [apply ok_ret; auto|].
    eapply ok_bind; [apply fine_skip; auto|]. intros v' t' r' -> _. eapply ok_weaken; [apply ok_skip|auto].
  Qed.
  Lemma ok_one acc a b : fine b -> inv acc -> ok_at (parse_one finite false acc) (fun d _ _ => arc_safe (d_id d)) a b.
  Proof.
    intros F I.
    assert (OK : ok_at (bind (pre acc) (fun _ => step acc)) (fun d _ _ => arc_safe (d_id d)) a b).
    { eapply ok_bind; [apply ok_pre, F|]. intros v t r -> _. apply fine_suffix in F.
      eapply ok_weaken; [apply ok_step; auto|]. intros v' t' r' _ [A _]. exact A. }
    unfold ok_at in *. rewrite parse_one_eq. exact OK.
  Qed.

  Lemma extend_no_panic fuel acc a b : fine b -> inv acc ->
    parse_extend finite fuel false acc (at_ a b) <> Panic /\
    (forall v q, parse_extend finite fuel false acc (at_ a b) = Ok v q -> q = at_ (a ++ b) []).
  Proof.
    revert acc a b. induction fuel as [|fuel IH]; intros acc a b F INV; cbn [parse_extend]; unfold bind;
      rewrite is_empty_at; destruct b as [|c b].
    - split; [discriminate|]. intros v q E. injection E as _ <-. rewrite app_nil_r. reflexivity.
    - split; discriminate.
    - split; [discriminate|]. intros v q E. injection E as _ <-. rewrite app_nil_r. reflexivity.
    - destruct (ok_one acc a (c :: b) F INV) as [(d & t & r & E & E' & A)|(e & q & E' & _)]; rewrite E'; [|split; discriminate].
      rewrite E in F. apply fine_suffix in F. rewrite E. rewrite app_assoc.
      apply (IH (d :: acc) (a ++ t) r F). exact A.
  Qed.

  Lemma path_no_panic fuel s : fine s -> parse_path finite fuel s <> Panic.
  Proof.
    intros F. unfold parse_path, parse_string, bind.
    change (new s) with (at_ [] s). unfold skip_whitespace. rewrite skip_matches_at. cbn [app].
    set (w := take_while is_whitespace s). set (r := drop_while is_whitespace s).
    assert (FR : fine r). { apply (fine_suffix w). unfold w, r. rewrite take_drop. exact F. }
    destruct (extend_no_panic fuel [] w r FR I) as [NP AT].
    destruct (parse_extend finite fuel false [] (at_ w r)) as [v q|e q| |]; try discriminate; [|contradiction].
    rewrite (AT v q eq_refl). rewrite skip_matches_at. unfold expect_done.
    destruct (p_cursor _ <? _); discriminate.
  Qed.
  (** every turn of the loop makes progress under [P]: then it ends *)
  Section Progress.
    Variable J : list data -> text -> text -> Prop.
    Hypothesis progress : forall acc a b, fine b -> inv acc -> b <> [] -> J acc a b ->
      ok_at (parse_one finite false acc) (fun d t r => arc_safe (d_id d) /\ t <> [] /\ J (d :: acc) (a ++ t) r) a b.
    Lemma extend_ends fuel acc a b : fine b -> inv acc -> J acc a b -> List.length b <= fuel ->
      parse_extend finite fuel false acc (at_ a b) <> Loop.
    Proof.
      revert acc a b. induction fuel as [|fuel IH]; intros acc a b F INV HJ L; cbn [parse_extend]; unfold bind;
        rewrite is_empty_at; destruct b as [|c b]; try discriminate.
      - simpl in L. lia.
      - destruct (progress acc a (c :: b) F INV ltac:(discriminate) HJ) as [(d & t & r & E & E' & A & T & J')|(e & q & E' & _)]; rewrite E'; [|discriminate].
        rewrite E in F, L. apply fine_suffix in F. apply IH; auto.
        rewrite app_length in L. destruct t; [contradiction|]. simpl in L. lia.
    Qed.
    Lemma path_ends s : fine s -> (forall w r, s = w ++ r -> J [] w r) ->
      forall fuel, List.length s <= fuel -> parse_path finite fuel s <> Loop.
    Proof.
      intros F HJ fuel L. unfold parse_path, parse_string, bind.
      change (new s) with (at_ [] s). unfold skip_whitespace. rewrite skip_matches_at. cbn [app].
      set (w := take_while is_whitespace s). set (r := drop_while is_whitespace s).
      assert (S : s = w ++ r) by (symmetry; apply take_drop).
      assert (FR : fine r). { apply (fine_suffix w). rewrite <- S. exact F. }
      assert (LR : List.length r <= fuel). { rewrite S, app_length in L. lia. }
      pose proof (extend_ends fuel [] w r FR I (HJ w r S) LR) as NL.
      destruct (extend_no_panic fuel [] w r FR I) as [NP AT].
      destruct (parse_extend finite fuel false [] (at_ w r)) as [v q|e q| |]; try discriminate; [|contradiction].
      rewrite (AT v q eq_refl). rewrite skip_matches_at. unfold expect_done.
      destruct (p_cursor _ <? _); discriminate.
    Qed.
  End Progress.
End Fine.
