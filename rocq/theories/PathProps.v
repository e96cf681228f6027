(** C20, C21: reading and printing path data. *)
From Coq Require Import String List NArith ZArith Bool Arith Lia.
From Verif Require Import Chars ParseModel ParseSpec PathModel PathSpec PathProofs2 PathProofs3 PathProofs4 PathProofs5.
Import ListNotations.

(** C20: parsing ends, with a path or an error, after at most as many commands as characters, when
    the text is ASCII or has no arcs, does not end in a dot or comma, and only a command or the end
    follows a closepath. Missing: the excluded texts, on which it is refuted below. *)
Theorem C20_terminates_partial : forall (finite : dec -> bool) (s : text),
  arcs_ascii s -> ~ ends_in 46%N s -> ~ ends_in 44%N s -> closes_well s ->
  forall fuel, List.length s <= fuel -> returns (parse_path finite fuel s).
Proof. exact terminates_partial. Qed.
Print Assumptions C20_terminates_partial.
Example C20_terminates_example : let s := lit "M 1,2 3-4Z m.5.5a1 1 0 01 1e1 2" in
  (arcs_ascii s /\ ~ ends_in 46%N s /\ ~ ends_in 44%N s) /\
  parse_path (fun _ => true) 40 s =
  Ok [D false MoveTo [Dec false [1%N] 0; Dec false [2%N] 0]; D true LineTo [Dec false [3%N] 0; Dec true [4%N] 0];
      D false ClosePath []; D false MoveBy [Dec false [5%N] (-1); Dec false [5%N] (-1)];
      D false ArcBy [Dec false [1%N] 0; Dec false [1%N] 0; Dec false [] 0; Dec false [] 0; Dec false [1%N] 0;
                     Dec false [1%N] 1; Dec false [2%N] 0]] (P s 31).
Proof.
  split; [|vm_compute; reflexivity]. split.
  - left. unfold ascii. cbn. repeat (constructor; [reflexivity|]). constructor.
  - split; intros (t & E); apply (f_equal (@rev N)) in E; rewrite rev_app_distr in E; discriminate.
Qed.
Example C20_closes_example : closes_well (lit "M0 0Z M1 1").
Proof.
  intros a z sep c b E Z F. cbn in E.
  do 4 (destruct a as [|? a]; [injection E as <- _; destruct Z; discriminate|injection E as _ E]).
  destruct a as [|? a].
  - injection E as _ E. destruct sep as [|x sep]; injection E as <- E; [left; left; reflexivity|].
    destruct sep as [|y sep]; injection E as <- E; [right; left; reflexivity|].
    inversion F as [|? ? _ F2]; subst. inversion F2 as [|? ? [X|X] _]; discriminate.
  - injection E as _ E.
    do 5 (destruct a as [|? a]; [injection E as <- _; destruct Z; discriminate|injection E as _ E]).
    destruct a; discriminate.
Qed.

(** C20: without closepath letters every ASCII text is parsed or rejected. *)
Theorem C20_no_close_partial : forall (finite : dec -> bool) (s : text), ascii s -> no_close s ->
  forall fuel, List.length s <= fuel -> returns (parse_path finite fuel s).
Proof. exact terminates_no_close. Qed.
Print Assumptions C20_no_close_partial.

(** C20: parsing never panics on ASCII text, nor on other text without arcs and without a dot or
    comma at its end. *)
Theorem C20_no_panic_partial : forall (finite : dec -> bool) (s : text),
  ascii s \/ (no_arcs s /\ not_trailing s) -> forall fuel, parse_path finite fuel s <> Panic.
Proof. exact no_panic_partial. Qed.
Print Assumptions C20_no_panic_partial.

(** C20 fails: a number after a closepath keeps the parser adding implicit closepaths for ever. *)
Theorem C20_loop_refuted : exists s : text, ascii s /\ forall fuel, parse_path (fun _ => true) fuel s = Loop.
Proof.
  exists (lit "M0 0Z1 1"). split; [|exact stuck].
  unfold ascii. cbn. repeat (constructor; [reflexivity|]). constructor.
Qed.
Print Assumptions C20_loop_refuted.

(** C20 fails: text with a multi-byte character panics. *)
Theorem C20_panic_refuted : exists s t : text, forall fuel, 2 <= fuel ->
  parse_path (fun _ => true) fuel s = Panic /\ parse_path (fun _ => true) fuel t = Panic.
Proof.
  exists ([77; 233; 46]%N), (lit "M0 0A1 1 0 " ++ [233%N] ++ lit " 0 1 1").
  intros [|[|fuel]] H; [lia|lia|]. split; vm_compute; reflexivity.
Qed.
Print Assumptions C20_panic_refuted.

(** C21: a well-formed path whose numbers are printed without exponent (and that has no implicit
    closepath) is read back from its own text as the same commands with the same numbers. Missing:
    numbers printed with an exponent and repeated closepaths, on which it is refuted below. [finite] says whether a decimal is in the range of a double. *)
Theorem C21_round_trip_partial : forall (finite : dec -> bool) (l : list data),
  path_ok l -> l <> [] ->
  Forall (fun d => Forall (fun x => plain x /\ finite x = true) (d_args d)) l -> finite (Dec false [] 0) = true ->
  Forall (fun d => d_implicit d = true -> d_id d <> ClosePath) l ->
  forall fuel, List.length l <= fuel ->
  exists l' q, parse_path finite fuel (format_path l) = Ok l' q /\ same_path l l'.
Proof. exact round_trip. Qed.
Print Assumptions C21_round_trip_partial.
Example C21_round_trip_example :
  let l := [D false MoveBy [Dec true [] 0; Dec false [5%N] (-1)]; D true LineBy [Dec false [7%N] (-2); Dec true [1%N] 2];
            D false ArcTo [Dec false [1%N] 0; Dec false [1%N] 0; Dec false [] 0; Dec false [] 0; Dec false [1%N] 0; Dec false [5%N] (-1); Dec false [5%N] (-1)];
            D false ClosePath []] in
  path_ok l /\ Forall (fun d => Forall plain (d_args d)) l /\ format_path l = lit "m0 .5.07-100A1 1 0 0 1 .5.5Z".
Proof.
  cbv zeta. split; [|split; [|vm_compute; reflexivity]].
  - split; [|split; [reflexivity|split; [right; reflexivity|]]].
    + assert (C : forall n, n <> 0%N -> (n < 10)%N -> forall s e, canonical (Dec s [n] e)).
      { intros n N0 N1 s e. cbn. split; [exact N0|]. split; [exact N0|]. constructor; auto. }
      assert (C0 : forall s, canonical (Dec s [] 0)) by reflexivity.
      repeat (apply Forall_cons || apply Forall_nil); (split; [reflexivity|split; [|cbn; intros X; try (destruct X; discriminate); unfold flag; auto]]);
        cbn [d_args]; repeat (apply Forall_cons || apply Forall_nil); try apply C0; apply C; (discriminate || reflexivity).
    + cbn. repeat split; intros; try discriminate; auto.
  - repeat (apply Forall_cons || apply Forall_nil); cbn [d_args];
      repeat (apply Forall_cons || apply Forall_nil); unfold plain; cbn; try (left; reflexivity); right; lia.
Qed.

(** C21: arc flags may be written without separators, as other tools do. *)
Theorem C21_glued_flags finite rx ry rot x y (f g : bool) :
  Forall (fun d => canonical d /\ plain d /\ finite d = true) [rx; ry; rot; x; y] -> finite (Dec false [] 0) = true ->
  forall fuel, 2 <= fuel ->
  exists l q, parse_path finite fuel (lit "M0 0A" ++ short_number (ryu rx) ++ lit " " ++ short_number (ryu ry) ++ lit " " ++
    short_number (ryu rot) ++ lit " " ++ [if f then 49%N else 48%N; if g then 49%N else 48%N] ++
    short_number (ryu x) ++ lit " " ++ short_number (ryu y)) = Ok l q /\
    same_path [D false MoveTo [zero; zero];
               D false ArcTo [rx; ry; rot; if f then one else zero; if g then one else zero; x; y]] l.
Proof. exact (glued_flags finite rx ry rot x y f g). Qed.
Print Assumptions C21_glued_flags.
Example C21_glued_flags_example : exists q,
  parse_path (fun _ => true) 2 (lit "M0 0A5 5 0 015.5 2") =
  Ok [D false MoveTo [zero; zero];
      D false ArcTo [Dec false [5%N] 0; Dec false [5%N] 0; zero; zero; one; Dec false [5%N; 5%N] (-1); Dec false [2%N] 0]] q.
Proof. eexists. vm_compute. reflexivity. Qed.

(** C21 fails: the zero at the end of an exponent is taken for a zero of the fraction and dropped, so
    the number read back is a different one. *)
Theorem C21_exponent_refuted : exists (l l' : list data) (q : parser),
  path_ok l /\ format_path l = lit "M1.5e-1 0" /\
  parse_path (fun _ => true) 2 (format_path l) = Ok l' q /\ ~ same_path l l'.
Proof.
  exists [D false MoveTo [Dec false [1%N; 5%N] (-11); Dec false [] 0]],
         [D false MoveTo [Dec false [1%N; 5%N] (-2); Dec false [] 0]]. eexists.
  split; [|split; [vm_compute; reflexivity|split; [vm_compute; reflexivity|]]].
  - split; [|split; [reflexivity|split; [left; reflexivity|exact I]]].
    constructor; [|constructor]. split; [reflexivity|]. split; [|intros [X|X]; discriminate X].
    repeat constructor; try discriminate; reflexivity.
  - intros S. inversion S as [|? ? ? ? [_ A] _]; subst. inversion A as [|? ? ? ? [B|[B _]] _]; discriminate.
Qed.
Print Assumptions C21_exponent_refuted.

(** C21 fails: after a number with an exponent no space is written before a fraction, and the text
    cannot be read; *)
Theorem C21_unreadable_refuted : exists (l : list data) (e : err) (q : parser),
  path_ok l /\ format_path l = lit "M1e-7.5" /\ parse_path (fun _ => true) 2 (format_path l) = Fail e q.
Proof.
  exists [D false MoveTo [Dec false [1%N] (-7); Dec false [5%N] (-1)]]. eexists _, _.
  split; [|split; [vm_compute; reflexivity|vm_compute; reflexivity]].
  split; [|split; [reflexivity|split; [left; reflexivity|exact I]]].
  constructor; [|constructor]. split; [reflexivity|]. split; [|intros [X|X]; discriminate X].
  repeat constructor; try discriminate; reflexivity.
Qed.
Print Assumptions C21_unreadable_refuted.

(** C21 fails: an implicit command that begins with a small number is glued to the number before. *)
Theorem C21_glued_refuted : exists (l l' : list data) (q : parser),
  path_ok l /\ format_path l = lit "M0 0H1.51e-7" /\
  parse_path (fun _ => true) 3 (format_path l) = Ok l' q /\ ~ same_path l l'.
Proof.
  exists [D false MoveTo [Dec false [] 0; Dec false [] 0]; D false HorTo [Dec false [1%N; 5%N] (-1)];
          D true HorTo [Dec false [1%N] (-7)]],
         [D false MoveTo [Dec false [] 0; Dec false [] 0]; D false HorTo [Dec false [1%N; 5%N; 1%N] (-9)]]. eexists.
  split; [|split; [vm_compute; reflexivity|split; [vm_compute; reflexivity|]]].
  - split; [|split; [reflexivity|split; [left; reflexivity|cbn; repeat split; intros; discriminate]]].
    repeat constructor; try discriminate; try reflexivity; intros [X|X]; discriminate X.
  - intros S. inversion S as [|? ? ? ? _ S2]; subst. inversion S2 as [|? ? ? ? _ S3]; subst. inversion S3.
Qed.
Print Assumptions C21_glued_refuted.

(** C21 fails: repeated closepaths are printed as spaces and lost. *)
Theorem C21_close_refuted : exists (l l' : list data) (q : parser),
  path_ok l /\ format_path l = lit "M0 0Z M1 1" /\
  parse_path (fun _ => true) 9 (format_path l) = Ok l' q /\ ~ same_path l l'.
Proof.
  exists [D false MoveTo [Dec false [] 0; Dec false [] 0]; D false ClosePath []; D true ClosePath [];
          D false MoveTo [Dec false [1%N] 0; Dec false [1%N] 0]],
         [D false MoveTo [Dec false [] 0; Dec false [] 0]; D false ClosePath [];
          D false MoveTo [Dec false [1%N] 0; Dec false [1%N] 0]]. eexists.
  split; [|split; [vm_compute; reflexivity|split; [vm_compute; reflexivity|]]].
  - split; [|split; [reflexivity|split; [left; reflexivity|cbn; repeat split; intros; try discriminate; auto]]].
    repeat constructor; try discriminate; try reflexivity; intros [X|X]; discriminate X.
  - intros S. inversion S as [|? ? ? ? _ S2]; subst. inversion S2 as [|? ? ? ? _ S3]; subst.
    inversion S3 as [|? ? ? ? [X _] _]; discriminate.
Qed.
Print Assumptions C21_close_refuted.
