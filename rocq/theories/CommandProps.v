From Coq Require Import String List NArith ZArith Bool Arith.
From Verif Require Import Chars ParseModel ParseSpec OnsetSpec KeywordSpec CommandModel CommandSpec CommandProofs.
Import ListNotations.

(** C112: a list of words is read as the actions it spells, in their order and with their arguments, and as nothing else: what is not a list of actions with the arguments they need is not run. *)
Theorem C112_read : forall finite f32 ws l,
  parse_commands finite f32 ws = Done l <-> spelt_all (fun t d => exists q, number finite f32 t = Ok d q) l ws.
Proof. exact commands_iff. Qed.
Print Assumptions C112_read.
(** C112: numbers are taken in every way SVG writes them, with white space around them.  Missing, and refuted in C22: those with a dot at the end. *)
Theorem C112_numbers_partial : forall finite f32 l ws,
  spelt_all (fun t d => exists v u w, spaces v /\ spaces w /\ num_text finite f32 d u /\ t = v ++ u ++ w) l ws -> parse_commands finite f32 ws = Done l.
Proof. exact commands_text. Qed.
Print Assumptions C112_numbers_partial.
(** C112: [action list] describes the actions that are named, and all of them if none is. *)
Theorem C112_list : forall ws t, In t (describe ws) <-> exists ns, In (t, ns) sections /\ (ws = [] \/ exists n, In n ns /\ In (lit n) ws).
Proof. exact describe_in. Qed.
Print Assumptions C112_list.

Definition all (d : dec) : bool := true.
Definition id32 (d : dec) : dec := d.
Definition d_of (n : N) : dec := Dec false [n] 0.
Example C112_sample :
  parse_commands all id32 (map lit ["-select"; "rect"; "-translate"; "1"; "-rotate"; "9"; "2"; " 3 "; "-scale"; "4"; "5"; "-attr"; "fill"; "-red"; "-deselect"]%string) =
    Done [Select (lit "rect"); Translate (d_of 1) None; Rotate (d_of 9) (Some (d_of 2, d_of 3)); Scale (d_of 4) (Some (d_of 5)); Attr (lit "fill") (lit "-red"); Deselect] /\
  map (fun ws => parse_commands all id32 (map lit ws)) [["-rotate"; "9"; "2"; "-skewX"; "3"]; ["-translate"; "1"; "2"; "3"]; ["select"; "rect"]; ["-attr"; "fill"]]%string = [Bad; Bad; Bad; Bad] /\
  describe (map lit ["-create-element"; "rect"; "-delete"]%string) = ["Insert"%string] /\ List.length (describe []) = 18.
Proof. split; [|split; [|split]]; vm_compute; reflexivity. Qed.

(** The commands that the documentation gives as its example (action.rs:33, 51). *)
Definition documented : list string := ["-select"; "main"; "-delete"]%string.
(** C112, refuted: the example of the documentation is refused, and [action list] has nothing to say about [-delete]. *)
Theorem C112_documented_refuted : parse_commands all id32 (map lit documented) = Bad /\ describe [lit "-delete"] = [].
Proof. split; vm_compute; reflexivity. Qed.
(** C112, refuted: an action whose argument was left out is not refused when another follows, but takes its name. *)
Theorem C112_left_out_refuted : exists a b l, In a (map lit (flat_map snd sections)) /\ In b (map lit (flat_map snd sections)) /\ parse_commands all id32 [a] = Bad /\ parse_commands all id32 [b] <> Bad /\ parse_commands all id32 [a; b] = Done l /\ List.length l = 1.
Proof. exists (lit "-select"), (lit "-deselect"), [Select (lit "-deselect")]. split; [cbn; tauto|]. split; [cbn; tauto|]. split; [|split; [|split]]; vm_compute; try reflexivity. discriminate. Qed.
(** C112, refuted: a word that is no number ends the program instead of being refused. *)
Theorem C112_panic_refuted : exists t, parse_commands all id32 [lit "-skewX"; t] = Crash /\ parse_commands all id32 [lit "-scale"; lit "1"; t] = Crash.
Proof. exists [233%N; 46%N]. split; vm_compute; reflexivity. Qed.
