(** Model of the comparison of pictures and of writing them: crates/oxvg/src/commands/visual_regression.rs (lines without a file are of this one) and
    commands/render.rs.

    Simplifications: drawing is a parameter that gives the bytes of the picture; distances are compared by their squares; the screenshots (168-204) are left out;
    documents are handled one after the other. *)
From Coq Require Import String List NArith Bool Arith.
From Verif Require Import Chars ShellModel ExportModel.
Import ListNotations.

(** The square of the distance of two bytes (121-124). *)
Definition square_off (a b : N) : N := let d := if (a <? b)%N then (b - a)%N else (a - b)%N in (d * d)%N.
(** [difference] (117-128) is more than [0.1] (149): the root of the sum is more than 51. *)
Definition far_off (a0 a1 a2 a3 b0 b1 b2 b3 : N) : bool := (2601 <? square_off a0 b0 + square_off a1 b1 + square_off a2 b2 + square_off a3 b3)%N.
(** The errors of 144-150: [tuple_windows] yields the four bytes from every byte on. *)
Fixpoint errors (a b : list N) : nat :=
  match a, b with
  | a0 :: a', b0 :: b' =>
      match a', b' with
      | a1 :: a2 :: a3 :: _, b1 :: b2 :: b3 :: _ => (if far_off a0 a1 a2 a3 b0 b1 b2 b3 then 1 else 0) + errors a' b'
      | _, _ => 0
      end
  | _, _ => 0
  end.
(** [Status] (18-23), with the errors and the length in place of the percentage. *)
Inductive status := Broken (errors length : nat) | Ok.
(** [compare] (131-157); [None] is a failed assertion. *)
Definition compare (original optimised : list N) : option status :=
  if negb (List.length original =? List.length optimised) then None
  else if negb (List.length original mod 4 =? 0) then None
  else let n := errors original optimised in
       if List.length original <? 50 * n then Some (Broken n (List.length original)) else Some Ok.

Section Draw.
(** Drawing in a square of 512 (78-115); [None] is an error. *)
Variable draw : text -> option (list N).
(** [check] (162-206): [None] is a failed assertion, [Some None] an error. *)
Definition check (original optimised : text) : option (option status) :=
  match draw original with
  | None => Some None
  | Some a => match draw optimised with
              | None => Some None
              | Some b => option_map Some (compare a b)
              end
  end.
(** What is written to the standard error stream (59, 63-70). *)
Inductive message := Missing | Regressed (errors length : nat).
(** The function for each document (54-73); [output] is the file with the optimised document, and what it holds if it can be read. *)
Definition regress (source : text) (output : option (option text)) : option (list message) :=
  match output with
  | None => Some []
  | Some None => Some [Missing]
  | Some (Some optimised) =>
      match check source optimised with
      | None => None
      | Some (Some (Broken n l)) => Some [Regressed n l]
      | Some _ => Some []
      end
  end.
End Draw.

Section Render.
(** Drawing in the size of the document (commands/render.rs:74-110): the bytes of the pixels, or an error. *)
Variable draw : text -> option (list N).
(** Whether the operating system refuses a file (commands/render.rs:54-57). *)
Variable denied : path -> bool.
(** The function for each document (commands/render.rs:42-66): what is written, and whether the flag is set. *)
Definition render (source : text) (input output : option path) : option (path * list N) * bool :=
  match (match output with Some p => Some p | None => input end) with
  | None => (None, true)
  | Some p =>
      let p := set_extension p (lit "png") in
      match draw source with
      | None => (None, true)
      | Some d => if denied p then (None, true) else (Some (p, d), false)
      end
  end.
(** commands/render.rs:39-71 for documents: all that is written, and whether the command succeeds. *)
Definition render_all (l : list (text * option path * option path)) : list (path * list N) * bool :=
  (flat_map (fun x => match fst (render (fst (fst x)) (snd (fst x)) (snd x)) with Some w => [w] | None => [] end) l,
   negb (existsb (fun x => snd (render (fst (fst x)) (snd (fst x)) (snd x))) l)).
End Render.
