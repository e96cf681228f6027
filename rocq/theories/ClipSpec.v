(** How clips are written (SVG 1.1, 14.3.1; CSS 2.1, 11.1.2), independently of how they are read. *)
From Coq Require Import String List NArith ZArith Bool Arith.
From Verif Require Import Chars ParseModel ParseSpec OnsetSpec KeywordSpec ClipModel.
Import ListNotations.

(** The name of a unit of length. *)
Definition length_unit (u : string) : Prop := In u ["em"; "ex"; "px"; "in"; "cm"; "mm"; "pt"; "pc"]%string.
(** A side of the rectangle: [auto], or a length, which is a number with or without a unit. *)
Definition side_text (t : text) : Prop :=
  t = lit "auto" \/ exists n, is_number n /\ ~ ends_in 46%N n /\ (t = n \/ exists u, length_unit u /\ t = n ++ lit u).
(** [rect(] the four sides [)]. *)
Definition rect (a b c d s1 s2 s3 w0 w1 : text) : text :=
  lit "rect(" ++ w0 ++ a ++ s1 ++ b ++ s2 ++ c ++ s3 ++ d ++ w1 ++ [41%N].
(** All that the language allows. *)
Definition language_clip (t : text) : Prop :=
  t = lit "auto" \/
  exists a b c d s1 s2 s3 w0 w1, side_text a /\ side_text b /\ side_text c /\ side_text d /\
    comma_wsp s1 /\ comma_wsp s2 /\ comma_wsp s3 /\ spaces w0 /\ spaces w1 /\ t = rect a b c d s1 s2 s3 w0 w1.

(** The texts that mean a given clip, when the sides are plain numbers. *)
Definition clip_text (finite : dec -> bool) (f32 : dec -> dec) (x : clip) (t : text) : Prop :=
  match x with
  | Auto => t = lit "auto"
  | Shape a b c d =>
      exists ta tb tc td s1 s2 s3 w0 w1,
        num_text finite f32 a ta /\ num_text finite f32 b tb /\ num_text finite f32 c tc /\ num_text finite f32 d td /\
        comma_wsp s1 /\ comma_wsp s2 /\ comma_wsp s3 /\ spaces w0 /\ spaces w1 /\ t = rect ta tb tc td s1 s2 s3 w0 w1
  end.
(** The printer of numbers is good enough for the sides. *)
Definition sides_print (finite : dec -> bool) (f32 : dec -> dec) (print : dec -> text) (x : clip) : Prop :=
  match x with
  | Auto => True
  | Shape a b c d => prints finite f32 print a /\ prints finite f32 print b /\ prints finite f32 print c /\ prints finite f32 print d
  end.
