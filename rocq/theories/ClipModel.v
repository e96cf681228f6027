(** Model of the clip of the paint area (crates/oxvg_collections/src/attribute/presentation.rs:162-224). *)
From Coq Require Import String List NArith ZArith Bool Arith.
From Verif Require Import Chars ParseModel ClockModel OnsetModel KeywordModel.
Import ListNotations.
Open Scope parse_scope.

(** [Clip] (presentation.rs:166-173): the shape has the top, the right, the bottom and the left. *)
Inductive clip := Shape (t r b l : dec) | Auto.

Section Clip.
  Variable finite : dec -> bool.
  Variable f32 : dec -> dec.
  Variable print : dec -> text.
  (** [Number::parse] (crates/oxvg_parse/src/types/number.rs:42-46). *)
  Local Notation num := (parse_f32 finite f32).

  (** The closure reading a rectangle (presentation.rs:180-199). *)
  Definition parse_shape : parser -> out clip :=
    (expect_str (lit "rect(") ;;;
     skip_comma ;;; t <- num ;;
     skip_comma ;;; r <- num ;;
     skip_comma ;;; b <- num ;;
     skip_comma ;;; l <- num ;;
     skip_whitespace ;;; expect_char 41 ;;; ret (Shape t r b l)).
  (** [Clip::parse] (presentation.rs:175-202). *)
  Definition parse_clip : parser -> out clip := or_else (expect_ident_matching (lit "auto") ;;; ret Auto) parse_shape.
  (** [Clip::write_value] (presentation.rs:204-224). *)
  Definition print_clip (c : clip) : text :=
    match c with
    | Auto => lit "auto"
    | Shape t r b l =>
        lit "rect(" ++ print t ++ [44%N] ++ print r ++ [44%N] ++ print b ++ [44%N] ++ print l ++ [41%N]
    end.
End Clip.
