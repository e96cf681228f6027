(** Model of reading and writing transform lists (crates/oxvg_collections/src/attribute/transform.rs). *)
From Coq Require Import String List NArith ZArith Bool Arith.
From Verif Require Import Chars ParseModel ClockModel.
Import ListNotations.
Open Scope parse_scope.

(** [SVGTransform] (transform.rs:24-45). The [f32] values are decimals (see [dec] in ParseModel). CSS transforms are of
    any type [C]. *)
Inductive tf (C : Type) :=
| TMatrix (a b c d e f : dec) | TTranslate (x y : dec) | TScale (x y : dec) | TRotate (angle x y : dec)
| TSkewX (angle : dec) | TSkewY (angle : dec) | TCss (css : C).
Arguments TMatrix {C}. Arguments TTranslate {C}. Arguments TScale {C}. Arguments TRotate {C}.
Arguments TSkewX {C}. Arguments TSkewY {C}. Arguments TCss {C}.

(** The literal [0.0] (transform.rs:300, 331, 374, 392). *)
Definition zero : dec := Dec false [] 0.
(** The digits with their sign (transform.rs:374, 383, 392). *)
Definition signed (d : dec) : Z := if neg d then (- of_digits (dig d))%Z else of_digits (dig d).
(** [==] on [f32] (transform.rs:374, 383, 392): zero and minus zero are equal. *)
Definition num_eqb (a b : dec) : bool :=
  let k := Z.min (ex a) (ex b) in (signed a * 10 ^ (ex a - k) =? signed b * 10 ^ (ex b - k))%Z.

Section Transform.
  (** See ClockModel; CSS transforms are read and written by lightningcss. *)
  Variable finite : dec -> bool.
  Variable f32 : dec -> dec.
  Variable print_number : dec -> text.
  Variable C : Type.
  Variable css : text -> option C.
  Variable print_css : C -> text.

  Let number := parse_f32 finite f32.
  (** [skip_comma_and_whitespace] (transform.rs:499-503). *)
  Definition skip_comma_and_whitespace : parser -> out unit := (skip_whitespace ;;; skip_char 44 ;;; skip_whitespace).
  (** White space, then the closing parenthesis (transform.rs:286-287 and so on). *)
  Definition close : parser -> out unit := (skip_whitespace ;;; expect_char 41).
  (** [if let Ok(y) = input.try_parse(f32::parse)] (transform.rs:293, 306, 319). *)
  Definition maybe_number (p : parser) : out (option dec) :=
    match try_parse number p with
    | Ok d p => Ok (Some d) p
    | Fail _ p => Ok None p
    | Panic => Panic
    | Loop => Loop
    end.
  (** The arguments of a function (transform.rs:273-345). *)
  Definition arguments (function : text) : parser -> out (tf C) :=
    if text_eqb function (lit "matrix") then
      a <- number ;; skip_comma_and_whitespace ;;; b <- number ;; skip_comma_and_whitespace ;;;
      c <- number ;; skip_comma_and_whitespace ;;; d <- number ;; skip_comma_and_whitespace ;;;
      e <- number ;; skip_comma_and_whitespace ;;; f <- number ;; close ;;; ret (TMatrix a b c d e f)
    else if text_eqb function (lit "translate") then
      x <- number ;; skip_comma_and_whitespace ;;; y <- maybe_number ;;
      match y with Some y => close ;;; ret (TTranslate x y) | None => close ;;; ret (TTranslate x zero) end
    else if text_eqb function (lit "scale") then
      x <- number ;; skip_comma_and_whitespace ;;; y <- maybe_number ;;
      match y with Some y => close ;;; ret (TScale x y) | None => close ;;; ret (TScale x x) end
    else if text_eqb function (lit "rotate") then
      angle <- number ;; skip_comma_and_whitespace ;;; x <- maybe_number ;;
      match x with
      | Some x => skip_comma_and_whitespace ;;; y <- number ;; close ;;; ret (TRotate angle x y)
      | None => close ;;; ret (TRotate angle zero zero)
      end
    else if text_eqb function (lit "skewX") then a <- number ;; close ;;; ret (TSkewX a)
    else if text_eqb function (lit "skewY") then a <- number ;; close ;;; ret (TSkewY a)
    else fail ExpectedIdent.
  (** The SVG form (transform.rs:267-345). *)
  Definition parse_function : parser -> out (tf C) :=
    (function <- expect_ident ;; skip_whitespace ;;; expect_char 40 ;;; arguments function).
  (** The CSS form takes all that is left (transform.rs:347-350, oxvg_parse/src/types/lightningcss.rs:36-39, 81). *)
  Definition parse_css : parser -> out (tf C) :=
    (s <- take_slice ;; match css s with Some c => ret (TCss c) | None => fail ExpectedIdent end).
  (** [SVGTransform::parse] (transform.rs:264-351). *)
  Definition parse_transform : parser -> out (tf C) := or_else parse_function parse_css.
  (** The loop of [SVGTransformList::parse] (transform.rs:595-604) with [n] rounds left. *)
  Fixpoint parse_items (n : nat) (p : parser) : out (list (tf C)) :=
    match n with
    | 0 => Panic
    | S n =>
      (skip_comma_and_whitespace ;;;
       fun p => match try_parse parse_transform p with
                | Ok t p => match parse_items n p with Ok l p => Ok (t :: l) p | r => r end
                | Fail _ p => Ok [] p
                | Panic => Panic
                | Loop => Loop
                end) p
    end.
  (** [SVGTransformList::parse] (transform.rs:592-605). *)
  Definition parse_transforms : parser -> out (list (tf C)) := parse_items 2048.

  Let sp : text := [32%N].
  (** [SVGTransform::write_value] (transform.rs:355-416). *)
  Definition print_transform (t : tf C) : text :=
    match t with
    | TMatrix a b c d e f =>
      lit "matrix(" ++ print_number a ++ sp ++ print_number b ++ sp ++ print_number c ++ sp ++
      print_number d ++ sp ++ print_number e ++ sp ++ print_number f ++ lit ")"
    | TTranslate x y =>
      lit "translate(" ++ print_number x ++ (if num_eqb y zero then [] else sp ++ print_number y) ++ lit ")"
    | TScale x y => lit "scale(" ++ print_number x ++ (if num_eqb x y then [] else sp ++ print_number y) ++ lit ")"
    | TRotate a x y =>
      lit "rotate(" ++ print_number a ++
      (if num_eqb x zero && num_eqb y zero then [] else sp ++ print_number x ++ sp ++ print_number y) ++ lit ")"
    | TSkewX a => lit "skewX(" ++ print_number a ++ lit ")"
    | TSkewY a => lit "skewY(" ++ print_number a ++ lit ")"
    | TCss c => print_css c
    end.
  (** [SVGTransformList::write_value] (transform.rs:608-621): nothing between the items. *)
  Definition print_transforms (l : list (tf C)) : text := flat_map print_transform l.
End Transform.
