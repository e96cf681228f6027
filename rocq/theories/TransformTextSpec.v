(** When two transforms are equal as numbers. *)
From Coq Require Import String List NArith ZArith QArith Bool.
From Verif Require Import Chars ParseModel ParseSpec TransformTextModel.
Import ListNotations.

(** The number a decimal stands for. *)
Definition value (d : dec) : Q :=
  inject_Z (if neg d then (- of_digits (dig d))%Z else of_digits (dig d)) * (inject_Z 10) ^ (ex d).
(** Same function, same numbers. *)
Definition equal {C} (s t : tf C) : Prop :=
  match s, t with
  | TMatrix a b c d e f, TMatrix a' b' c' d' e' f' =>
    value a == value a' /\ value b == value b' /\ value c == value c' /\ value d == value d' /\ value e == value e' /\ value f == value f'
  | TTranslate x y, TTranslate x' y' | TScale x y, TScale x' y' => value x == value x' /\ value y == value y'
  | TRotate a x y, TRotate a' x' y' => value a == value a' /\ value x == value x' /\ value y == value y'
  | TSkewX a, TSkewX a' | TSkewY a, TSkewY a' => value a == value a'
  | TCss c, TCss c' => c = c'
  | _, _ => False
  end.
(** The printed number is read back by the standard library as a finite number, equal after rounding to [f32]. *)
Definition reads_back (finite : dec -> bool) (f32 : dec -> dec) (print : dec -> text) (d : dec) : Prop :=
  exists d', rust_f64 (print d) = Some d' /\ finite d' = true /\ value (f32 d') == value d.
(** All arguments are, and it is not a CSS transform. *)
Definition plain {C} (finite : dec -> bool) (f32 : dec -> dec) (print : dec -> text) (t : tf C) : Prop :=
  let ok := reads_back finite f32 print in
  match t with
  | TMatrix a b c d e f => ok a /\ ok b /\ ok c /\ ok d /\ ok e /\ ok f
  | TTranslate x y | TScale x y => ok x /\ ok y
  | TRotate a x y => ok a /\ ok x /\ ok y
  | TSkewX a | TSkewY a => ok a
  | TCss _ => False
  end.
