(** What a recorded history should give back. *)
From Coq Require Import String List NArith Bool Arith.
From Verif Require Import Chars XmlModel XmlSpec ActionModel.
Import ListNotations.

(** Words separated by single spaces. *)
Fixpoint spaced_words (ws : list text) : text :=
  match ws with
  | [] => []
  | [w] => w
  | w :: ws => w ++ 32%N :: spaced_words ws
  end.
Definition is_word (w : text) : Prop := w <> [] /\ Forall (fun c => is_whitespace c = false) w.
(** [squeezed s t]: [t] is [s] with the white space at both ends removed and every other run of it
    made a single space. *)
Inductive blank : text -> Prop :=
| blank_nil : blank []
| blank_cons c s : is_whitespace c = true -> blank s -> blank (c :: s).
Inductive squeezed : text -> text -> Prop :=
| squeezed_blank s : blank s -> squeezed s []
| squeezed_word a w b : blank a -> is_word w -> blank b -> squeezed (a ++ w ++ b) w
| squeezed_more a w c s t : blank a -> is_word w -> is_whitespace c = true -> squeezed s t -> t <> [] ->
    squeezed (a ++ w ++ c :: s) (w ++ 32%N :: t).

Section Spec.
  Context {num : Type}.
  (** The same action with its texts related by [R]. *)
  Inductive alike (R : text -> text -> Prop) : action num -> action num -> Prop :=
  | alike_attr a b a' b' : R a a' -> R b b' -> alike R (Attr a b) (Attr a' b')
  | alike_style a b a' b' : R a a' -> R b b' -> alike R (Style a b) (Style a' b')
  | alike_class a a' : R a a' -> alike R (Class a) (Class a')
  | alike_insert a a' : R a a' -> alike R (Insert a) (Insert a')
  | alike_select a a' : R a a' -> alike R (Select a) (Select a')
  | alike_select_more a a' : R a a' -> alike R (SelectMore a) (SelectMore a')
  | alike_intersect : alike R PathIntersect PathIntersect
  | alike_union : alike R PathUnion PathUnion
  | alike_subtract : alike R PathSubtract PathSubtract
  | alike_xor : alike R PathXor PathXor
  | alike_matrix a b c d e f : alike R (Matrix a b c d e f) (Matrix a b c d e f)
  | alike_translate x y : alike R (Translate x y) (Translate x y)
  | alike_scale x y : alike R (Scale x y) (Scale x y)
  | alike_rotate x o : alike R (Rotate x o) (Rotate x o)
  | alike_skew_x x : alike R (SkewX x) (SkewX x)
  | alike_skew_y x : alike R (SkewY x) (SkewY x)
  | alike_forget : alike R Forget Forget
  | alike_deselect : alike R Deselect Deselect.

  (** Every action but [Insert]. *)
  Definition not_insert (a : action num) : Prop := forall t, a <> Insert t.
  (** The texts of an action. *)
  Definition texts_of (a : action num) : list text :=
    match a with
    | Attr x y | Style x y => [x; y]
    | Class x | Insert x | Select x | SelectMore x => [x]
    | _ => []
    end.
End Spec.

(** The texts an XML document can hold and a reader reports unchanged (see XmlSpec). *)
Definition writable {num} (a : action num) : Prop := Forall text_ok (texts_of a).
(** Numbers are written without white space, in XML characters, and read back. *)
Definition numbers_ok {num} (show : num -> text) (parse : text -> option num) : Prop :=
  forall x, parse (show x) = Some x /\ text_ok (show x) /\ is_word (show x).
