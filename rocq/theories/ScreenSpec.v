(** Pictures as pixels, and files that are pictures. *)
From Coq Require Import List NArith ZArith Bool Arith.
From Verif Require Import Chars ScreenModel.
Import ListNotations.

(** A pixel is four bytes. *)
Definition pixel : Type := N * N * N * N.
Definition bytes_of (l : list pixel) : list N := flat_map (fun p => match p with (r, g, b, a) => [r; g; b; a] end) l.
(** Pixels that are more than a tenth of the greatest distance (255 four times, 510) apart: a distance of more than 51. *)
Definition apart (p q : pixel) : Prop :=
  match p, q with (a, b, c, d), (e, f, g, h) => (51 * 51 < (Z.of_N e - Z.of_N a) ^ 2 + (Z.of_N f - Z.of_N b) ^ 2 + (Z.of_N g - Z.of_N c) ^ 2 + (Z.of_N h - Z.of_N d) ^ 2)%Z end.
(** The number of places where two pictures satisfy something. *)
Inductive places (P : pixel -> pixel -> Prop) : nat -> list pixel -> list pixel -> Prop :=
| places_nil : places P 0 [] []
| places_yes n p q l r : P p q -> places P n l r -> places P (S n) (p :: l) (q :: r)
| places_no n p q l r : ~ P p q -> places P n l r -> places P n (p :: l) (q :: r).
Definition differ (p q : pixel) : Prop := p <> q.

(** The first eight bytes of every PNG. *)
Definition signature : list N := [137; 80; 78; 71; 13; 10; 26; 10]%N.
Definition is_png (l : list N) : Prop := exists r, l = signature ++ r.
(** Colours are multiplied by their opacity. *)
Definition premultiplied (p : pixel) : Prop := match p with (r, g, b, a) => (r <= a /\ g <= a /\ b <= a)%N end.
