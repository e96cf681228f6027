(** C29, C30, C58: simplifying transform lists. *)
From Coq Require Import Reals List ZArith Bool Arith Lra Lia.
From Verif Require Import TransformModel TransformSpec TransformProofs TransformProofs2.
Import ListNotations.
Open Scope R_scope.

(** Without rounding (numbers are reals and the rounding function is the identity): the job turns every list into one
    that moves every point to the same place, whatever the lengths of the printed forms and the options are. Missing: lists
    that, after collapsing, hold a matrix whose translation is exactly (1, 1), see the refutation. *)
Theorem C29_convert_partial : forall printed_length rnd total_digits decimal_digits o l,
  (forall p t, rnd p t = t) ->
  (forall m, In (Matrix m) (collapse o l) -> ~ (me m = 1 /\ mf m = 1)) ->
  exists r, convert printed_length rnd total_digits decimal_digits o l = Some r /\ same r l.
Proof. exact convert_same. Qed.
Print Assumptions C29_convert_partial.

(** The product matrix of a list moves every point as the list does. *)
Theorem C29_collapse : forall l m, to_matrix_2d l = Some m -> same [Matrix m] l.
Proof. exact to_matrix_2d_ok. Qed.
Print Assumptions C29_collapse.

(** Dropping useless items, and turning translate-rotate-translate into a rotation about a point, change nothing. *)
Theorem C29_useless : forall o l, same (remove_useless o l) l.
Proof. exact remove_useless_ok. Qed.
Print Assumptions C29_useless.
Theorem C29_short_rotates : forall l, same (short_rotates l) l.
Proof. exact (fun l => short_rotates_ok _ l (le_n _)). Qed.
Print Assumptions C29_short_rotates.

(** The job never panics (the unreachable branch of merging is not reached), with the rounding of the code. *)
Theorem C29_no_panic : forall printed_length total_digits decimal_digits o l,
  convert printed_length round_transform total_digits decimal_digits o l <> None.
Proof. exact convert_total. Qed.
Print Assumptions C29_no_panic.

(** [matrix(1 0 0 1 1 1)], a shift by (1, 1), is dropped by the job with its default options and its own rounding: the
    identity test takes a translation by (1, 1) for an identity. This is so for every printer that writes [scale(1)] no
    longer than the matrix. *)
Theorem C29_shift_refuted : exists l,
  (forall printed_length total_digits decimal_digits, (printed_length [Scale 1 1] <= printed_length l)%nat ->
   convert printed_length round_transform total_digits decimal_digits default_options l = Some []) /\ ~ same [] l.
Proof. exists [Matrix shift]. split; [exact convert_shift|exact shift_moves]. Qed.
Print Assumptions C29_shift_refuted.

(** Both decompositions of a matrix move every point as the matrix does. *)
Theorem C30_decompositions : forall m d, In d (get_compositions m) -> same d [Matrix m].
Proof.
Proof. exact compositions_ok. Qed.
Print Assumptions C30_decompositions.
(** There are two of them for every matrix that can be inverted. *)
Theorem C30_exist : forall m, ma m * md m - mb m * mc m <> 0 -> List.length (get_compositions m) = 2%nat.
Proof. exact compositions_exist. Qed.
Print Assumptions C30_exist.

(** Rounding an argument to a precision of 1 to 19 places moves it by less than one unit of the last place. *)
Theorem C58_argument_partial : forall p x, (1 <= p < 20)%Z -> Rabs (round_arg p x - x) < / 10 ^ Z.to_nat p.
Proof. exact round_arg_pow. Qed.
Print Assumptions C58_argument_partial.
(** Whole numbers are kept at every precision. *)
Theorem C58_whole : forall p z, round_arg p (IZR z) = IZR z.
Proof. exact round_arg_int. Qed.
Print Assumptions C58_whole.
(** A precision of twenty or more places rounds to whole numbers. *)
Theorem C58_places_refuted : exists p x, (20 <= p)%Z /\ ~ Rabs (round_arg p x - x) < / 10 ^ Z.to_nat p.
Proof. exact too_many_places. Qed.
Print Assumptions C58_places_refuted.
(** [matrix(1 1 -1 1 0 0)], a rotation by 45 degrees with scaling by the square root of two, becomes [rotate(45)] under the
    default options (five places for matrix entries): since the entries are whole numbers the decomposition's scale is
    rounded to no places at all. The top left entry changes by more than a fifth. *)
Theorem C58_scale_refuted : exists l m r,
  l = [Matrix m] /\ same [Rotate 45 0 0] [Matrix r] /\ 2 / 10 < Rabs (ma r - ma m) /\
  forall printed_length total_digits decimal_digits, (printed_length [Rotate 45 0 0] <= printed_length l)%nat ->
  (forall z, In z [0; 1; -1]%Z -> total_digits (IZR z) = 1%Z /\ decimal_digits (IZR z) = 0%Z) ->
  convert printed_length round_transform total_digits decimal_digits default_options l = Some [Rotate 45 0 0].
Proof. exact scale_lost. Qed.
Print Assumptions C58_scale_refuted.

Example C29_example :
  let l := [Matrix (Mat 2 0 0 2 3 4); Rotate 90 0 0] in let o := Options true None 3 5 true true true false in
  (forall m, In (Matrix m) (collapse o l) -> ~ (me m = 1 /\ mf m = 1)) /\
  In [Translate 3 4; Scale 2 2] (get_compositions (Mat 2 0 0 2 3 4)) /\ ~ same l [].
Proof. exact transform_example. Qed.
Example C30_example : In [Rotate 45 0 0; Scale (sqrt 2) (sqrt 2)] (get_compositions (Mat 1 1 (-1) 1 0 0)).
Proof. exact spiral_example. Qed.
Example C58_example : round_arg 1 (26 / 100) = 3 / 10.
Proof. exact round_example. Qed.
