(** Text as lists of Unicode code points, shared by the models of the text-processing code.
    Simplification (everywhere): Rust strings are UTF-8 byte sequences; the code modelled here
    looks only at ASCII bytes or whole [char]s, so a string is its list of code points. *)
From Coq Require Import String Ascii List NArith Bool Lia.
Import ListNotations.

(** A Unicode scalar value, Rust [char] (crates/oxvg_parse/src/lib.rs:258-262). *)
Definition chr : Type := N.
(** Rust [str] (crates/oxvg_parse/src/lib.rs:9-20). *)
Definition text : Type := list N.

(** A string literal (as in crates/oxvg_optimiser/src/jobs/mod.rs:224). *)
Definition lit (s : string) : text := map N_of_ascii (list_ascii_of_string s).

(** [str::eq] (Rust [core] library; used for instance at crates/oxvg_optimiser/src/jobs/mod.rs:224). *)
Fixpoint text_eqb (a b : text) : bool :=
  match a, b with
  | [], [] => true
  | x :: a, y :: b => N.eqb x y && text_eqb a b
  | _, _ => false
  end.

Lemma text_eqb_spec a b : text_eqb a b = true <-> a = b.
Proof.
  revert b; induction a as [|x a IH]; intros [|y b]; simpl; split; try congruence; auto.
  - rewrite andb_true_iff, N.eqb_eq, IH. intros [-> ->]; reflexivity.
  - intros E; inversion E; subst. rewrite N.eqb_refl. simpl. apply IH. reflexivity.
Qed.

Lemma text_eqb_refl a : text_eqb a a = true.
Proof. apply text_eqb_spec. reflexivity. Qed.

Lemma text_eqb_neq a b : text_eqb a b = false <-> a <> b.
Proof.
  split.
  - intros E ->. rewrite text_eqb_refl in E. discriminate.
  - intros H. destruct (text_eqb a b) eqn:E; auto. apply text_eqb_spec in E. contradiction.
Qed.

Lemma text_eq_dec (a b : text) : {a = b} + {a <> b}.
Proof. destruct (text_eqb a b) eqn:E; [left; now apply text_eqb_spec|right; now apply text_eqb_neq]. Qed.

(** [str::starts_with], returning the rest ([str::strip_prefix]) (used for instance at crates/oxvg_path/src/paths/svg/command.rs:526). *)
Fixpoint strip_prefix (p s : text) : option text :=
  match p, s with
  | [], _ => Some s
  | x :: p, y :: s => if N.eqb x y then strip_prefix p s else None
  | _, [] => None
  end.
(** [str::starts_with] (Rust [core] library; used for instance at crates/oxvg_path/src/paths/svg/command.rs:526). *)
Definition starts_with (p s : text) : bool := match strip_prefix p s with Some _ => true | None => false end.

Lemma strip_prefix_spec p s r : strip_prefix p s = Some r <-> s = p ++ r.
Proof.
  revert s; induction p as [|x p IH]; intros s; simpl.
  - split; [intros E; inversion E; auto|intros ->; auto].
  - destruct s as [|y s]; [split; discriminate|]. destruct (N.eqb_spec x y) as [->|D].
    + rewrite IH. split; [intros ->; auto|intros E; inversion E; auto].
    + split; [discriminate|intros E; inversion E; congruence].
Qed.

(** [str::contains] for a string pattern (used for instance at crates/oxvg_path/src/paths/svg/command.rs:518). *)
Fixpoint contains (p s : text) : bool :=
  starts_with p s || match s with [] => false | _ :: s => contains p s end.

Lemma contains_spec p s : contains p s = true <-> exists a b, s = a ++ p ++ b.
Proof.
  induction s as [|y s IH]; simpl.
  - rewrite orb_false_r. unfold starts_with. destruct (strip_prefix p []) eqn:E.
    + apply strip_prefix_spec in E. split; auto. intros _. exists [], t. exact E.
    + split; [discriminate|]. intros (a & b & H). destruct a; [|discriminate].
      simpl in H. apply strip_prefix_spec in H. congruence.
  - rewrite orb_true_iff, IH. unfold starts_with. split.
    + intros [H|(a & b & ->)].
      * destruct (strip_prefix p (y :: s)) eqn:E; [|discriminate].
        apply strip_prefix_spec in E. exists [], t. exact E.
      * exists (y :: a), b. reflexivity.
    + intros ([|z a] & b & H); simpl in H.
      * left. assert (strip_prefix p (y :: s) = Some b) as -> by now apply strip_prefix_spec. reflexivity.
      * inversion H; subst. right. exists a, b. reflexivity.
Qed.

(** [char::is_whitespace] (Unicode White_Space) (used for instance at crates/oxvg_ast/src/node.rs:452 by [str::trim]). *)
Definition is_whitespace (c : N) : bool :=
  ((9 <=? c) && (c <=? 13) || (c =? 32) || (c =? 133) || (c =? 160) || (c =? 5760) ||
   (8192 <=? c) && (c <=? 8202) || (c =? 8232) || (c =? 8233) || (c =? 8239) || (c =? 8287) ||
   (c =? 12288))%N.

(** [str::split_whitespace] (used for instance at crates/oxvg_optimiser/src/jobs/cleanup_attrs.rs:68). *)
Fixpoint words_from (cur : text) (s : text) : list text :=
  match s with
  | [] => match cur with [] => [] | _ => [rev cur] end
  | c :: s => if is_whitespace c
              then match cur with [] => words_from [] s | _ => rev cur :: words_from [] s end
              else words_from (c :: cur) s
  end.
(** [str::split_whitespace], from its start (Rust [core] library; used for instance at crates/oxvg_optimiser/src/jobs/cleanup_attrs.rs:68). *)
Definition split_whitespace (s : text) : list text := words_from [] s.

(** [char::is_ascii_digit] (Rust [core] library; used for instance at crates/oxvg_parse/src/types/number.rs:10). *)
Definition is_ascii_digit (c : N) : bool := ((48 <=? c) && (c <=? 57))%N.
