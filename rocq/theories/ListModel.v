(** Model of separated lists (crates/oxvg_collections/src/attribute/list_of.rs). *)
From Coq Require Import String List NArith Bool Arith.
From Verif Require Import Chars ParseModel.
Import ListNotations.
Open Scope parse_scope.

(** [Separators] (list_of.rs:24-33), standing for the four separator types. *)
Inductive separator := Space | Comma | SpaceOrComma | Semicolon.

(** [Separator::matches] (list_of.rs:72-74, 96-98, 128-130, 152-154). *)
Definition sep_matches (s : separator) (c : N) : bool :=
  match s with
  | Space => is_whitespace c
  | Comma => N.eqb c 44
  | SpaceOrComma => is_whitespace c || N.eqb c 44
  | Semicolon => N.eqb c 59
  end.
(** [ToValue] of each separator (list_of.rs:82, 106, 138, 162). *)
Definition sep_char (s : separator) : N :=
  match s with Space => 32 | Comma => 44 | SpaceOrComma => 32 | Semicolon => 59 end.
(** [Separator::maybe_skip_whitespace] (list_of.rs:47, 87-89, 143-145). *)
Definition maybe_skip_whitespace (s : separator) : parser -> out unit :=
  match s with
  | Space | SpaceOrComma => ret tt
  | Comma | Semicolon => skip_whitespace
  end.
(** [Separator::parse] (list_of.rs:57-61), overridden for [SpaceOrComma] (117-127). *)
Definition default_sep_parse (s : separator) : parser -> out unit := (expect_matches (sep_matches s) ;;; ret tt).
(** [Separator::parse] (list_of.rs:57-61, 117-127). *)
Definition sep_parse (s : separator) : parser -> out unit :=
  match s with
  | SpaceOrComma => fun p =>
    match try_parse expect_whitespace p with
    | Ok _ p => (skip_whitespace ;;; skip_char 44 ;;; skip_whitespace) p
    | Fail _ p => (default_sep_parse Comma ;;; skip_whitespace) p
    | Panic => Panic
    | Loop => Loop
    end
  | _ => default_sep_parse s
  end.

(** What is left after the closure of list_of.rs:263-271: it takes characters up to and including
    the second quote. [n] is the number of quotes seen. *)
Fixpoint drop_quoted (q : N) (n : nat) (s : text) : text :=
  match s with
  | [] => []
  | c :: s' => if n <? 2 then drop_quoted q (if N.eqb c q then S n else n) s' else s
  end.
(** The closure [take_matches] (list_of.rs:262-275). *)
Definition take_item (s : separator) (quote : option N) : parser -> out text :=
  match quote with
  | Some q => (c <- cursor ;; r <- slice ;; skip_internal (blen (drop_quoted q 0 r)) ;;; slice_from c)
  | None => take_matches (fun c => negb (sep_matches s c))
  end.
(** The look-ahead for a quote (list_of.rs:276-278 and 303-305). *)
Definition quote_at : parser -> out (option N) :=
  (r <- slice ;; ret match r with c :: _ => if N.eqb c 34 || N.eqb c 39 then Some c else None | [] => None end).

Section List.
  (** The item type's [Parse::parse] and [Parse::parse_string]. *)
  Context {A : Type}.
  Variable parse : parser -> out A.
  Variable parse_str : text -> out A.
  Variable print : A -> text.

  (** The first item (list_of.rs:276-291): [None] is the early return of the empty list. *)
  Definition first_item (s : separator) : parser -> out (option A) :=
    (q <- quote_at ;;
     t <- take_item s q ;;
     fun p =>
       match parse (new t) with
       | Ok a st =>
         match is_empty st with
         | Ok true _ => Ok (Some a) p
         | Ok false _ => Fail ExpectedDone p
         | Fail e _ => Fail e p
         | Panic => Panic
         | Loop => Loop
         end
       | Fail e st =>
         match is_empty st with
         | Ok true _ => Ok None p
         | Ok false _ => Fail e p
         | Fail e _ => Fail e p
         | Panic => Panic
         | Loop => Loop
         end
       | Panic => Panic
       | Loop => Loop
       end).

  (** The rest of the loop body after a separator was read (list_of.rs:297-308): the next item, or [None]
      at the end of the input, with the cursor put back to [c]. *)
  Definition next_item (s : separator) (c : nat) : parser -> out (option A) :=
    (maybe_skip_whitespace s ;;;
     e <- is_empty ;;
     if e then (fun p => Ok None (P (p_input p) c))
     else
       q <- quote_at ;;
       t <- take_item s q ;;
       fun p =>
         match parse_str t with
         | Ok a _ => (maybe_skip_whitespace s ;;; ret (Some a)) p
         | Fail e _ => Fail e p
         | Panic => Panic
         | Loop => Loop
         end).

  (** The loop (list_of.rs:292-309). Without fuel left: [Loop]. *)
  Fixpoint more_items (fuel : nat) (s : separator) (acc : list A) (p : parser) : out (list A) :=
    match fuel with
    | O => Loop
    | S fuel =>
      let c := p_cursor p in
      match sep_parse s p with
      | Ok _ p =>
        match next_item s c p with
        | Ok (Some a) p => more_items fuel s (a :: acc) p
        | Ok None p => Ok (rev acc) p
        | Fail e p => Fail e p
        | Panic => Panic
        | Loop => Loop
        end
      | Fail _ p => Ok (rev acc) p
      | Panic => Panic
      | Loop => Loop
      end
    end.

  (** [ListOf::parse] (list_of.rs:260-314). Every turn of the loop reads at least one byte, so this much
      fuel is enough (theorem [C43_terminates]). *)
  Definition parse_list (s : separator) (p : parser) : out (list A) :=
    (o <- first_item s ;;
     match o with
     | None => ret []
     | Some a => more_items (S (blen (p_input p))) s [a]
     end) p.

  (** [ListOf::write_value] (list_of.rs:338-352). *)
  Definition print_list (s : separator) (l : list A) : text :=
    match l with
    | [] => []
    | a :: l => print a ++ flat_map (fun b => sep_char s :: print b) l
    end.
End List.

(** ** Two item types *)

(** [Atom::parse] and [Atom::parse_string] (crates/oxvg_collections/src/atom.rs:131-137), used for
    [Anything] and [Url]; printing writes the text. *)
Definition anything : parser -> out text := take_slice.
(** [Atom::parse_string] (crates/oxvg_collections/src/atom.rs:131-137). *)
Definition anything_string (s : text) : out text := Ok s (new s).
(** [NonWhitespace::parse] (crates/oxvg_collections/src/attribute/core_attrs.rs:44-55), used for
    classes, ids and references to ids; [parse_string] is the default. *)
Definition non_whitespace : parser -> out text :=
  (skip_whitespace ;;;
   s <- take_matches (fun c => negb (is_whitespace c)) ;;
   match s with [] => fail ExpectedMatch | _ => ret s end).
