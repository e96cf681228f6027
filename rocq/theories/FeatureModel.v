(** Model of the reader and the writer of [font-variant]
    (crates/oxvg_collections/src/attribute/presentation.rs:495-889,1124-1263), on top of the value
    parser's primitives (crates/oxvg_parse/src/lib.rs).

    Simplifications: a value of one of the enumerations is the word it is written as; a flag that is set
    ([ordinal], [slashed-zero], [ruby]) is the one word it is written as, so that the fields of a
    group are a list of optional words; a loop that is left after as many rounds as it has fields is run with
    that many rounds and one more, running out being the explicit outcome [Loop]; error payloads are dropped;
    the surrounding [Inheritable] is left out. *)
From Coq Require Import String List NArith Bool Arith.
From Verif Require Import Chars ParseModel.
Import ListNotations.
Open Scope parse_scope.
Open Scope string_scope.
Open Scope list_scope.

(** The words of the fields of [FontVariantLigatures] (presentation.rs:746-781). *)
Definition ligature_words : list (list text) :=
  [[lit "common-ligatures"; lit "no-common-ligatures"];
   [lit "discretionary-ligatures"; lit "no-discretionary-ligatures"];
   [lit "historical-ligatures"; lit "no-historical-ligatures"];
   [lit "contextual"; lit "no-contextual"]].
(** The words of [FontVariantCaps] (presentation.rs:783-801). *)
Definition caps_words : list text :=
  [lit "small-caps"; lit "all-small-caps"; lit "petite-caps"; lit "all-petite-caps"; lit "unicase"; lit "titling-caps"].
(** The words of the fields of [FontVariantNumeric] (presentation.rs:1124-1150,847,855). *)
Definition numeric_words : list (list text) :=
  [[lit "lining-nums"; lit "oldstyle-nums"];
   [lit "proportional-nums"; lit "tabular-nums"];
   [lit "diagonal-fractions"; lit "stacked-fractions"];
   [lit "ordinal"];
   [lit "slashed-zero"]].
(** The words of the fields of [FontVariantEastAsian] (presentation.rs:1214-1239,1185). *)
Definition east_asian_words : list (list text) :=
  [[lit "jis78"; lit "jis83"; lit "jis90"; lit "jis04"; lit "simplified"; lit "traditional"];
   [lit "full-width"; lit "proportional-width"];
   [lit "ruby"]].
(** The words of [FontVariantPosition] (presentation.rs:1241-1251). *)
Definition position_words : list text := [lit "sub"; lit "super"].
(** The words of [FontVariantEmoji] (presentation.rs:1253-1263). *)
Definition emoji_words : list text := [lit "text"; lit "emoji"; lit "unicode"].

(** A word that is one of these: the parser of an enumeration (crates/oxvg_collections/src/attribute.rs:112-126) or
    [expect_ident_matching] (crates/oxvg_parse/src/lib.rs:249-256). *)
Definition one_of (ks : list text) : parser -> out text :=
  (i <- expect_ident ;; if existsb (text_eqb i) ks then ret i else fail ExpectedIdent).

(** One [if field.is_none() && let Ok(value) = input.try_parse(…)] of a loop: [hit] is what the round ends with,
    [miss] the rest of the round (presentation.rs:542-546,699-703,845-852). *)
Definition attempt {A B} (field : option A) (m : parser -> out A) (hit : A -> B) (miss : parser -> out (option B)) (p : parser) : out (option B) :=
  match field with
  | Some _ => miss p
  | None =>
      match try_parse m p with
      | Ok v q => Ok (Some (hit v)) q
      | Fail _ q => miss q
      | Panic => Panic
      | Loop => Loop
      end
  end.

(** One round of the loop of a group: the fields in turn (presentation.rs:699-719,830-861,1173-1191). *)
Fixpoint group_round (ks : list (list text)) (vs : list (option text)) {struct ks} : parser -> out (option (list (option text))) :=
  match ks, vs with
  | k :: ks, v :: vs =>
      attempt v (one_of k) (fun w => Some w :: vs) (r <- group_round ks vs ;; ret (option_map (cons v) r))
  | _, _ => ret None
  end.
(** The loop of a group (presentation.rs:698-720,829-862,1172-1192). *)
Fixpoint group_loop (n : nat) (ks : list (list text)) (vs : list (option text)) (p : parser) {struct n} : out (list (option text)) :=
  match n with
  | O => Loop
  | S n =>
      (r <- group_round ks vs ;; match r with Some vs => group_loop n ks vs | None => ret vs end) p
  end.
(** A group without any word: [default] (presentation.rs:681,692-697,803,822-828,1152,1167-1171). *)
Definition nothing (ks : list (list text)) : list (option text) := map (fun _ => None) ks.
(** [FontVariantLigatures::parse], [FontVariantNumeric::parse] and [FontVariantEastAsian::parse]
    (presentation.rs:690-723,820-865,1165-1195): never a failure. *)
Definition group (ks : list (list text)) : parser -> out (list (option text)) := group_loop (S (List.length ks)) ks (nothing ks).

(** The variables of the loop of [FontVariant::parse] (presentation.rs:534-539). *)
Record parts := Parts {
  ligatures : option (list (option text));
  caps : option text;
  numeric : option (list (option text));
  east_asian : option (list (option text));
  position : option text;
  emoji : option text }.
(** [FontVariant] (presentation.rs:499-519). *)
Inductive variant :=
| Normal
| NoLigatures
| Variants (ligatures : list (option text)) (caps : option text) (numeric east_asian : list (option text)) (position emoji : option text).

(** One round of the loop (presentation.rs:541-572). *)
Definition round (s : parts) : parser -> out (option parts) :=
  (skip_whitespace ;;;
   attempt (ligatures s) (group ligature_words) (fun v => Parts (Some v) (caps s) (numeric s) (east_asian s) (position s) (emoji s))
   (attempt (caps s) (one_of caps_words) (fun v => Parts (ligatures s) (Some v) (numeric s) (east_asian s) (position s) (emoji s))
   (attempt (numeric s) (group numeric_words) (fun v => Parts (ligatures s) (caps s) (Some v) (east_asian s) (position s) (emoji s))
   (attempt (east_asian s) (group east_asian_words) (fun v => Parts (ligatures s) (caps s) (numeric s) (Some v) (position s) (emoji s))
   (attempt (position s) (one_of position_words) (fun v => Parts (ligatures s) (caps s) (numeric s) (east_asian s) (Some v) (emoji s))
   (attempt (emoji s) (one_of emoji_words) (fun v => Parts (ligatures s) (caps s) (numeric s) (east_asian s) (position s) (Some v))
   (ret None))))))).
(** The loop (presentation.rs:540-573). *)
Fixpoint rounds (n : nat) (s : parts) (p : parser) {struct n} : out parts :=
  match n with
  | O => Loop
  | S n => (r <- round s ;; match r with Some s => rounds n s | None => ret s end) p
  end.
(** [Option::unwrap_or_default] of a group (presentation.rs:575,577-578). *)
Definition unwrap (ks : list (list text)) (v : option (list (option text))) : list (option text) := match v with Some v => v | None => nothing ks end.
(** The value that is built at the end (presentation.rs:574-581). *)
Definition build (s : parts) : variant :=
  Variants (unwrap ligature_words (ligatures s)) (caps s) (unwrap numeric_words (numeric s)) (unwrap east_asian_words (east_asian s)) (position s) (emoji s).
(** [FontVariant::parse] (presentation.rs:522-584). *)
Definition parse_variant (p : parser) : out variant :=
  match try_parse (i <- expect_ident ;; if text_eqb i (lit "normal") then ret Normal else if text_eqb i (lit "none") then ret NoLigatures else fail ExpectedIdent) p with
  | Ok v q => Ok v q
  | Fail _ q => (s <- rounds 7 (Parts None None None None None None) ;; ret (build s)) q
  | Panic => Panic
  | Loop => Loop
  end.
(** [FontVariant::parse_string] (crates/oxvg_parse/src/lib.rs:280-287). *)
Definition read_variant (t : text) : out variant := parse_string parse_variant t.

(** The [write_value] of a group: the words of its fields, one after the other with nothing between them
    (presentation.rs:725-744,867-889,1197-1213). *)
Definition write_group (vs : list (option text)) : text := flat_map (fun v => match v with Some w => w | None => [] end) vs.
(** Whether a group differs from its default (presentation.rs:603,614,621). *)
Definition present (vs : list (option text)) : bool := existsb (fun v => match v with Some _ => true | None => false end) vs.
(** One part of the value, after a space if something was written before (presentation.rs:603-641). *)
Definition write_part (after : bool) (part : option text) : text :=
  match part with Some w => (if after then [32%N] else []) ++ w | None => [] end.
(** [after] after a part (presentation.rs:605,612,619,626,633). *)
Definition later (after : bool) (part : option text) : bool := match part with Some _ => true | None => after end.
(** The parts of the value, in the order they are written (presentation.rs:602-642). *)
Fixpoint write_parts (after : bool) (parts : list (option text)) : text :=
  match parts with
  | [] => []
  | p :: ps => write_part after p ++ write_parts (later after p) ps
  end.
(** A group as a part (presentation.rs:603-606,614-627). *)
Definition group_part (vs : list (option text)) : option text := if present vs then Some (write_group vs) else None.
(** [FontVariant::write_value] (presentation.rs:586-645). *)
Definition write_variant (v : variant) : text :=
  match v with
  | Normal => lit "normal"
  | NoLigatures => lit "none"
  | Variants l c n e p m => write_parts false [group_part l; c; group_part n; group_part e; p; m]
  end.
