(** Model of the order of painting (crates/oxvg_collections/src/attribute/presentation.rs:1265-1348).

    Simplification: the error for an invalid range (presentation.rs:1325-1327) is another one here; only that it is an error matters. *)
From Coq Require Import String List NArith ZArith Bool Arith.
From Verif Require Import Chars ParseModel OnsetModel KeywordTable KeywordModel.
Import ListNotations.
Open Scope parse_scope.

(** [PaintOrder::normal] (presentation.rs:1284-1286); the steps are variants of [Paint] (presentation.rs:1265-1275). *)
Definition normal : list string := ["Fill"; "Stroke"; "Markers"]%string.
(** [PaintOrder::is_normal] (presentation.rs:1288-1293). *)
Definition is_normal (ps : list string) : bool :=
  let is (i : nat) (p : string) := match nth_error ps i with None => true | Some q => String.eqb q p end in
  is 0 "Fill"%string && is 1 "Stroke"%string && is 2 "Markers"%string.
(** The loop over at most three words (presentation.rs:1306-1313). *)
Fixpoint words (n : nat) (ps : list string) : parser -> out (list string) :=
  match n with
  | O => ret ps
  | S n =>
      (o <- ok (try_parse (parse_enum (table "Paint"))) ;;
       match o with
       | Some p => skip_whitespace ;;; words n (ps ++ [p])
       | None => ret ps
       end)
  end.
(** The steps that are missing are added (presentation.rs:1320-1324). *)
Definition complete (ps : list string) : list string :=
  fold_left (fun ps p => if existsb (String.eqb p) ps then ps else ps ++ [p]) normal ps.
(** [PaintOrder::parse] (presentation.rs:1296-1331). *)
Definition parse_order : parser -> out (list string) :=
  (o <- ok (try_parse (expect_ident_matching (lit "normal"))) ;;
   match o with
   | Some _ => ret normal
   | None =>
       ps <- words 3 [] ;;
       match ps with
       | [] => fail ExpectedIdent
       | _ => let ps := complete ps in if 3 <? length ps then fail InvalidNumber else ret ps
       end
   end).
(** [PaintOrder::write_value] (presentation.rs:1333-1348); [None] is the panic of the assertion. *)
Definition print_order (ps : list string) : option text :=
  match ps with
  | [a; b; c] =>
      if is_normal ps then Some (lit "normal")
      else match print_enum (table "Paint") a, print_enum (table "Paint") b, print_enum (table "Paint") c with
           | Some a, Some b, Some c => Some (a ++ [32%N] ++ b ++ [32%N] ++ c)
           | _, _, _ => None
           end
  | _ => None
  end.
