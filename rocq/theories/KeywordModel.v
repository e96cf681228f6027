(** Model of the readers and printers of keywords and of values made of keywords and numbers
    (crates/oxvg_collections/src/attribute.rs:93-143, attribute/uncategorised.rs, attribute/filter_effect.rs, attribute/core_attrs.rs and
    attribute/animation.rs). *)
From Coq Require Import String List NArith ZArith Bool Arith.
From Verif Require Import Chars ParseModel ClockModel OnsetModel KeywordTable.
Import ListNotations.
Open Scope parse_scope.

(** The parser of an enumerated attribute (attribute.rs:112-127): the first keyword that is equal. *)
Definition parse_enum (vs : list (string * string)) : parser -> out string :=
  (i <- expect_ident ;;
   match find (fun v => text_eqb i (lit (snd v))) vs with Some v => ret (fst v) | None => fail ExpectedIdent end).
(** Its printer (attribute.rs:129-142); [None] is never met, as the variants are those of the type. *)
Definition print_enum (vs : list (string * string)) (v : string) : option text :=
  option_map (fun p => lit (snd p)) (find (fun p => String.eqb (fst p) v) vs).
(** The variants of a type (attribute.rs:103-109). *)
Definition table (n : string) : list (string * string) :=
  match find (fun e => String.eqb (fst e) n) enums with Some e => snd e | None => [] end.

(** [TrueFalse::parse] (uncategorised.rs:1072-1086). *)
Definition parse_true_false : parser -> out bool :=
  (i <- expect_ident ;;
   if text_eqb i (lit "true") then ret true else if text_eqb i (lit "false") then ret false else fail ExpectedIdent).
(** [TrueFalse::write_value] (uncategorised.rs:1088-1099). *)
Definition print_true_false (b : bool) : text := if b then lit "true" else lit "false".
(** [TrueFalseUndefined::parse] (uncategorised.rs:1121-1142). *)
Definition parse_true_false_undefined : parser -> out (option bool) :=
  or_else (expect_ident_matching (lit "undefined") ;;; ret None) (b <- parse_true_false ;; ret (Some b)).
(** [TrueFalseUndefined::write_value] (uncategorised.rs:1144-1154). *)
Definition print_true_false_undefined (b : option bool) : text :=
  match b with Some b => print_true_false b | None => lit "undefined" end.

(** [PreserveAspectRatio] (uncategorised.rs:81-86): alignment, and meet or slice, as variants of their types. *)
Definition aspect : Type := string * string.
(** [PreserveAspectRatio::parse] (uncategorised.rs:88-104); the default is [Meet] (uncategorised.rs:242-268). *)
Definition parse_aspect : parser -> out aspect :=
  (a <- parse_enum (table "PreserveAspectRatioAlign") ;;
   skip_whitespace ;;;
   m <- ok (try_parse (parse_enum (table "PreserveAspectRatioMeetOrSlice"))) ;;
   let m := match m with Some m => m | None => "Meet"%string end in
   ret (a, if String.eqb a "None" then "Meet"%string else m)).
(** [PreserveAspectRatio::write_value] (uncategorised.rs:106-118). *)
Definition print_aspect (x : aspect) : option text :=
  match print_enum (table "PreserveAspectRatioAlign") (fst x), print_enum (table "PreserveAspectRatioMeetOrSlice") (snd x) with
  | Some a, Some m => Some (a ++ if String.eqb (snd x) "Meet" then [] else 32%N :: m)
  | _, _ => None
  end.

(** [In] (filter_effect.rs:151-166): one of the keywords by its variant, or a reference. *)
Inductive input := Source (v : string) | Reference (t : text).
(** The keywords (filter_effect.rs:173-178, 194-199). *)
Definition sources : list (string * string) :=
  [("SourceGraphic", "SourceGraphic"); ("SourceAlpha", "SourceAlpha"); ("BackgroundImage", "BackgroundImage"); ("BackgroundAlpha", "BackgroundAlpha");
   ("FillPaint", "FillPaint"); ("StrokePaint", "StrokePaint")]%string.
(** [In::parse] (filter_effect.rs:168-187): the end is expected at once. *)
Definition parse_in : parser -> out input :=
  (r <- or_else (v <- parse_enum sources ;; ret (Source v)) (i <- expect_ident ;; ret (Reference i)) ;;
   expect_done ;;; ret r).
(** [In::write_value] (filter_effect.rs:189-204). *)
Definition print_in (i : input) : option text :=
  match i with Source v => print_enum sources v | Reference t => Some t end.

(** [Target] (uncategorised.rs:957-972). *)
Inductive target := Frame (v : string) | XMLName (t : text).
(** The keywords (uncategorised.rs:981-984, 996-1002). *)
Definition frames : list (string * string) := [("_Self", "_self"); ("_Parent", "_parent"); ("_Top", "_top"); ("_Blank", "_blank")]%string.
(** [Target::parse] (uncategorised.rs:974-990). *)
Definition parse_target : parser -> out target :=
  or_else (v <- parse_enum frames ;; ret (Frame v)) (t <- take_slice ;; ret (XMLName t)).
(** [Target::write_value] (uncategorised.rs:992-1004). *)
Definition print_target (x : target) : option text := match x with Frame v => print_enum frames v | XMLName t => Some t end.

(** [ColorProfileName] (uncategorised.rs:609-615). *)
Inductive profile := Srgb | ProfileName (t : text).
(** [str::to_lowercase] (uncategorised.rs:621) as far as it matters: no character outside ASCII becomes one of [s], [r], [g] and [b]. *)
Definition lower (c : N) : N := if ((65 <=? c) && (c <=? 90))%N then (c + 32)%N else c.
(** [ColorProfileName::parse] (uncategorised.rs:617-630). *)
Definition parse_profile : parser -> out profile :=
  or_else (i <- expect_ident ;; if text_eqb (map lower i) (lit "srgb") then ret Srgb else fail ExpectedIdent)
          (t <- take_slice ;; ret (ProfileName t)).
(** [ColorProfileName::write_value] (uncategorised.rs:632-642). *)
Definition print_profile (x : profile) : text := match x with Srgb => lit "sRGB" | ProfileName t => t end.

(** [Boolean::parse] and [Boolean::write_value] (core_attrs.rs:111-134). *)
Definition parse_boolean : parser -> out (option text) := (skip_whitespace ;;; ok (try_parse expect_ident)).
(** core_attrs.rs:125-134: always empty. *)
Definition print_boolean (b : option text) : text := [].

Section Numbers.
  (** As in ClockModel (crates/oxvg_parse/src/types/number.rs:42-46). *)
  Variable finite : dec -> bool.
  Variable f32 : dec -> dec.
  Variable print : dec -> text.
  Let num := parse_f32 finite f32.

  (** Between two numbers (uncategorised.rs:1219-1221; animation.rs:336-338). *)
  Definition skip_comma : parser -> out unit := (skip_whitespace ;;; skip_char 44 ;;; skip_whitespace).
  (** [ControlPoint::parse] (animation.rs:333-350). *)
  Definition parse_four : parser -> out (dec * dec * dec * dec) :=
    (skip_whitespace ;;; a <- num ;; skip_comma ;;; b <- num ;; skip_comma ;;; c <- num ;; skip_comma ;;; d <- num ;; ret (a, b, c, d)).
  (** [ViewBox::parse] (uncategorised.rs:1214-1239). *)
  Definition parse_view_box : parser -> out (dec * dec * dec * dec) := (r <- parse_four ;; skip_whitespace ;;; ret r).
  (** [ViewBox::write_value], [ControlPoint::write_value] (uncategorised.rs:1240-1254; animation.rs:353-367). *)
  Definition print_four (v : dec * dec * dec * dec) : text :=
    let '(a, b, c, d) := v in print a ++ 32%N :: print b ++ 32%N :: print c ++ 32%N :: print d.

  (** [NumberOptionalNumber::parse] (core_attrs.rs:290-315). *)
  Definition parse_pair : parser -> out (dec * option dec) :=
    (a <- num ;;
     before <- cursor ;;
     skip_whitespace ;;;
     comma <- ok (try_parse (expect_char 44)) ;;
     skip_whitespace ;;;
     match comma with
     | Some _ => b <- num ;; ret (a, Some b)
     | None =>
       after <- cursor ;;
       b <- ok (try_parse num) ;;
       match b with
       | Some b => if before =? after then fail ExpectedMatch else ret (a, Some b)
       | None => ret (a, None)
       end
     end).
  (** [NumberOptionalNumber::write_value] (core_attrs.rs:318-330). *)
  Definition print_pair (v : dec * option dec) : text :=
    print (fst v) ++ match snd v with Some b => 32%N :: print b | None => [] end.

  (** [Rotate] (uncategorised.rs:893-900). *)
  Inductive rotate := Angle (d : dec) | Auto | AutoReverse.
  (** [Rotate::parse] (uncategorised.rs:902-918). *)
  Definition parse_rotate : parser -> out rotate :=
    or_else (i <- expect_ident ;;
             if text_eqb i (lit "auto") then ret Auto else if text_eqb i (lit "auto-reverse") then ret AutoReverse else fail ExpectedIdent)
            (skip_whitespace ;;; d <- num ;; ret (Angle d)).
  (** [Rotate::write_value] (uncategorised.rs:920-931). *)
  Definition print_rotate (r : rotate) : text :=
    match r with Auto => lit "auto" | AutoReverse => lit "auto-reverse" | Angle d => print d end.
End Numbers.
