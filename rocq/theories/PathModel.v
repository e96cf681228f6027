(** Model of path data: commands (crates/oxvg_path/src/paths/svg/command.rs), the parser
    (crates/oxvg_path/src/parser.rs) and the printer (crates/oxvg_path/src/format.rs and
    command.rs:461-546).

    Simplifications: arguments are decimal numbers (the shortest decimal of the double, which is
    what the printer sees through [ryu] and what the reader turns back into the same double); the
    fixed-size argument arrays are lists; [Data::Implicit] is a flag on the command instead of a
    boxed command, so a nested [Implicit(Implicit(..))], which the parser never builds
    (parser.rs:139,141), cannot be written; [ID::None] is left out (never built by the parser). *)
From Coq Require Import String List NArith ZArith Bool Arith Lia.
From Verif Require Import Chars ParseModel.
Import ListNotations.

(** command.rs:61-107 *)
Inductive id := MoveTo | MoveBy | ClosePath | LineTo | LineBy | HorTo | HorBy | VerTo | VerBy
              | CubicTo | CubicBy | SmoothTo | SmoothBy | QuadTo | QuadBy | SmoothQuadTo | SmoothQuadBy
              | ArcTo | ArcBy.
(** Equality of ids, derived (command.rs:59). *)
Definition id_eq_dec (a b : id) : {a = b} + {a <> b}.
Proof. decide equality. Defined.
(** derived [PartialEq] (command.rs:59) *)
Definition id_eqb (a b : id) : bool := if id_eq_dec a b then true else false.

(** A command with its arguments (command.rs:14-57). *)
Record data := D { d_implicit : bool; d_id : id; d_args : list dec }.

(** [ID::next_implicit] (command.rs:388-395), after [Data::id] (command.rs:121-144). *)
Definition next_implicit (i : id) : id :=
  match i with MoveTo => LineTo | MoveBy => LineBy | i => i end.

(** What the successive [parse_number]/[parse_flag] calls of [Data::parse] read for each command
    (parser.rs:147-199): [false] for a number, [true] for an arc flag. *)
Definition slots (i : id) : list bool :=
  match i with
  | ClosePath => []
  | HorTo | HorBy | VerTo | VerBy => [false]
  | MoveTo | MoveBy | LineTo | LineBy | SmoothQuadTo | SmoothQuadBy => [false; false]
  | SmoothTo | SmoothBy | QuadTo | QuadBy => [false; false; false; false]
  | CubicTo | CubicBy => [false; false; false; false; false; false]
  | ArcTo | ArcBy => [false; false; false; true; true; false; false]
  end.

(** [char::from(&ID)] without the implicit case (command.rs:427-453). *)
Definition letter (i : id) : N :=
  match i with
  | MoveTo => 77 | MoveBy => 109 | ClosePath => 90 | LineTo => 76 | LineBy => 108
  | HorTo => 72 | HorBy => 104 | VerTo => 86 | VerBy => 118 | CubicTo => 67 | CubicBy => 99
  | SmoothTo => 83 | SmoothBy => 115 | QuadTo => 81 | QuadBy => 113
  | SmoothQuadTo => 84 | SmoothQuadBy => 116 | ArcTo => 65 | ArcBy => 97
  end%N.

(** The match of [ID::parse] (parser.rs:83-104). *)
Definition id_of_char (c : N) : option id :=
  match c with
  | 77 => Some MoveTo | 109 => Some MoveBy | 76 => Some LineTo | 108 => Some LineBy
  | 72 => Some HorTo | 104 => Some HorBy | 86 => Some VerTo | 118 => Some VerBy
  | 67 => Some CubicTo | 99 => Some CubicBy | 83 => Some SmoothTo | 115 => Some SmoothBy
  | 81 => Some QuadTo | 113 => Some QuadBy | 84 => Some SmoothQuadTo | 116 => Some SmoothQuadBy
  | 65 => Some ArcTo | 97 => Some ArcBy | 90 | 122 => Some ClosePath
  | _ => None
  end%N.

(** The separator of arguments (parser.rs:83-104 and on). *)
Definition COMMA : N := 44.

Section Parser.
  Variable finite : dec -> bool.

  (** [ID::parse] (parser.rs:80-105). *)
  Definition parse_id : parser -> out id :=
    (c <- read ;; match id_of_char c with Some i => ret i | None => fail NoCommand end).

  (** The separator after a number or flag (parser.rs:112-114 and 121-123). *)
  Definition skip_separator : parser -> out unit :=
    (skip_whitespace ;;; skip_char COMMA ;;; skip_whitespace).

  (** [parse_number] (parser.rs:108-116). *)
  Definition parse_number : parser -> out dec :=
    (f <- parse_f64 finite ;; skip_separator ;;; ret f).

  (** [parse_flag] (parser.rs:117-129). *)
  Definition parse_flag : parser -> out dec :=
    (f <- read ;; skip_separator ;;;
     if N.eqb f 48 then ret (Dec false [] 0)
     else if N.eqb f 49 then ret (Dec false [1%N] 0)
     else fail InvalidArcFlag).

  (** The argument list of a command, in order (parser.rs:147-199). *)
  Fixpoint parse_args (l : list bool) : parser -> out (list dec) :=
    match l with
    | [] => ret []
    | k :: l => (a <- (if k then parse_flag else parse_number) ;; r <- parse_args l ;; ret (a :: r))
    end.

  (** [Data::parse] (parser.rs:132-200). *)
  Definition parse_data (implicit : bool) (i : id) : parser -> out data :=
    (a <- parse_args (slots i) ;; ret (D implicit i a)).

  (** Attach [input.take_slice()] to an error (parser.rs:48-51,62,69-72): the call can panic. *)
  Definition or_remaining {A} (m : parser -> out A) (p : parser) : out A :=
    match m p with
    | Fail e q => match take_slice q with Ok _ q' => Fail e q' | Fail e' q' => Fail e' q' | Panic => Panic | Loop => Loop end
    | r => r
    end.

  (** Which command comes next, given the command before it (parser.rs:37-64). *)
  Definition next_command (allow_implicit_start : bool) (last : option data) : parser -> out (bool * id) :=
    (c <- or_remaining (fun p =>
            match try_parse parse_id p with
            | Fail _ q => match last with
                          | Some l => Ok (true, next_implicit (d_id l)) q
                          | None => if allow_implicit_start then Ok (false, MoveTo) q else Fail NoCommand q
                          end
            | Ok i q => Ok (false, i) q
            | Panic => Panic
            | Loop => Loop
            end) ;;
     match last with
     | Some l => if negb (fst c) && id_eqb (next_implicit (d_id l)) (snd c) then ret (true, snd c) else ret c
     | None => match snd c with
               | MoveBy | MoveTo => ret c
               | _ => or_remaining (fail ExpectedIdent)
               end
     end).

  (** One turn of the loop of [parse_extend] (parser.rs:32-73); [acc] is the list, last command
      first. *)
  Definition parse_one (allow_implicit_start : bool) (acc : list data) : parser -> out data :=
    (skip_whitespace ;;;
     (match acc with [] => ret tt | _ => skip_char COMMA ;;; skip_whitespace end) ;;;
     c <- next_command allow_implicit_start (hd_error acc) ;;
     or_remaining (try_parse (parse_data (fst c) (snd c)))).

  (** [Path::parse_extend] (parser.rs:24-76): the loop, with fuel. *)
  Fixpoint parse_extend (fuel : nat) (allow_implicit_start : bool) (acc : list data) : parser -> out (list data) :=
    (e <- is_empty ;;
     if e then ret (rev acc)
     else match fuel with
          | 0 => fun _ => Loop
          | S fuel => d <- parse_one allow_implicit_start acc ;; parse_extend fuel allow_implicit_start (d :: acc)
          end).

  (** [Path::parse_string] (parser.rs:10-16 under lib.rs:280-287). *)
  Definition parse_path (fuel : nat) (s : text) : out (list data) :=
    parse_string (parse_extend fuel false []) s.
End Parser.

(** ** Printing *)

(** Integer arithmetic on decimals, exactly what the comparisons of doubles below compute (command.rs:490-494). *)
Definition mant (d : dec) : Z := if neg d then - of_digits (dig d) else of_digits (dig d).
(** [mant] scaled to a common exponent (command.rs:490-494). *)
Definition scaled (e : Z) (d : dec) : Z := (mant d * 10 ^ (ex d - e))%Z.
(** [a >= b] on doubles (command.rs:490, 509). *)
Definition ge (a b : dec) : bool := let e := Z.min (ex a) (ex b) in (scaled e b <=? scaled e a)%Z.
(** [a < b] on doubles (command.rs:494). *)
Definition lt (a b : dec) : bool := let e := Z.min (ex a) (ex b) in (scaled e a <? scaled e b)%Z.
(** [a == 0.0]; true of both zeros. *)
Definition is_zero (d : dec) : bool := (mant d =? 0)%Z.
(** [a % 1.0 == 0.0]. *)
Definition is_whole (d : dec) : bool :=
  if (0 <=? ex d)%Z then true else (mant d mod 10 ^ (- ex d) =? 0)%Z.
(** command.rs:490 [1.0]. *)
Definition one : dec := Dec false [1%N] 0.
(** command.rs:491 [0.0]. *)
Definition zero : dec := Dec false [] 0.
(** command.rs:494 [1e-4]. *)
Definition tiny : dec := Dec false [1%N] (-4).

(** A digit as written by [ryu] (command.rs:485). *)
Definition digit_char (n : N) : N := (n + 48)%N.
(** Zeros as written by [ryu] (command.rs:485). *)
Definition zeros (n : nat) : text := repeat 48%N n.

(** Decimal text of a number below 1000 ([ryu]'s exponent writer), and of its sign. *)
Definition small_nat (n : nat) : text :=
  let h := n / 100 in let t := (n / 10) mod 10 in let u := n mod 10 in
  (if h =? 0 then [] else [digit_char (N.of_nat h)]) ++
  (if n <? 10 then [] else [digit_char (N.of_nat t)]) ++ [digit_char (N.of_nat u)].
(** An exponent as written by [ryu] (command.rs:485). *)
Definition exponent_text (e : Z) : text :=
  (if (e <? 0)%Z then [45%N] else []) ++ small_nat (Z.to_nat (Z.abs e)).

(** [ryu::Buffer::format] (called at command.rs:485,488,542), from the published algorithm of
    [ryu::pretty::format64]: digits [d], exponent [k], [kk] the position of the point. *)
Definition ryu (d : dec) : text :=
  (if neg d then [45%N] else []) ++
  match dig d with
  | [] => lit "0.0"
  | ds =>
    let n := Z.of_nat (List.length ds) in
    let k := ex d in
    let kk := (n + k)%Z in
    let cs := map digit_char ds in
    if (0 <=? k)%Z && (kk <=? 16)%Z then cs ++ zeros (Z.to_nat k) ++ lit ".0"
    else if (0 <? kk)%Z && (kk <=? 16)%Z then firstn (Z.to_nat kk) cs ++ [DOT] ++ skipn (Z.to_nat kk) cs
    else if (-5 <? kk)%Z && (kk <=? 0)%Z then lit "0." ++ zeros (Z.to_nat (- kk)) ++ cs
    else match cs with
         | [c] => [c] ++ lit "e" ++ exponent_text (kk - 1)
         | c :: cs => [c; DOT] ++ cs ++ lit "e" ++ exponent_text (kk - 1)
         | [] => []
         end
  end.

(** [str::strip_suffix] with a character (command.rs:519,524). *)
Definition strip_suffix (c : N) (s : text) : text :=
  match rev s with
  | x :: r => if N.eqb x c then rev r else s
  | [] => s
  end.

(** [short_number_from_buffer] (command.rs:513-534). *)
Definition short_number (raw : text) : text :=
  let raw := if contains [DOT] raw then strip_suffix 48%N raw else raw in
  if text_eqb raw (lit "0.") || text_eqb raw (lit "-0.") then lit "0"
  else
    let raw := strip_suffix DOT raw in
    if starts_with (lit "0.") raw then tl raw
    else if starts_with (lit "-0.") raw then 45%N :: tl (tl raw)
    else raw.

(** Whether [Args::fmt] writes a space before [current] (command.rs:490-495). *)
Definition space_between (previous current : dec) : bool :=
  ge current one || is_zero current || is_zero previous && ge current zero ||
  is_whole previous && starts_with (lit "0.") (ryu current) ||
  negb (ge zero current) && lt current tiny.

(** The arguments after the first (command.rs:482-500). *)
Fixpoint format_rest (previous : dec) (l : list dec) : text :=
  match l with
  | [] => []
  | c :: l => (if space_between previous c then [32%N] else []) ++ short_number (ryu c) ++ format_rest c l
  end.
(** [Args::fmt] (command.rs:478-502). *)
Definition format_args (l : list dec) : text :=
  match l with
  | [] => []
  | c :: l => short_number (ryu c) ++ format_rest c l
  end.

(** [Args::is_space_needed] (command.rs:508-510). *)
Definition is_space_needed (args prev : list dec) : bool :=
  is_whole (last prev zero) || ge (hd zero args) one || is_zero (hd zero args).

(** [char::from(ID)] (command.rs:427-453): a space for an implicit command. *)
Definition id_char (d : data) : N := if d_implicit d then 32%N else letter (d_id d).

(** [Display for Data] (command.rs:293-302, 461-469). *)
Definition format_single (d : data) : text :=
  (if d_implicit d then [] else [letter (d_id d)]) ++ format_args (d_args d).

(** What the loop of [format] writes for a command after the first (format.rs:27-44); a command
    has arguments exactly when its list is not empty (command.rs:147-171). *)
Definition format_next (prev_args : list dec) (d : data) : text :=
  match d_args d with
  | [] => [id_char d]
  | args =>
    (match prev_args with
     | [] => [id_char d]
     | _ => if d_implicit d
            then if is_space_needed args prev_args && ge (hd zero args) zero then [32%N] else []
            else [id_char d]
     end) ++ format_args args
  end.
(** The commands after the first (format.rs:27-44). *)
Fixpoint format_tail (prev_args : list dec) (l : list data) : text :=
  match l with
  | [] => []
  | d :: l => format_next prev_args d ++ format_tail (d_args d) l
  end.
(** [format] (format.rs:4-47). *)
Definition format_path (l : list data) : text :=
  match l with
  | [] => []
  | [d] => format_single d
  | d :: l => [id_char d] ++ format_args (d_args d) ++ format_tail (d_args d) l
  end.
