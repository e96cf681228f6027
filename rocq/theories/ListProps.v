(** C43: separated lists print and parse back. *)
From Coq Require Import String List NArith Bool Arith.
From Verif Require Import Chars ParseModel ListModel ListSpec ListProofs.
Import ListNotations.

(** For every item type and separator: a non-empty list whose items print to plain texts that the item type reads back
    is itself read back. Missing: items whose text is empty, contains a separator, or begins with white space or a
    quote (see the refutations). *)
Theorem C43_round_trip_partial : forall (A : Type) (parse : parser -> out A) parse_str (print : A -> text) s l,
  l <> [] -> Forall (fun a => plain s (print a) /\ reads parse parse_str (print a) a) l ->
  exists q, parse_string (parse_list parse parse_str s) (print_list print s l) = Ok l q.
Proof. exact @list_round_trip. Qed.
Print Assumptions C43_round_trip_partial.

(** Printing really puts the separator between the items. *)
Theorem C43_printed : forall (A : Type) (print : A -> text) s l,
  l <> [] -> joined (sep_char s) (map print l) (print_list print s l).
Proof. exact @printed_joined. Qed.
Print Assumptions C43_printed.

(** The empty list is read back when the item type rejects the empty text. *)
Theorem C43_empty_partial : forall (A : Type) (parse : parser -> out A) parse_str s e p,
  parse (new []) = Fail e p -> p = new [] ->
  exists q, parse_string (parse_list parse parse_str s) [] = Ok [] q.
Proof. exact @empty_round_trip. Qed.
Print Assumptions C43_empty_partial.

(** Reading a list ends, on every input, if reading an item does. *)
Theorem C43_terminates : forall (A : Type) (parse : parser -> out A) parse_str,
  (forall t, parse (new t) <> Loop) -> (forall t, parse_str t <> Loop) ->
  forall s p, parse_list parse parse_str s p <> Loop.
Proof. exact @list_ends. Qed.
Print Assumptions C43_terminates.

(** Class lists: every list of class names, unless a name begins with a quote. *)
Theorem C43_classes_partial : forall l,
  Forall (fun t => t <> [] /\ Forall (fun c => is_whitespace c = false) t /\ hd_error t <> Some 34%N /\ hd_error t <> Some 39%N) l ->
  exists q, parse_string (parse_list non_whitespace (parse_string non_whitespace) Space) (print_list (fun t => t) Space l) = Ok l q.
Proof. exact class_round_trip. Qed.
Print Assumptions C43_classes_partial.

(** A class name beginning with an apostrophe swallows the classes after it: the list is not read back but rejected. *)
Theorem C43_quote_refuted : exists l e q,
  Forall (fun t => t <> [] /\ Forall (fun c => is_whitespace c = false) t) l /\
  parse_string (parse_list non_whitespace (parse_string non_whitespace) Space) (print_list (fun t => t) Space l) = Fail e q.
Proof.
  exists [lit "'a"; lit "b"], ExpectedDone, (P (lit "'a b") 4).
  split; [|vm_compute; reflexivity].
  repeat (apply Forall_cons || apply Forall_nil); (split; [discriminate|]); repeat (apply Forall_cons || apply Forall_nil); reflexivity.
Qed.
Print Assumptions C43_quote_refuted.

(** The items of [values] may be any text: the empty list is read back as one empty item, and an empty last item is lost. *)
Theorem C43_anything_refuted : exists l1 q1 l2 q2,
  parse_string (parse_list anything anything_string Semicolon) (print_list (fun t => t) Semicolon []) = Ok l1 q1 /\ l1 <> [] /\
  parse_string (parse_list anything anything_string Semicolon) (print_list (fun t => t) Semicolon [lit "a"; []]) = Fail l2 q2.
Proof.
  exists [[]], (P [] 0), ExpectedDone, (P (lit "a;") 1).
  split; [vm_compute; reflexivity|]. split; [discriminate|vm_compute; reflexivity].
Qed.
Print Assumptions C43_anything_refuted.

Example C43_example :
  let l := [lit "0"; lit "1 2"; lit "c"] in
  Forall (fun a => plain Semicolon a /\ reads anything anything_string a a) l /\
  print_list (fun t => t) Semicolon l = lit "0;1 2;c" /\
  parse_string (parse_list anything anything_string Semicolon) (lit "0;1 2;c") = Ok l (P (lit "0;1 2;c") 7).
Proof.
  split; [|split; [vm_compute; reflexivity|vm_compute; reflexivity]].
  repeat (apply Forall_cons || apply Forall_nil); (split; [|apply anything_reads]); (split; [split; [reflexivity|split; discriminate]|]);
    repeat (apply Forall_cons || apply Forall_nil); discriminate.
Qed.
