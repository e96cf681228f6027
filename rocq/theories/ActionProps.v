(** C40: the recorded history; and the part of C41 about snapshots. *)
From Coq Require Import String List NArith ZArith Bool Arith.
From Verif Require Import Chars XmlModel XmlSpec ActionModel ActionSpec ActionProofs ClockModel.
Import ListNotations.

(** ** C40 *)

(** In memory, the actions dispatched are appended to the history that is reported; all of them
    except insertions. [parse (show x)] is Rust's [f32] printed and parsed. *)
Theorem C40_derived_partial (num : Type) (show : num -> text) (parse : text -> option num) s (before l : list (action num)) :
  (forall x, parse (show x) = Some x) -> derive_history parse s = Ok before -> Forall not_insert l ->
  derive_history parse (fold_left (record show) l s) = Ok (before ++ l).
Proof. exact (fun H => derived_more show parse H s before l). Qed.
Print Assumptions C40_derived_partial.

(** After an insertion the derived state is an error, whatever else happened. *)
Theorem C40_insert_fails (num : Type) (show : num -> text) (parse : text -> option num) s (l1 l2 : list (action num)) t :
  exists e, derive_history parse (fold_left (record show) (l1 ++ Insert t :: l2) s) = Err e.
Proof. exact (insert_fails show parse s t l1 l2). Qed.
Print Assumptions C40_insert_fails.

(** Through a snapshot and a new actor, the history comes back with the white space of its texts
    squeezed, if the document can be written at all (see C10) and no [xml:space] is used. *)
Theorem C40_reloaded_partial (num : Type) (show : num -> text) (parse : text -> option num)
    (l : list (action num)) sel before name attrs kids after :
  numbers_ok show parse -> Forall not_insert l -> Forall writable l -> l <> [] ->
  match sel with
  | None => True
  | Some e => node_ok e /\ Forall (fun a => fst a <> lit "xml:space") (all_attrs e) /\
              exists attrs kids, e = XElem (lit "oxvg:selection") attrs kids
  end ->
  Forall top_ok (before ++ XElem name attrs kids :: after) ->
  Forall (fun a => fst a <> lit "xml:space") (flat_map all_attrs (before ++ XElem name attrs kids :: after)) ->
  child_elements before = [] ->
  exists s r l',
    snapshot (fold_left (record show) l (mkState None sel)) before (XElem name attrs kids) after = WOk s /\
    reload s = Some (Ok r) /\ derive_history parse r = Ok l' /\ Forall2 (alike squeezed) l l'.
Proof. exact (fun N I W E S => reloaded_alike show parse N l sel before name attrs kids after I W S E). Qed.
Print Assumptions C40_reloaded_partial.

(** Texts made of words with single spaces between them are unchanged by that. *)
Theorem C40_tidy_partial ws t : Forall is_word ws -> squeezed (spaced_words ws) t -> t = spaced_words ws.
Proof. exact (squeezed_tidy ws t). Qed.
Print Assumptions C40_tidy_partial.

(** Integers stand for numbers in the examples. *)
Definition read_int (t : text) : option Z :=
  match t with
  | 45%N :: t => option_map Z.opp (option_map Z.of_N (digits_value 10 0 t))
  | t => option_map Z.of_N (digits_value 10 0 t)
  end.

Theorem C40_insert_refuted : exists e,
  derive_history read_int (fold_left (record print_int) [Select (lit "svg"); Insert (lit "g")] empty_state) = Err e.
Proof. exact (C40_insert_fails Z print_int read_int empty_state [Select (lit "svg")] [] (lit "g")). Qed.
Print Assumptions C40_insert_refuted.

(** Other white space is lost: the reloaded history is not the one that was recorded. *)
Theorem C40_whitespace_refuted : exists s r,
  snapshot (record print_int empty_state (Attr (lit "d") (lit "M0 0  L1 1"))) [] (XElem (lit "svg") [] []) [] = WOk s /\
  reload s = Some (Ok r) /\
  derive_history read_int r = Ok [Attr (lit "d") (lit "M0 0 L1 1")].
Proof.
  do 2 eexists. split; [vm_compute; reflexivity|]. split; vm_compute; reflexivity.
Qed.
Print Assumptions C40_whitespace_refuted.

Definition history : list (action Z) :=
  [Select (lit "path g"); Rotate 45%Z (Some (1, -2)%Z); Translate 3%Z None;
   Matrix 1%Z 0%Z 0%Z 1%Z 5%Z 6%Z;
   Attr (lit "fill") (lit "<&>"); Class []; Forget; PathXor; Deselect].
Example C40_example :
  Forall not_insert history /\ Forall writable history /\
  derive_history read_int (fold_left (record print_int) history empty_state) = Ok history /\
  exists s r, snapshot (fold_left (record print_int) history empty_state) [XComment (lit "c")]
      (XElem (lit "svg") [(lit "xmlns", lit "http://www.w3.org/2000/svg")] [XElem (lit "path") [] []]) [] = WOk s /\
    reload s = Some (Ok r) /\ derive_history read_int r = Ok history.
Proof.
  split; [repeat (constructor; [intros t E; discriminate E|]); constructor|].
  split; [repeat (constructor; [repeat (constructor; try reflexivity)|]); constructor|].
  split; [vm_compute; reflexivity|].
  do 2 eexists. split; [vm_compute; reflexivity|]. split; vm_compute; reflexivity.
Qed.

(** ** C41, through a snapshot *)

(** The nodes of a document in document order; the document itself has id 0, so the ids of these
    start with 1. *)
Fixpoint nodes_of (n : xnode) : list xnode :=
  n :: match n with XElem _ _ kids => flat_map nodes_of kids | _ => [] end.

(** The ids in a snapshot count the white space of the document, which the snapshot leaves out: in
    the document read from it they name other nodes. *)
Theorem C41_reloaded_refuted : exists doc sel s l,
  doc = XElem (lit "svg") [] [XText (lit " "); XElem (lit "g") [] []; XText (lit " "); XElem (lit "path") [] []] /\
  sel = XElem (lit "oxvg:selection") [(lit "oxvg:ids", lit "5")] [] /\
  nth_error (XDoctype :: nodes_of doc) 5 = Some (XElem (lit "path") [] []) /\
  snapshot (record print_int (mkState None (Some sel)) (Select (lit "path"))) [] doc [] = WOk s /\
  read s = Some l /\
  nth_error (XDoctype :: flat_map nodes_of (map load l)) 3 = Some (XElem (lit "path") [] []) /\
  match nth_error (XDoctype :: flat_map nodes_of (map load l)) 5 with
  | Some (XElem n _ _) => n = lit "oxvg:history" | _ => False end.
Proof.
  do 4 eexists. split; [reflexivity|]. split; [reflexivity|]. split; [reflexivity|].
  split; [vm_compute; reflexivity|]. split; [vm_compute; reflexivity|]. split; vm_compute; reflexivity.
Qed.
Print Assumptions C41_reloaded_refuted.
