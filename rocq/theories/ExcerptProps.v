From Coq Require Import String List NArith Bool Arith.
From Verif Require Import Chars ExcerptModel ExcerptSpec ExcerptProofs.
Import ListNotations.

(** C106: for a range with a length the excerpt shows the line in which it starts, under its number, with the lines around it and the right column. *)
Theorem C106_shows : forall source s e, s <= List.length source -> s <> e -> exists x, display_context source s e = Some x /\ shows source s x /\ x_indent x = x_column x /\ x_marks x = e - s.
Proof. exact display_shows. Qed.
Print Assumptions C106_shows.

(** C106: a range within a line of ASCII is marked exactly. *)
Theorem C106_marks_partial : forall source s e x, s < e <= List.length source -> display_context source s e = Some x -> ~ In 10%N (firstn (e - s) (skipn s source)) -> (forall n l, In (n, l) (x_lines x) -> ascii l) -> marks source s e x.
Proof. exact display_marks. Qed.
Print Assumptions C106_marks_partial.

Definition two_lines : list N := lit "<svg>
 <rect foo='é'/>
</svg>".
Example C106_sample : display_context two_lines 13 16 = Some (mkExcerpt 2 7 (Some (1, lit "<svg>")) [(2, lit " <rect foo='é'/>")] 7 3 (Some (3, lit "</svg>"))).
Proof. vm_compute. reflexivity. Qed.

(** C106: an error at the start of an element marks the name of the element. *)
Theorem C106_element_partial : forall before name rest, name <> [] -> Forall name_byte name -> ends_name rest ->
  let source := before ++ 60%N :: name ++ rest in let s := List.length before in
  display_context source s s = excerpt_of source (s + 1) (s + 1 + List.length name).
Proof. exact element_named. Qed.
Print Assumptions C106_element_partial.
Example C106_element_sample : Forall name_byte (lit "rect") /\ ends_name (lit " foo='1'/>") /\ display_context (lit "<svg><rect foo='1'/></svg>") 5 5 = Some (mkExcerpt 1 6 None [(1, lit "<svg><rect foo='1'/></svg>")] 6 4 None).
Proof. split; [repeat constructor; discriminate|]. split; [left; reflexivity|vm_compute; reflexivity]. Qed.

(** C106: it panics exactly for a range without a length after which there is only white space or [<]. *)
Theorem C106_panics : forall source s e, s <= List.length source -> (display_context source s e = None <-> s = e /\ exists before c r, source = before ++ c :: r /\ List.length before = s /\ Forall (fun c => ascii_white c = true \/ c = 60%N) r).
Proof. exact panic_exact. Qed.
Print Assumptions C106_panics.

(** C106: the result counts the errors and warnings, and is a success if there are none. *)
Theorem C106_result : forall l, match lint_result l with
  | Some (e, w) => List.length (filter (fun s => match s with Err => true | _ => false end) l) = e /\ List.length (filter (fun s => match s with Warn => true | _ => false end) l) = w /\ (e <> 0 \/ w <> 0)
  | None => Forall (fun s => s = Off) l end.
Proof. exact result_exact. Qed.
Print Assumptions C106_result.
Example C106_result_sample : lint_result [Warn; Err; Warn] = Some (1, 2) /\ lint_result [] = None.
Proof. split; reflexivity. Qed.

(** C106: a range at the last byte panics. *)
Theorem C106_panic_refuted : exists source s, s < List.length source /\ display_context source s s = None.
Proof. exists (lit "<svg/>"), 5. split; [apply Nat.ltb_lt; reflexivity|reflexivity]. Qed.
Print Assumptions C106_panic_refuted.

(** C106: an empty value ([width=""], an invalid attribute, has a range without a length) is reported on the line of the next attribute. *)
Theorem C106_empty_value_refuted : exists source s x, firstn 2 (skipn (s - 1) source) = lit """""" /\ ~ In 10%N (firstn s source) /\ display_context source s s = Some x /\ x_number x = 2.
Proof.
  exists (lit "<svg width=""""
 height='1'/>"), 12. eexists. split; [reflexivity|]. split; [vm_compute; intros H; repeat (destruct H as [H|H]; [discriminate|]); exact H|]. split; vm_compute; reflexivity.
Qed.
Print Assumptions C106_empty_value_refuted.

(** C106: of [<foo/>] the slash is marked as well. *)
Theorem C106_empty_tag_refuted : exists before name rest, name <> [] /\ Forall name_byte name /\ rest = lit "/>" /\
  let source := before ++ 60%N :: name ++ rest in let s := List.length before in
  option_map x_marks (display_context source s s) = Some (List.length name + 1).
Proof. exists [], (lit "foo"), (lit "/>"). split; [discriminate|]. split; [repeat constructor; discriminate|]. split; reflexivity. Qed.
Print Assumptions C106_empty_tag_refuted.

(** C106: after characters that are not ASCII the mark is too far right. *)
Theorem C106_not_ascii_refuted : exists source s e x, s < e <= List.length source /\ ~ In 10%N source /\ display_context source s e = Some x /\ ~ marks source s e x.
Proof. exact wide_chars. Qed.
Print Assumptions C106_not_ascii_refuted.

(** C106: of a range over several lines only the first line is shown, with a mark as long as the whole. *)
Theorem C106_many_lines_refuted : exists source s e x, s < e <= List.length source /\ ascii source /\ display_context source s e = Some x /\ ~ marks source s e x.
Proof. exact many_lines. Qed.
Print Assumptions C106_many_lines_refuted.
