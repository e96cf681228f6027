(** C109: the keywords of attributes, and values made of keywords and numbers. *)
From Coq Require Import String List NArith ZArith Bool Arith.
From Verif Require Import Chars ParseModel ParseSpec OnsetSpec KeywordTable KeywordModel KeywordSpec KeywordProofs KeywordProofs2 KeywordProofs3.
Import ListNotations.

(** Every keyword is read, with white space around it, and printed as it was. *)
Theorem C109_keywords_partial : forall n ks k t, In (n, ks) keywords_of -> In k ks -> padded (lit k) t ->
  exists v q, parse_string (parse_enum (table n)) t = Ok v q /\ print_enum (table n) v = Some (lit k).
Proof. exact keywords_read. Qed.
Print Assumptions C109_keywords_partial.
(** And nothing else. *)
Theorem C109_only : forall n ks t v q, In (n, ks) keywords_of -> parse_string (parse_enum (table n)) t = Ok v q ->
  exists k, In k ks /\ padded_any (lit k) t.
Proof. exact keywords_only. Qed.
Print Assumptions C109_only.
(** What is printed is read back, for every variant of every type but one. *)
Theorem C109_round_trip_partial : forall n vs v k t, In (n, vs) enums -> In (v, k) vs -> v <> "AdditionsText"%string -> padded (lit k) t ->
  print_enum vs v = Some (lit k) /\ exists q, parse_string (parse_enum vs) t = Ok v q.
Proof. exact (fun n vs v k t I J NE P => conj (enum_print vs v k (enum_good n vs I) J) (read_enum n vs v k t I J NE P)). Qed.
Print Assumptions C109_round_trip_partial.
Example C109_keywords_example : In ("SpreadMethod"%string, ["pad"; "reflect"; "repeat"]%string) keywords_of /\
  (exists q, parse_string (parse_enum (table "SpreadMethod")) (lit " reflect ") = Ok "Reflect"%string q) /\
  match parse_string (parse_enum (table "SpreadMethod")) (lit "Reflect") with Fail _ _ => True | _ => False end.
Proof. split; [vm_compute; tauto|]. split; [eexists; vm_compute; reflexivity|vm_compute; exact I]. Qed.

(** Truth values. *)
Theorem C109_true_false : forall b t, padded (print_true_false b) t -> exists q, parse_string parse_true_false t = Ok b q.
Proof. exact read_true_false. Qed.
Print Assumptions C109_true_false.
Theorem C109_true_false_undefined : forall b t, padded (print_true_false_undefined b) t -> exists q, parse_string parse_true_false_undefined t = Ok b q.
Proof. exact read_true_false_undefined. Qed.
Print Assumptions C109_true_false_undefined.

(** The aspect ratio is read as it is meant, and what is printed is one of its texts. *)
Theorem C109_aspect_partial : forall align meet s t, aspect_text align meet s -> padded s t -> exists q, parse_string parse_aspect t = Ok (align, meet) q.
Proof. exact read_aspect. Qed.
Print Assumptions C109_aspect_partial.
Theorem C109_aspect_print_partial : forall align meet, In align (map fst (table "PreserveAspectRatioAlign")) -> In meet (map fst (table "PreserveAspectRatioMeetOrSlice")) ->
  (align = "None"%string -> meet = "Meet"%string) -> exists t, print_aspect (align, meet) = Some t /\ aspect_text align meet t.
Proof. exact print_aspect_text. Qed.
Print Assumptions C109_aspect_print_partial.
Example C109_aspect_example : aspect_text "XMidYMid" "Slice" (lit "xMidYMid  slice") /\
  (exists q, parse_string parse_aspect (lit " xMidYMid  slice ") = Ok ("XMidYMid", "Slice")%string q) /\ print_aspect ("XMidYMid", "Slice")%string = Some (lit "xMidYMid slice").
Proof.
  split; [|split; [eexists; vm_compute; reflexivity|vm_compute; reflexivity]]. exists "xMidYMid"%string. split; [vm_compute; tauto|]. right. exists "slice"%string, [32; 32]%N, "Slice"%string.
  split; [vm_compute; tauto|]. split; [repeat constructor|]. split; [discriminate|]. split; reflexivity.
Qed.

(** Inputs of filters, without white space after them. *)
Theorem C109_in_partial : forall i t v, spaces v -> print_in i = Some t ->
  match i with Source x => True | Reference r => keyword r /\ ~ In r (map (fun p => lit (snd p)) sources) end -> exists q, parse_string parse_in (v ++ t) = Ok i q.
Proof. exact read_in. Qed.
Print Assumptions C109_in_partial.
(** The inputs that SVG names are read as such, and printed as they were. *)
Theorem C109_sources : forall k, In k svg_sources -> exists v q, parse_string parse_in (lit k) = Ok (Source v) q /\ print_in (Source v) = Some (lit k).
Proof. exact sources_read. Qed.
Print Assumptions C109_sources.
(** Targets of links. *)
Theorem C109_frame : forall v k t, In (v, k) frames -> padded (lit k) t -> exists q, parse_string parse_target t = Ok (Frame v) q.
Proof. exact read_target_frame. Qed.
Print Assumptions C109_frame.
Theorem C109_window_partial : forall t, match t with [] => False | c :: _ => is_whitespace c = false /\ (c < 128)%N end ->
  (forall k r, In k (map (fun p => lit (snd p)) frames) -> t <> k ++ r) -> exists q, parse_string parse_target t = Ok (XMLName t) q.
Proof. exact read_target_name. Qed.
Print Assumptions C109_window_partial.
(** Names of profiles. *)
Theorem C109_srgb : forall k t, keyword k -> map lower k = lit "srgb" -> padded k t -> exists q, parse_string parse_profile t = Ok Srgb q.
Proof. exact read_profile_srgb. Qed.
Print Assumptions C109_srgb.
Theorem C109_profile_partial : forall t, match t with [] => False | c :: _ => is_whitespace c = false /\ (c < 128)%N end ->
  (forall k r, map lower k = lit "srgb" -> t <> k ++ r) -> exists q, parse_string parse_profile t = Ok (ProfileName t) q.
Proof. exact read_profile_name. Qed.
Print Assumptions C109_profile_partial.
(** And what is printed is read back. *)
Theorem C109_profile_print_partial : forall x, match x with Srgb => True | ProfileName t => match t with [] => False | c :: _ => is_whitespace c = false /\ (c < 128)%N end /\ (forall k r, map lower k = lit "srgb" -> t <> k ++ r) end ->
  exists q, parse_string parse_profile (print_profile x) = Ok x q.
Proof. exact profile_back. Qed.
Print Assumptions C109_profile_print_partial.
(** Attributes whose presence counts are read whatever keyword they have. *)
Theorem C109_boolean : forall t, (spaces t -> exists q, parse_string parse_boolean t = Ok None q) /\
  (forall k, keyword k -> padded k t -> exists q, parse_string parse_boolean t = Ok (Some k) q).
Proof. exact read_boolean. Qed.
Print Assumptions C109_boolean.

(** Four numbers, one or two numbers, and rotations. *)
Theorem C109_view_box_partial : forall finite f32 x s t, four_text finite f32 x s -> padded s t -> exists q, parse_string (parse_view_box finite f32) t = Ok x q.
Proof. exact read_view_box. Qed.
Print Assumptions C109_view_box_partial.
Theorem C109_control_point_partial : forall finite f32 x s t, four_text finite f32 x s -> padded s t -> exists q, parse_string (parse_four finite f32) t = Ok x q.
Proof. exact read_four. Qed.
Print Assumptions C109_control_point_partial.
Theorem C109_four_print : forall finite f32 print a b c d, prints finite f32 print a -> prints finite f32 print b -> prints finite f32 print c -> prints finite f32 print d ->
  four_text finite f32 (a, b, c, d) (print_four print (a, b, c, d)).
Proof. exact print_four_text. Qed.
Print Assumptions C109_four_print.
Theorem C109_pair_partial : forall finite f32 x s t, pair_text finite f32 x s -> padded s t -> exists q, parse_string (parse_pair finite f32) t = Ok x q.
Proof. exact read_pair. Qed.
Print Assumptions C109_pair_partial.
Theorem C109_pair_print : forall finite f32 print a b, prints finite f32 print a -> match b with Some b => prints finite f32 print b | None => True end ->
  pair_text finite f32 (a, b) (print_pair print (a, b)).
Proof. exact print_pair_text. Qed.
Print Assumptions C109_pair_print.
Theorem C109_rotate_partial : forall finite f32 r s t, rotate_text finite f32 r s -> padded s t -> exists q, parse_string (parse_rotate finite f32) t = Ok r q.
Proof. exact read_rotate. Qed.
Print Assumptions C109_rotate_partial.
Theorem C109_rotate_print : forall finite f32 print r, (forall d, r = Angle d -> prints finite f32 print d) -> rotate_text finite f32 r (print_rotate print r).
Proof. exact print_rotate_text. Qed.
Print Assumptions C109_rotate_print.
Example C109_rotate_print_example : print_rotate (fun _ => []) AutoReverse = lit "auto-reverse".
Proof. reflexivity. Qed.

Definition all_finite (d : dec) : bool := true.
Definition same (d : dec) : dec := d.
Definition int (c : N) : dec := Dec false [c] 0.
Lemma one_digit c : (49 <= c <= 57)%N -> num_text all_finite same (int (c - 48)) [c].
Proof.
  intros H. split; [|split].
  - exists false, (digits_value [c]), 0%Z. exists [], [c], [], [], [], 0%Z. split; [reflexivity|]. split; [left; auto|]. split; [constructor; [split; Lia.lia|constructor]|].
    split; [left; auto|]. split; [discriminate|]. split; [left; auto|]. split; reflexivity.
  - intros (u & E). destruct u as [|x [|y u]]; try discriminate. injection E as ->. destruct H as [H _]. apply H. reflexivity.
  - exists (int (c - 48)). split; [|split; reflexivity].
    assert (X : c = 49%N \/ c = 50%N \/ c = 51%N \/ c = 52%N \/ c = 53%N \/ c = 54%N \/ c = 55%N \/ c = 56%N \/ c = 57%N) by Lia.lia.
    destruct X as [-> |[-> |[-> |[-> |[-> |[-> |[-> |[-> | ->]]]]]]]]; reflexivity.
Qed.
Example C109_view_box_example : four_text all_finite same (int 1, int 2, int 3, int 4) (lit "1 2,3 , 4") /\
  exists q, parse_string (parse_view_box all_finite same) (lit "1 2,3 , 4") = Ok (int 1, int 2, int 3, int 4) q.
Proof.
  split; [|eexists; vm_compute; reflexivity]. exists [49%N], [50%N], [51%N], [52%N], [32%N], [44%N], [32; 44; 32]%N.
  split; [apply (one_digit 49); Lia.lia|]. split; [apply (one_digit 50); Lia.lia|]. split; [apply (one_digit 51); Lia.lia|]. split; [apply (one_digit 52); Lia.lia|].
  split; [exists [32%N], []; split; [repeat constructor|split; [constructor|left; split; [reflexivity|discriminate]]]|].
  split; [exists [], []; split; [constructor|split; [constructor|right; reflexivity]]|].
  split; [exists [32%N], [32%N]; split; [repeat constructor|split; [repeat constructor|right; reflexivity]]|]. reflexivity.
Qed.

(** Newer keywords are not read. *)
Theorem C109_newer : forall n ks k, In (n, ks) newer_keywords -> In k ks -> exists e q, parse_string (parse_enum (table n)) (lit k) = Fail e q.
Proof.
  intros n ks k I J. assert (H : forallb (fun e => forallb (fun k => match parse_string (parse_enum (table (fst e))) (lit k) with Fail _ _ => true | _ => false end) (snd e)) newer_keywords = true) by (vm_compute; reflexivity).
  rewrite forallb_forall in H. specialize (H _ I). rewrite forallb_forall in H. specialize (H _ J). cbn [fst] in H. destruct (parse_string _ _) as [? ?|e q| |]; try discriminate. eauto.
Qed.
Print Assumptions C109_newer.
Theorem C109_newer_refuted : exists n ks k e q, In (n, ks) newer_keywords /\ In k ks /\ parse_string (parse_enum (table n)) (lit k) = Fail e q.
Proof.
  exists "Role"%string, ["graphics-document"; "graphics-object"; "graphics-symbol"]%string, "graphics-symbol"%string. eexists; eexists.
  split; [vm_compute; tauto|]. split; [vm_compute; tauto|]. vm_compute. reflexivity.
Qed.
Print Assumptions C109_newer_refuted.
(** One variant has a text that is not read as it. *)
Theorem C109_additions_refuted : exists vs v t, In ("AriaRelevant"%string, vs) enums /\ print_enum vs v = Some t /\ forall q, parse_string (parse_enum vs) t <> Ok v q.
Proof.
  exists (table "AriaRelevant"), "AdditionsText"%string, (lit "additions text"). split; [apply table_in; vm_compute; discriminate|]. split; [vm_compute; reflexivity|].
  intros q E. vm_compute in E. discriminate E.
Qed.
Print Assumptions C109_additions_refuted.
(** White space after the input of a filter makes it unread, unlike any other keyword. *)
Theorem C109_in_refuted : exists t e q, padded (lit "SourceGraphic") t /\ parse_string parse_in t = Fail e q.
Proof.
  exists (lit "SourceGraphic "). eexists; eexists. split; [|vm_compute; reflexivity].
  exists [], [32%N]. split; [constructor|]. split; [constructor; [left; reflexivity|constructor]|reflexivity].
Qed.
Print Assumptions C109_in_refuted.
(** SVG 1.1's [defer] is not read. *)
Theorem C109_defer_refuted : exists e q, parse_string parse_aspect (lit "defer xMidYMid") = Fail e q.
Proof. eexists; eexists. vm_compute. reflexivity. Qed.
Print Assumptions C109_defer_refuted.
(** A view box with an empty place between commas is taken, where a browser ignores the attribute. *)
Theorem C109_commas_refuted : exists x q, parse_string (parse_view_box all_finite same) (lit "1,,2 3 4") = Ok x q.
Proof. eexists; eexists. vm_compute. reflexivity. Qed.
Print Assumptions C109_commas_refuted.
(** The name of a window or profile that begins outside ASCII makes the program panic. *)
Theorem C109_panic_refuted : exists t, parse_string parse_target t = Panic /\ parse_string parse_profile t = Panic /\ parse_string (parse_enum (table "SpreadMethod")) t = Panic.
Proof. exists [233%N]. vm_compute. auto. Qed.
Print Assumptions C109_panic_refuted.
(** A window whose name begins with that of a frame and a space is not read. *)
Theorem C109_window_refuted : exists e q, parse_string parse_target (lit "_top level") = Fail e q.
Proof. eexists; eexists. vm_compute. reflexivity. Qed.
Print Assumptions C109_window_refuted.
