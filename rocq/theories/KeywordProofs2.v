From Coq Require Import String List NArith ZArith Bool Arith Lia.
From Verif Require Import Chars ParseModel ParseSpec ParseProofs ParseProofs2 ParseProofs3 ParseProofs4 ListProofs ClockModel ClockSpec ClockProofs OnsetModel OnsetSpec OnsetProofs OnsetProofs2
  KeywordTable KeywordModel KeywordSpec KeywordProofs.
Import ListNotations.

(** ** Truth values *)
Lemma read_true_false b t : padded (print_true_false b) t -> exists q, parse_string parse_true_false t = Ok b q.
Proof.
  intros (v & w & V & W & ->). assert (K : keyword (print_true_false b)) by (apply keyword_b_ok; destruct b; reflexivity).
  apply string_padded; auto; [destruct b; reflexivity|]. unfold parse_true_false, bind. rewrite (ident_at v _ w K (spaces_end w W)). destruct b; reflexivity.
Qed.
Lemma read_true_false_undefined b t : padded (print_true_false_undefined b) t -> exists q, parse_string parse_true_false_undefined t = Ok b q.
Proof.
  intros (v & w & V & W & ->). assert (K : keyword (print_true_false_undefined b)) by (apply keyword_b_ok; destruct b as [[]|]; reflexivity).
  apply string_padded; auto; [destruct b as [[]|]; reflexivity|]. unfold parse_true_false_undefined, or_else, try_parse, expect_ident_matching, parse_true_false, bind.
  rewrite (ident_at v _ w K (spaces_end w W)). destruct b as [[]|]; [| |reflexivity].
  - change (text_eqb (print_true_false_undefined (Some true)) (lit "undefined")) with false. cbn [fail ret]. cbn [at_ p_input p_cursor]. rewrite <- app_assoc.
    change (P (v ++ print_true_false_undefined (Some true) ++ w) (blen v)) with (at_ v (print_true_false_undefined (Some true) ++ w)). 
    rewrite (ident_at v _ w K (spaces_end w W)). reflexivity.
  - change (text_eqb (print_true_false_undefined (Some false)) (lit "undefined")) with false. cbn [fail ret]. cbn [at_ p_input p_cursor]. rewrite <- app_assoc.
    change (P (v ++ print_true_false_undefined (Some false) ++ w) (blen v)) with (at_ v (print_true_false_undefined (Some false) ++ w)). 
    rewrite (ident_at v _ w K (spaces_end w W)). reflexivity.
Qed.

(** ** Aspect ratio *)
Lemma align_in : In ("PreserveAspectRatioAlign"%string, table "PreserveAspectRatioAlign") enums.
Proof. apply table_in. vm_compute. discriminate. Qed.
Lemma meet_in : In ("PreserveAspectRatioMeetOrSlice"%string, table "PreserveAspectRatioMeetOrSlice") enums.
Proof. apply table_in. vm_compute. discriminate. Qed.
Lemma no_additions n v k : n <> "AriaRelevant"%string -> In (n, table n) enums -> In (v, k) (table n) -> v <> "AdditionsText"%string.
Proof.
  intros NE TI M ->. pose proof (proj1 (forallb_forall _ _) additions_only _ TI) as A. cbn [fst snd] in A. apply orb_prop in A. destruct A as [A|A]; [apply String.eqb_eq in A; contradiction|].
  rewrite forallb_forall in A. specialize (A _ M). discriminate A.
Qed.
Lemma align_keyword v k : In (v, k) (table "PreserveAspectRatioAlign") -> keyword (lit k).
Proof. intros J. refine (enum_keyword _ _ v k align_in J (no_additions _ v k _ align_in J)). discriminate. Qed.
Lemma meet_keyword v k : In (v, k) (table "PreserveAspectRatioMeetOrSlice") -> keyword (lit k).
Proof. intros J. refine (enum_keyword _ _ v k meet_in J (no_additions _ v k _ meet_in J)). discriminate. Qed.
Local Opaque table.

Lemma enum_end a (vs : list (string * string)) : exists e, parse_enum vs (at_ a []) = Fail e (at_ a []).
Proof. unfold parse_enum, expect_ident, bind, cursor. rewrite read_end. eauto. Qed.
Lemma read_aspect align meet s t : aspect_text align meet s -> padded s t -> exists q, parse_string parse_aspect t = Ok (align, meet) q.
Proof.
  intros (a & A & H) (v & w & V & W & ->). pose proof (align_keyword _ _ A) as KA. pose proof (enum_good _ _ align_in) as GA. pose proof (enum_good _ _ meet_in) as GM.
  assert (HD : match lit a with [] => False | c :: _ => is_whitespace c = false end) by (pose proof (keyword_head _ [] KA) as X; rewrite app_nil_r in X; exact X).
  destruct H as [[-> ->]|(m & u & x & M & U & UN & -> & ->)].
  - unfold parse_string, bind. change (new (v ++ lit a ++ w)) with (at_ [] (v ++ lit a ++ w)).
    rewrite skip_spaces; [|exact V|destruct (lit a); [destruct HD|exact HD]]. unfold parse_aspect, bind. rewrite (enum_at _ _ align a w GA A KA (spaces_end w W)).
    pose proof (skip_spaces (([] ++ v) ++ lit a) w [] W I) as S. rewrite app_nil_r in S. rewrite S. unfold ok, try_parse.
    destruct (enum_end ((([] ++ v) ++ lit a) ++ w) (table "PreserveAspectRatioMeetOrSlice")) as (e & ->). cbn [at_ p_input p_cursor]. 
    change (P (((([] ++ v) ++ lit a) ++ w) ++ []) (blen ((([] ++ v) ++ lit a) ++ w))) with (at_ ((([] ++ v) ++ lit a) ++ w) []).
    unfold ret. rewrite skip_ws_head by exact I. unfold expect_done. cbn [at_ p_cursor p_input]. rewrite app_nil_r, Nat.ltb_irrefl. destruct (String.eqb align "None"); eexists; reflexivity.
  - pose proof (meet_keyword _ _ M) as KM. pose proof (keyword_head _ w KM) as HM.
    apply string_padded; auto; [destruct (lit a); [destruct HD|exact HD]|]. rewrite <- !app_assoc. unfold parse_aspect, bind. 
    rewrite (enum_at _ _ align a (u ++ lit m ++ w) GA A KA (spaces_end' u _ U UN)). rewrite skip_spaces; [|exact U|destruct (lit m ++ w); [destruct HM|exact HM]].
    unfold ok, try_parse. rewrite (enum_at _ _ x m w GM M KM (spaces_end w W)). unfold ret. rewrite <- !app_assoc. reflexivity.
Qed.
Lemma find_align a : In a (map fst (table "PreserveAspectRatioAlign")) -> exists k, In (a, k) (table "PreserveAspectRatioAlign").
Proof. rewrite in_map_iff. intros ([x k] & <- & I). eauto. Qed.
Lemma find_meet a : In a (map fst (table "PreserveAspectRatioMeetOrSlice")) -> exists k, In (a, k) (table "PreserveAspectRatioMeetOrSlice").
Proof. rewrite in_map_iff. intros ([x k] & <- & I). eauto. Qed.
Lemma print_aspect_text align meet : In align (map fst (table "PreserveAspectRatioAlign")) -> In meet (map fst (table "PreserveAspectRatioMeetOrSlice")) ->
  (align = "None"%string -> meet = "Meet"%string) -> exists t, print_aspect (align, meet) = Some t /\ aspect_text align meet t.
Proof.
  intros A M N. apply find_align in A. apply find_meet in M. destruct A as (a & A). destruct M as (m & M). unfold print_aspect. cbn [fst snd].
  rewrite (enum_print _ _ _ (enum_good _ _ align_in) A), (enum_print _ _ _ (enum_good _ _ meet_in) M). eexists. split; [reflexivity|]. exists a. split; [exact A|].
  destruct (String.eqb_spec meet "Meet") as [->|NE]; [left; rewrite app_nil_r; auto|]. right. exists m, [32%N], meet. split; [exact M|].
  split; [constructor; [left; reflexivity|constructor]|]. split; [discriminate|]. split; [reflexivity|]. destruct (String.eqb_spec align "None") as [->|_]; [rewrite N in NE by reflexivity; contradiction|reflexivity].
Qed.

(** ** Inputs, targets, profiles, booleans *)
Lemma sources_good : good sources.
Proof. apply good_b_ok. vm_compute. reflexivity. Qed.
Lemma frames_good : good frames.
Proof. apply good_b_ok. vm_compute. reflexivity. Qed.
Lemma sources_keyword v k : In (v, k) sources -> keyword (lit k).
Proof.
  intros J. apply keyword_b_ok. assert (H : forallb (fun p => keyword_b (lit (snd p))) sources = true) by (vm_compute; reflexivity).
  rewrite forallb_forall in H. exact (H _ J).
Qed.
Lemma frames_keyword v k : In (v, k) frames -> keyword (lit k).
Proof.
  intros J. apply keyword_b_ok. assert (H : forallb (fun p => keyword_b (lit (snd p))) frames = true) by (vm_compute; reflexivity).
  rewrite forallb_forall in H. exact (H _ J).
Qed.
Lemma full_at {A} (f : parser -> out A) v t x : spaces v -> match t with [] => False | c :: _ => is_whitespace c = false end ->
  f (at_ v t) = Ok x (at_ (v ++ t) []) -> exists q, parse_string f (v ++ t) = Ok x q.
Proof.
  intros V H E. pose proof (string_padded f x v t [] V (Forall_nil _) H) as S. rewrite app_nil_r in S. apply S, E.
Qed.
Lemma done_at a : expect_done (at_ a []) = Ok tt (at_ a []).
Proof. unfold expect_done. cbn [at_ p_cursor p_input]. rewrite app_nil_r, Nat.ltb_irrefl. reflexivity. Qed.
Lemma find_none_enum (vs : list (string * string)) i : ~ In i (map (fun p => lit (snd p)) vs) -> find (fun v => text_eqb i (lit (snd v))) vs = None.
Proof.
  intros H. destruct (find _ vs) as [[v k]|] eqn:F; [|reflexivity]. apply find_some in F. destruct F as [J E]. cbn [snd] in E. apply text_eqb_spec in E. subst.
  exfalso. apply H. change (lit k) with ((fun p : string * string => lit (snd p)) (v, k)). apply in_map, J.
Qed.
Lemma keyword_ws k : keyword k -> match k with [] => False | c :: _ => is_whitespace c = false end.
Proof. intros K. pose proof (keyword_head _ [] K) as X. rewrite app_nil_r in X. exact X. Qed.
Lemma enum_fails_in a (vs : list (string * string)) k : keyword k -> ~ In k (map (fun p => lit (snd p)) vs) -> forall (B : Type) (g : string -> parser -> out B), bind (parse_enum vs) g (at_ a k) = Fail ExpectedIdent (at_ (a ++ k) []).
Proof.
  intros K NI B g. unfold parse_enum, bind. pose proof (ident_at a k [] K I) as E. rewrite app_nil_r in E. rewrite E. rewrite (find_none_enum _ _ NI). reflexivity.
Qed.
Lemma read_in i t v : spaces v -> print_in i = Some t ->
  match i with Source x => True | Reference r => keyword r /\ ~ In r (map (fun p => lit (snd p)) sources) end ->
  exists q, parse_string parse_in (v ++ t) = Ok i q.
Proof.
  intros V P H. destruct i as [x|r].
  - cbn in P. unfold print_enum in P. destruct (find _ sources) as [[x' k]|] eqn:F; [|discriminate]. cbn [option_map snd] in P. injection P as <-.
    apply find_some in F. destruct F as [J E]. cbn [fst] in E. apply String.eqb_eq in E. subst x'. pose proof (sources_keyword _ _ J) as K.
    apply full_at; [exact V|apply keyword_ws, K|]. unfold parse_in, bind at 1.
    pose proof (enum_at v sources x k [] sources_good J K I) as E. rewrite app_nil_r in E. erewrite or_else_ok; [|unfold bind; rewrite E; reflexivity]. unfold bind. rewrite done_at. reflexivity.
  - cbn in P. injection P as <-. destruct H as [K NI]. apply full_at; [exact V|apply keyword_ws, K|]. unfold parse_in. unfold bind at 1.
    rewrite (or_else_fail _ _ v r _ _ (enum_fails_in v sources r K NI _ _)) by (cbn [at_ p_input]; rewrite app_nil_r; reflexivity).
    unfold bind. pose proof (ident_at v r [] K I) as E. rewrite app_nil_r in E. rewrite E. unfold ret. rewrite done_at. reflexivity.
Qed.
Lemma take_slice_at a b : take_slice (at_ a b) = Ok b (at_ (a ++ b) []).
Proof.
  unfold take_slice, bind. rewrite slice_at. unfold done, ret. cbn [at_ p_input]. f_equal. unfold at_. rewrite app_nil_r. reflexivity.
Qed.
Lemma ident_first a b : (exists c r, b = c :: r /\ (c < 128)%N) -> (exists i r, b = i ++ r /\ expect_ident (at_ a b) = Ok i (at_ (a ++ i) r)) \/ exists e q, expect_ident (at_ a b) = Fail e q /\ p_input q = a ++ b.
Proof.
  intros (c & r & -> & L). destruct (is_name_start_char c) eqn:S.
  - left. exists (c :: take_while is_name_char r), (drop_while is_name_char r). split; [cbn; rewrite take_drop; reflexivity|]. apply expect_ident_at; assumption.
  - right. unfold expect_ident, bind, cursor. rewrite read_at by exact L. rewrite S. change (p_cursor (at_ a (c :: r))) with (blen a).
    rewrite (slice_from_at a [c] r). unfold fail. eexists; eexists. split; [reflexivity|]. cbn [at_ p_input]. rewrite <- app_assoc. reflexivity.
Qed.
(** A name for a window: it begins in ASCII and not with white space, and no keyword is at its beginning. *)
Lemma read_name {A} (f : parser -> out A) (name : text -> A) t (ok : text -> option A) :
  match t with [] => False | c :: _ => is_whitespace c = false /\ (c < 128)%N end ->
  (forall p, f p = or_else (fun p => bind expect_ident (fun i => match ok i with Some x => ret x | None => fail ExpectedIdent end) p) (fun p => bind take_slice (fun t => ret (name t)) p) p) ->
  (forall i r, t = i ++ r -> ok i = None) -> exists q, parse_string f t = Ok (name t) q.
Proof.
  intros H E NO. apply (full_at f []); [constructor|destruct t; [destruct H|apply H]|]. rewrite E.
  assert (X : exists e q, (fun p => bind expect_ident (fun i => match ok i with Some x => ret x | None => fail ExpectedIdent end) p) (at_ [] t) = Fail e q /\ p_input q = [] ++ t).
  { unfold bind. destruct (ident_first [] t) as [(i & r & Q & ->)|(e & q & -> & Q)].
    - destruct t as [|c t]; [destruct H|]. exists c, t. split; [reflexivity|apply H].
    - rewrite (NO i r Q). unfold fail. eexists; eexists. split; [reflexivity|]. cbn [at_ p_input app]. symmetry. exact Q.
    - eauto. }
  destruct X as (e & q & X & I). rewrite (or_else_fail _ _ [] t _ _ X I). unfold bind. rewrite take_slice_at. reflexivity.
Qed.
Lemma read_target_frame v k t : In (v, k) frames -> padded (lit k) t -> exists q, parse_string parse_target t = Ok (Frame v) q.
Proof.
  intros J (a & w & V & W & ->). pose proof (frames_keyword _ _ J) as K. apply string_padded; auto; [apply keyword_ws, K|].
  unfold parse_target. apply or_else_ok. unfold bind. rewrite (enum_at a frames v k w frames_good J K (spaces_end w W)). reflexivity.
Qed.
Lemma read_target_name t : match t with [] => False | c :: _ => is_whitespace c = false /\ (c < 128)%N end ->
  (forall k r, In k (map (fun p => lit (snd p)) frames) -> t <> k ++ r) -> exists q, parse_string parse_target t = Ok (XMLName t) q.
Proof.
  intros H NO. refine (read_name parse_target XMLName t (fun i => option_map (fun p => Frame (fst p)) (find (fun v => text_eqb i (lit (snd v))) frames)) H _ _).
  - intros p. unfold parse_target, or_else, try_parse, parse_enum, bind. destruct (expect_ident p) as [i q|? ?| |]; try reflexivity. destruct (find _ frames); reflexivity.
  - intros i r ->. destruct (find _ frames) as [[v k]|] eqn:F; [|reflexivity]. apply find_some in F. destruct F as [J E]. cbn [snd] in E. apply text_eqb_spec in E. subst i.
    exfalso. refine (NO (lit k) r _ eq_refl). change (lit k) with ((fun p : string * string => lit (snd p)) (v, k)). apply in_map, J.
Qed.
Lemma read_profile_srgb k t : keyword k -> map lower k = lit "srgb" -> padded k t -> exists q, parse_string parse_profile t = Ok Srgb q.
Proof.
  intros K L (a & w & V & W & ->). apply string_padded; auto; [apply keyword_ws, K|]. unfold parse_profile. apply or_else_ok. unfold bind. rewrite (ident_at a k w K (spaces_end w W)). rewrite L. reflexivity.
Qed.
Lemma read_profile_name t : match t with [] => False | c :: _ => is_whitespace c = false /\ (c < 128)%N end ->
  (forall k r, map lower k = lit "srgb" -> t <> k ++ r) -> exists q, parse_string parse_profile t = Ok (ProfileName t) q.
Proof.
  intros H NO. refine (read_name parse_profile ProfileName t (fun i => if text_eqb (map lower i) (lit "srgb") then Some Srgb else None) H _ _).
  - intros p. unfold parse_profile, or_else, try_parse, bind. destruct (expect_ident p) as [i q|? ?| |]; try reflexivity. destruct (text_eqb _ _); reflexivity.
  - intros i r ->. destruct (text_eqb (map lower i) (lit "srgb")) eqn:E; [|reflexivity]. apply text_eqb_spec in E. exfalso. exact (NO i r E eq_refl).
Qed.
Lemma read_boolean t : (spaces t -> exists q, parse_string parse_boolean t = Ok None q) /\ (forall k, keyword k -> padded k t -> exists q, parse_string parse_boolean t = Ok (Some k) q).
Proof.
  split.
  - intros S. unfold parse_string, parse_boolean, bind. change (new t) with (at_ [] t). pose proof (skip_spaces [] t [] S I) as E. rewrite app_nil_r in E. rewrite E.
    rewrite skip_ws_head by exact I. unfold ok, try_parse, expect_ident, bind, cursor. rewrite read_end. cbn [at_ p_input p_cursor]. 
    change (P (([] ++ t) ++ []) (blen ([] ++ t))) with (at_ ([] ++ t) []). rewrite skip_ws_head by exact I. rewrite done_at. eexists. reflexivity.
  - intros k K (a & w & V & W & ->). apply string_padded; auto; [apply keyword_ws, K|]. unfold parse_boolean, bind. rewrite skip_ws_head by (pose proof (keyword_head k w K) as X; destruct (k ++ w); [destruct X|exact X]).
    unfold ok, try_parse. rewrite (ident_at a k w K (spaces_end w W)). reflexivity.
Qed.
