(** C88: which attributes the patterns remove. *)
From Coq Require Import String List NArith Bool.
From Verif Require Import Chars RemoveAttrsModel RemoveAttrsSpec RemoveAttrsProofs.
Import ListNotations.

(** What a pattern says goes, unless it is protected. *)
Theorem C88_goes : forall compile patterns sep preserve name l l' p a, element compile patterns sep preserve name l = Some l' -> In p patterns -> says compile sep p name a -> ~ protected preserve a -> ~ In a l'.
Proof. exact said_goes. Qed.
Print Assumptions C88_goes.
(** What no pattern says stays.  Partial: for patterns without alternatives outside parentheses. *)
Theorem C88_stays_partial : forall compile patterns sep preserve name l l' a, element compile patterns sep preserve name l = Some l' -> (forall p, In p patterns -> simple compile sep p) -> In a l ->
  (forall p, In p patterns -> ~ says compile sep p name a) -> In a l'.
Proof. exact unsaid_stays. Qed.
Print Assumptions C88_stays_partial.
(** Paints of [currentColor] stay if so asked.  Partial: not so for other colours. *)
Theorem C88_current_partial : forall compile patterns sep name l l' a, element compile patterns sep true name l = Some l' -> In a l -> a_kind a = PaintKind -> a_current a = true -> In a l'.
Proof. exact current_stays. Qed.
Print Assumptions C88_current_partial.
(** The others keep their order. *)
Theorem C88_order : forall compile patterns sep preserve name l l', element compile patterns sep preserve name l = Some l' -> exists f, l' = filter f l.
Proof. exact in_order. Qed.
Print Assumptions C88_order.
(** There is an error exactly if a part is not an expression. *)
Theorem C88_error : forall compile patterns sep preserve name l, element compile patterns sep preserve name l = None <->
  exists p e n v x, In p patterns /\ parts sep p (e, n, v) /\ (e = Some x \/ n = x \/ v = Some x) /\ compile x = None /\ x <> lit "*" /\ x <> lit ".*".
Proof. exact error. Qed.
Print Assumptions C88_error.

(** A compiler of expressions with [.], [*] and [|]. *)
Fixpoint read (t : text) (done : re) (last : option re) : list re :=
  let all := match last with Some r => Cat done r | None => done end in
  match t with
  | [] => [all]
  | c :: s => if N.eqb c 124 then all :: read s Blank None
              else if N.eqb c 42 then read s (match last with Some r => Cat done (Star r) | None => done end) None
              else read s all (Some (if N.eqb c 46 then Dot else Chr c))
  end.
Definition toy (t : text) : option (list re) := Some (read t Blank None).
Definition a (n v : string) (k : kind) : attr := mkAttr (lit n) k (lit v) (text_eqb (lit v) (lit "currentColor")).
Definition circle : list attr := [a "fill" "red" PaintKind; a "stroke-width" "6" OtherKind; a "stroke" "currentColor" PaintKind; a "cx" "60" OtherKind].
Example C88_circle : element toy [lit "circle:stroke.*"; lit "path:fill"] (lit ":") false (lit "circle") circle = Some [a "fill" "red" PaintKind; a "cx" "60" OtherKind] /\
  element toy [lit "*:.*:red"] (lit ":") false (lit "circle") circle = Some (tl circle) /\
  element toy [lit "stroke.*"] (lit ":") true (lit "circle") circle = Some [a "fill" "red" PaintKind; a "stroke" "currentColor" PaintKind; a "cx" "60" OtherKind].
Proof. repeat split; vm_compute; reflexivity. Qed.
(** The third part of a pattern keeps further separators. *)
Example C88_parts : parts (lit ":") (lit "*:href:a:b") (Some (lit "*"), lit "href", Some (lit "a:b")).
Proof.
  apply (Parts3 (lit ":") (lit "*") (lit "href") (lit "a:b")); intros x y H; vm_compute in H.
  - repeat (destruct x as [|? x]; cbn in H; try discriminate H); injection H; intros; subst; try reflexivity; try discriminate.
  - repeat (destruct x as [|? x]; cbn in H; try discriminate H); injection H; intros; subst; try reflexivity; try discriminate.
Qed.
(** With [fill|stroke], [fill-opacity] goes as well, though neither alternative is its name. *)
Theorem C88_alternatives_refuted : exists name l l' x, element toy [lit "fill|stroke"] (lit ":") false name l = Some l' /\ In x l /\ ~ In x l' /\ forall r, In r (read (lit "fill|stroke") Blank None) -> ~ word r (a_name x).
Proof.
  exists (lit "rect"), [a "fill-opacity" "0" OtherKind], [], (a "fill-opacity" "0" OtherKind). split; [vm_compute; reflexivity|split; [left; reflexivity|split; [intros []|]]].
  intros r I W. apply full_word in W. destruct I as [<-|[<-|[]]]; vm_compute in W; discriminate W.
Qed.
Print Assumptions C88_alternatives_refuted.
(** [stop-color="currentColor"] goes though it is to be preserved. *)
Theorem C88_current_refuted : exists name l l' x, element toy [lit "stop-color"] (lit ":") true name l = Some l' /\ In x l /\ a_current x = true /\ ~ In x l'.
Proof. exists (lit "stop"), [a "stop-color" "currentColor" ColorKind], [], (a "stop-color" "currentColor" ColorKind). split; [vm_compute; reflexivity|split; [left; reflexivity|split; [reflexivity|intros []]]]. Qed.
Print Assumptions C88_current_refuted.
