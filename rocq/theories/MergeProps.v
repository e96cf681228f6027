From Coq Require Import String List NArith Bool Arith.
From Verif Require Import Chars MergeModel MergeSpec MergeProofs.
Import ListNotations.
Local Open Scope list_scope.

(** C39: the first style element with rules is left with the rules of all of them, in document order, each under the query its element
    carried; the other ones go, and every other element stays where it is. *)
Theorem C39_rules : forall a s b, existsb with_rules a = false -> with_rules (IStyle s) = true ->
  merge_styles true (a ++ IStyle s :: b) =
    Some (filter (fun x => negb (merged x)) a ++
          IStyle (mkStyle (st_type s) (st_foreign s) None (st_rest s) [CRules (flat_map under_media (filter with_rules (a ++ IStyle s :: b)))]) ::
          filter (fun x => negb (merged x)) b).
Proof. exact merged_some. Qed.
Print Assumptions C39_rules.
(** C39: without rules anywhere, the empty style elements go. *)
Theorem C39_no_rules : forall l, existsb with_rules l = false -> merge_styles true l = Some (filter (fun x => negb (merged x)) l).
Proof. exact merged_none. Qed.
Print Assumptions C39_no_rules.
Theorem C39_disabled : forall l, merge_styles false l = Some l.
Proof. exact merge_disabled. Qed.
Print Assumptions C39_disabled.
(** C39: the same rules are in force in the same order, whichever queries match.  Missing: styles in foreign objects, queries that cannot be read, and
    imports other than in the first stylesheet (refuted below). *)
Theorem C39_in_force_partial : forall matches l, plain_styles l -> exists l', merge_styles true l = Some l' /\ in_force matches l' = in_force matches l.
Proof. exact merge_in_force. Qed.
Print Assumptions C39_in_force_partial.

Definition sheet_of (m : option media) (r : list rule) : item := IStyle (mkStyle None false m 0 [CElse 1; CRules r]).
Definition page : list item := [IElse 1; sheet_of None [RImport 1; RPlain 2]; sheet_of None []; IElse 2; sheet_of (Some (MQuery 3)) [RPlain 4; RMedia 5 [RPlain 6]]; sheet_of None [RPlain 7]].
Example C39_witness : plain_styles page /\
  merge_styles true page =
    Some [IElse 1; IStyle (mkStyle None false None 0 [CRules [RImport 1; RPlain 2; RMedia 3 [RPlain 4; RMedia 5 [RPlain 6]]; RPlain 7]]); IElse 2].
Proof.
  split; [|reflexivity]. split.
  - intros s H _. unfold page, sheet_of in H. cbn [In] in H.
    repeat (destruct H as [H|H]; [first [discriminate | injection H as <-; cbn; split; [reflexivity|discriminate]]|]). contradiction.
  - intros a s b E W Im. destruct a as [|x a]; [injection E as E _; discriminate|]. injection E as <- E.
    destruct a as [|x a]; [injection E as <- _; split; reflexivity|]. injection E as <- E. exfalso.
    destruct a as [|x2 a]; [injection E as <- _; discriminate|]. injection E as _ E.
    destruct a as [|x3 a]; [injection E as E _; discriminate|]. injection E as _ E.
    destruct a as [|x4 a]; [injection E as <- _; discriminate|]. injection E as _ E.
    destruct a as [|x5 a]; [injection E as <- _; discriminate|]. injection E as _ E. destruct a; discriminate.
Qed.

(** A query that cannot be read matches nothing, but its rules come to be in force; an import in the second stylesheet or under a query is lost; and the rules of a style
    in a foreign object, which count for the whole document, come after those that followed them. *)
Theorem C39_in_force_refuted : exists matches,
  (exists l l' n, In (sheet_of (Some (MText n)) [RPlain 1]) l /\ merge_styles true l = Some l' /\ in_force matches l = [] /\ in_force matches l' = [inr 1]) /\
  (exists l l', l = [sheet_of None [RPlain 1]; sheet_of None [RImport 2]] /\ merge_styles true l = Some l' /\ in_force matches l = [inr 1; inl 2] /\ in_force matches l' = [inr 1]) /\
  (exists l l' q, matches q = true /\ l = [sheet_of (Some (MQuery q)) [RImport 2]] /\ merge_styles true l = Some l' /\ in_force matches l = [inl 2] /\ in_force matches l' = []) /\
  (exists l l' s, st_foreign s = true /\ In (IStyle s) l /\ merge_styles true l = Some l' /\ in_force matches l = [inr 1; inr 2; inr 3] /\ in_force matches l' = [inr 1; inr 3; inr 2]).
Proof.
  exists (fun _ => true). split; [|split; [|split]].
  - exists [sheet_of (Some (MText 4)) [RPlain 1]]. eexists _, 4. split; [left; reflexivity|]. split; [reflexivity|]. split; reflexivity.
  - eexists _, _. split; [reflexivity|]. split; [reflexivity|]. split; reflexivity.
  - eexists _, _, 5. split; [reflexivity|]. split; [reflexivity|]. split; [reflexivity|]. split; reflexivity.
  - exists [sheet_of None [RPlain 1]; IStyle (mkStyle None true None 0 [CRules [RPlain 2]]); sheet_of None [RPlain 3]].
    eexists _, (mkStyle None true None 0 [CRules [RPlain 2]]). split; [reflexivity|]. split; [right; left; reflexivity|]. split; [reflexivity|]. split; reflexivity.
Qed.
Print Assumptions C39_in_force_refuted.
