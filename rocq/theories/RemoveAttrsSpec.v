(** What a pattern says. *)
From Coq Require Import String List NArith Bool.
From Verif Require Import Chars RemoveAttrsModel.
Import ListNotations.

(** The strings of an expression. *)
Inductive word : re -> text -> Prop :=
| WBlank : word Blank []
| WChr : forall c, word (Chr c) [c]
| WDot : forall c, c <> 10%N -> word Dot [c]
| WCat : forall a b s t, word a s -> word b t -> word (Cat a b) (s ++ t)
| WLeft : forall a b s, word a s -> word (Alt a b) s
| WRight : forall a b s, word b s -> word (Alt a b) s
| WNone : forall a, word (Star a) []
| WMore : forall a s t, word a s -> word (Star a) t -> word (Star a) (s ++ t).
(** Without separators a pattern is for attributes; with one, for elements and attributes; with more, for elements, attributes and values. *)
Definition free_of (sep t : text) : Prop := forall a b, t <> a ++ sep ++ b.
Inductive parts (sep : text) : text -> option text * text * option text -> Prop :=
| Parts1 : forall n, free_of sep n -> parts sep n (None, n, None)
| Parts2 : forall e n, free_of sep n -> (forall a b, e ++ sep = a ++ sep ++ b -> b = []) -> parts sep (e ++ sep ++ n) (Some e, n, None)
| Parts3 : forall e n v, (forall a b, e ++ sep = a ++ sep ++ b -> b = []) -> (forall a b, n ++ sep = a ++ sep ++ b -> b = []) -> parts sep (e ++ sep ++ n ++ sep ++ v) (Some e, n, Some v).
Section Patterns.
  (** The alternatives of an expression. *)
  Variable compile : text -> option (list re).
  (** A part matches all, or the strings of one of its alternatives. *)
  Definition part_says (p t : text) : Prop := p = lit "*" \/ p = lit ".*" \/ exists l r, compile p = Some l /\ In r l /\ word r t.
  Definition opt_says (p : option text) (t : text) : Prop := match p with Some p => part_says p t | None => True end.
  (** What the pattern says of an attribute of an element. *)
  Definition says (sep p name : text) (a : attr) : Prop :=
    exists e n v, parts sep p (e, n, v) /\ opt_says e name /\ part_says n (a_name a) /\ opt_says v (a_value a).
  (** Parts without [|] outside parentheses. *)
  Definition simple_part (p : text) : Prop := p = lit "*" \/ p = lit ".*" \/ exists r, compile p = Some [r].
  Definition simple (sep p : text) : Prop := forall e n v, parts sep p (e, n, v) -> (forall x, e = Some x -> simple_part x) /\ simple_part n /\ (forall x, v = Some x -> simple_part x).
  (** Attributes that the option protects: those set to [currentColor]. *)
  Definition protected (preserve : bool) (a : attr) : Prop := preserve = true /\ a_current a = true.
End Patterns.
