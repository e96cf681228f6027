(** The CSS cascade (CSS Cascade 4, 6) for one origin, with presentation attributes (SVG 2, 6.6) and inheritance. *)
From Coq Require Import String List NArith Bool Arith Sorted.
From Verif Require Import Chars CascadeModel.
Import ListNotations.

(** Selectors of a list, and rules in blocks, are so many rules with one selector (Selectors 4, 4.1), each under the conditions around it. *)
Record single : Type := mkSingle { g_sel : sel; g_block : block; g_conds : list nat }.
Fixpoint singles (conds : list nat) (r : rule) : list single :=
  match r with
  | RStyle sels b => map (fun x => mkSingle x b conds) sels
  | RMedia q rs | RSkipped q rs => (fix go (l : list rule) : list single := match l with [] => [] | r :: l => singles (q :: conds) r ++ go l end) rs
  end.
Definition all_singles (sheets : list rule) : list single := flat_map (singles []) sheets.

(** The values a block gives a property, in order. *)
Definition values (p : prop) (l : list (prop * value)) : list value := map snd (filter (fun d => Nat.eqb (fst d) p) l).
(** The highest specificity wins, and among equals the last. *)
Fixpoint best_from (b : option (nat * value)) (l : list (nat * value)) : option (nat * value) :=
  match l with
  | [] => b
  | x :: l => best_from (match b with Some y => if fst x <? fst y then b else Some x | None => Some x end) l
  end.
Definition best (l : list (nat * value)) : option value := option_map snd (best_from None l).
Definition last_of {A} (l : list A) : option A := match rev l with [] => None | a :: _ => Some a end.
(** The first that is there. *)
Fixpoint first_of {A} (l : list (option A)) : option A := match l with [] => None | Some a :: _ => Some a | None :: l => first_of l end.

Section Css.
  (** Whether a selector matches an element, and which properties are inherited. *)
  Variable matches : sel -> elem -> bool.
  Variable inheritable : prop -> bool.
  (** What rules declare for a property, with specificity and conditions; [f] tells important declarations from normal ones. *)
  Definition declared (f : block -> list (prop * value)) (sheets : list rule) (e : elem) (p : prop) : list (nat * value * list nat) :=
    flat_map (fun g => if matches (g_sel g) e then map (fun v => (sel_spec (g_sel g), v, g_conds g)) (values p (f (g_block g))) else []) (all_singles sheets).
  (** Those in force when [on] tells which conditions hold. *)
  Definition in_force (on : nat -> bool) (l : list (nat * value * list nat)) : list (nat * value) :=
    map fst (filter (fun x => forallb on (snd x)) l).
  Definition of_style (f : block -> list (prop * value)) (e : elem) (p : prop) : option value :=
    match e_style e with Some b => last_of (values p (f b)) | None => None end.
  (** The value the element itself has for a property: important declarations first, those of the style attribute before others, presentation attributes last. *)
  Definition cascaded (on : nat -> bool) (sheets : list rule) (e : elem) (p : prop) : option value :=
    first_of [of_style b_important e p; best (in_force on (declared b_important sheets e p));
              of_style b_normal e p; best (in_force on (declared b_normal sheets e p));
              last_of (values p (e_attrs e))].
  (** With inheritance, for an element and its ancestors. *)
  Fixpoint computed (on : nat -> bool) (sheets : list rule) (chain : list elem) (p : prop) : option value :=
    match chain with
    | [] => None
    | e :: rest => first_of [cascaded on sheets e p; if inheritable p then computed on sheets rest p else None]
    end.

  (** ** When the code agrees *)
  Variable select : text -> elem -> option bool.
  (** Selectors are read, and matched as CSS says. *)
  Definition selectors_read (sheets : list rule) (e : elem) : Prop :=
    forall g, In g (all_singles sheets) -> select (sel_text (g_sel g)) e = Some (matches (g_sel g) e).
  (** In each rule, with all it holds, no selector comes after one that does not match. *)
  Definition none_after (e : elem) (r : rule) : Prop :=
    forall a g h b, singles [] r = a ++ g :: h :: b -> matches (g_sel g) e = true.
  (** Declarations of a property are in order of specificity. *)
  Definition by_specificity (sheets : list rule) (e : elem) (p : prop) : Prop :=
    forall f, f = b_important \/ f = b_normal -> StronglySorted le (map (fun x => fst (fst x)) (declared f sheets e p)).
  (** A property is set once in the attributes. *)
  Definition once (l : list (prop * value)) (p : prop) : Prop := List.length (values p l) <= 1.
  (** No rule in a block that is skipped. *)
  Fixpoint none_skipped (r : rule) : bool :=
    match r with
    | RStyle _ _ => true
    | RMedia _ rs => (fix go (l : list rule) : bool := match l with [] => true | r :: l => none_skipped r && go l end) rs
    | RSkipped _ _ => false
    end.
  (** No property both in an attribute and in a normal declaration. *)
  Definition apart (sheets : list rule) (e : elem) (p : prop) : Prop := values p (e_attrs e) = [] \/ declared b_normal sheets e p = [].
  Definition style_once (e : elem) (p : prop) : Prop := match e_style e with Some b => once (b_important b) p /\ once (b_normal b) p | None => True end.
End Css.

(** What an answer says: the value if all conditions hold; if static, the value whatever conditions hold; if none, none whatever conditions hold. *)
Definition agrees (a : option (value * mode)) (c : (nat -> bool) -> option value) : Prop :=
  option_map fst a = c (fun _ => true) /\
  (a = None -> forall on, c on = None) /\
  (forall v, a = Some (v, Static) -> forall on, c on = Some v).

(** Stylesheets in document order. *)
Fixpoint in_order (n : node) : list rule :=
  match n with
  | NStyle rs => rs
  | NElem k => (fix go (l : list node) : list rule := match l with [] => [] | n :: l => in_order n ++ go l end) k
  end.
(** A style element, or an element without any in it. *)
Definition shallow (n : node) : Prop := match n with NElem _ => in_order n = [] | NStyle _ => True end.
