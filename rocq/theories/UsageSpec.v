(** Which rules apply to which elements (Selectors 4, 3.1-3.4 and 16; CSS Cascade 4, 6). *)
From Coq Require Import String List NArith Bool Arith.
From Verif Require Import Chars TextModel UsageModel.
Import ListNotations.

(** What selectors see of an element. [f_key] stands for all else, except the style attribute. *)
Record face : Type := mkFace { f_key : nat; f_name : text; f_id : option text; f_classes : list text }.
Definition face_of (i : info) : face := mkFace (i_key i) (i_name i) (i_id i) (i_classes i).
(** An element where it stands: itself, its siblings before it, the nearest first, and the same for its parent. *)
Inductive place : Type := Root (f : face) | Inside (f : face) (before : list face) (p : place).
Definition itself (p : place) : face := match p with Root f | Inside f _ _ => f end.
Definition parent (p : place) : option place := match p with Root _ => None | Inside _ _ p => Some p end.
Definition previous (p : place) : option place :=
  match p with Inside _ (f :: before) q => Some (Inside f before q) | _ => None end.
(** The elements in document order. *)
Definition info_of (n : node) : info := match n with El i _ | Sheet i _ => i end.
Fixpoint elements (here : face -> place) (n : node) {struct n} : list (info * place) :=
  match n with
  | Sheet i _ => [(i, here (face_of i))]
  | El i kids =>
      let p := here (face_of i) in
      (i, p) :: (fix go (before : list face) (l : list node) : list (info * place) :=
         match l with
         | [] => []
         | k :: l => elements (fun f => Inside f before p) k ++ go (face_of (info_of k) :: before) l
         end) [] kids
  end.
Definition document (n : node) : list (info * place) := elements Root n.
(** The stylesheets in document order. *)
Fixpoint sheets (n : node) : list (list rule) :=
  match n with
  | Sheet _ rs => [rs]
  | El _ kids => flat_map sheets kids
  end.

Section Css.
  (** The other simple selectors: anything. *)
  Variable other : nat -> place -> bool.
  Definition has (c : component) (p : place) : Prop :=
    match c with
    | CLocal t => f_name (itself p) = t
    | CId t => f_id (itself p) = Some t
    | CClass t => In t (f_classes (itself p))
    | COther k => other k p = true
    end.
  Inductive related : combinator -> place -> place -> Prop :=
  | r_child p q : parent p = Some q -> related Child p q
  | r_near p q : parent p = Some q -> related Descendant p q
  | r_far p q r : parent p = Some q -> related Descendant q r -> related Descendant p r
  | r_next p q : previous p = Some q -> related NextSibling p q
  | r_before p q : previous p = Some q -> related LaterSibling p q
  | r_earlier p q r : previous p = Some q -> related LaterSibling q r -> related LaterSibling p r.
  Fixpoint matches (s : selector) (p : place) : Prop :=
    match s with
    | Last c => c <> [] /\ forall x, In x c -> has x p
    | More c k s => c <> [] /\ (forall x, In x c -> has x p) /\ exists q, related k p q /\ matches s q
    end.

  (** A selector with its block and the conditions around it. *)
  Definition single : Type := list nat * selector * list nat.
  Fixpoint singles (conds : list nat) (r : rule) : list single :=
    match r with
    | RStyle sels b => map (fun s => (conds, s, b)) sels
    | RHolds q rs => (fix go (l : list rule) : list single := match l with [] => [] | r :: l => singles (q :: conds) r ++ go l end) rs
    end.
  Definition all_singles (rs : list rule) : list single := flat_map (singles []) rs.
  (** [l] are those of the rules that apply, in order. *)
  Inductive applying (p : place) : list single -> list single -> Prop :=
  | a_none : applying p [] []
  | a_yes c s b l m : matches s p -> applying p l m -> applying p ((c, s, b) :: l) ((c, s, b) :: m)
  | a_no c s b l m : ~ matches s p -> applying p l m -> applying p ((c, s, b) :: l) m.
  Definition applied (p : place) (l : list (list rule)) (m : list single) : Prop := applying p (all_singles (concat l)) m.
End Css.

(** What minification may do: nothing that can be seen, whatever is looked at ([see]). *)
Definition invisible {V} (other : nat -> place -> bool) (see : place -> list single -> V) (minify : list rule -> list rule) : Prop :=
  forall p rs a b m m', applying other p (all_singles rs) m -> applying other p (all_singles (minify rs)) m' -> see p (a ++ m' ++ b) = see p (a ++ m ++ b).

(** A script is in the document: an element, a handler, or a link. *)
Definition javascript (t : text) : Prop := exists rest, trim_start t = lit "javascript:" ++ rest.
Definition runs_script (i : info) : Prop :=
  i_svg i = true /\ (i_name i = lit "script" \/ i_handler i = true \/ (i_name i = lit "a" /\ exists h, (i_href i = Some h \/ i_xlink i = Some h) /\ javascript h)).
(** Elements other than stylesheets. *)
Inductive within (i : info) : node -> Prop :=
| w_self kids : within i (El i kids)
| w_kid j kids k : In k kids -> within i k -> within i (El j kids).
(** The same element but for its style attribute, which is minified or the same. *)
Definition same_but_style (minify_block : list nat -> list nat) (a b : info * place) : Prop :=
  snd b = snd a /\
  (i_style (fst b) = i_style (fst a) \/
   exists l, i_style (fst a) = Declared l /\ i_style (fst b) = match minify_block l with [] => NoStyle | _ => Declared (minify_block l) end).
(** Some simple selector is of another kind or is true of some SVG element of the document. *)
Fixpoint simple (s : selector) : list component := match s with Last c => c | More c _ s => c ++ simple s end.
Definition hit (n : node) (s : selector) : Prop :=
  exists c, In c (simple s) /\ ((exists k, c = COther k) \/ exists i p, In (i, p) (document n) /\ i_svg i = true /\ has (fun _ _ => false) c p).
