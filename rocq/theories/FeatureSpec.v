From Coq Require Import String List NArith Bool Permutation.
From Verif Require Import Chars ParseModel FeatureModel.
Import ListNotations.
Open Scope list_scope.

(** The words of a text: what is between white space, [word] being the beginning of the word that is being read, turned round. *)
Fixpoint split (word : text) (t : text) : list text :=
  match t with
  | [] => match word with [] => [] | _ => [rev word] end
  | c :: t =>
      if is_whitespace c then match word with [] => split [] t | _ => rev word :: split [] t end
      else split (c :: word) t
  end.
Definition words (t : text) : list text := split [] t.

(** The same words, in whatever order: in the value of [font-variant] the order has no meaning. *)
Definition same_words (a b : text) : Prop := Permutation (words a) (words b).

(** A text that is read. *)
Definition reads (t : text) (v : variant) : Prop := exists q, read_variant t = Ok v q.

(** What the language allows beside [normal] and [none] (CSS Fonts, 6.11): one or more words, no two of which are choices of the
    same feature. *)
Definition features : list (list string) :=
  [["common-ligatures"; "no-common-ligatures"]; ["discretionary-ligatures"; "no-discretionary-ligatures"];
   ["historical-ligatures"; "no-historical-ligatures"]; ["contextual"; "no-contextual"];
   ["small-caps"; "all-small-caps"; "petite-caps"; "all-petite-caps"; "unicase"; "titling-caps"];
   ["lining-nums"; "oldstyle-nums"]; ["proportional-nums"; "tabular-nums"]; ["diagonal-fractions"; "stacked-fractions"]; ["ordinal"]; ["slashed-zero"];
   ["jis78"; "jis83"; "jis90"; "jis04"; "simplified"; "traditional"]; ["full-width"; "proportional-width"]; ["ruby"];
   ["sub"; "super"]; ["text"; "emoji"; "unicode"]]%string.
Definition choice (f : nat) (w : text) : Prop := exists ks, nth_error features f = Some ks /\ In w (map lit ks).
Definition allowed (ws : list text) : Prop :=
  ws <> [] /\ exists fs, NoDup fs /\ Forall2 choice fs ws.

(** The families the features belong to: ligatures, capitals, figures, East Asian forms, position, emoji. *)
Definition families : list (list nat) := [[0; 1; 2; 3]; [4]; [5; 6; 7; 8; 9]; [10; 11; 12]; [13]; [14]].
(** At most one word of each family, in the order of the families. *)
Fixpoint in_turn (fams : list (list nat)) (ws : list text) : Prop :=
  match fams with
  | [] => ws = []
  | fam :: fams => in_turn fams ws \/ exists w ws', ws = w :: ws' /\ (exists f, In f fam /\ choice f w) /\ in_turn fams ws'
  end.
Definition ascii (t : text) : Prop := Forall (fun c => (c < 128)%N) t.
