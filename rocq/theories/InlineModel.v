(** Model of inlineStyles (crates/oxvg_optimiser/src/jobs/inline_styles.rs).

    Simplifications: names, classes, ids and values are numbers, and a presentation attribute has the number of its property; a document is a list of elements,
    and what the part of a selector before its last combinator asks for is an argument ([context]); [use_mqs] and [use_pseudos] are as by default;
    selectors with pseudo-elements, rules within style rules, and style elements of another type or in foreign objects are left out;
    [minify_style] is taken to keep what declarations say. *)
From Coq Require Import List Bool Arith.
From Verif Require Import CascadeModel.
Import ListNotations.

(** [Token] (inline_styles.rs:140-159) from a component of a selector (161-214).  [TNot]: [:not(.c)], a token that is preserved (196-211);
    [TPseudo]: another pseudo-class; [TClassAttr]: an attribute selector for the whole of [class]. *)
Inductive token : Type := TClass (c : nat) | TId (i : nat) | TAttr (p : prop) (v : option value) | TName (n : nat) | TNot (c : nat) | TPseudo (n : nat) | TClassAttr (l : list nat).
(** Lists of numbers that are the same (inline_styles.rs:140, derived [Eq]). *)
Fixpoint list_eqb (a b : list nat) : bool :=
  match a, b with [], [] => true | x :: a, y :: b => Nat.eqb x y && list_eqb a b | _, _ => false end.
(** Derived [Eq] of tokens (inline_styles.rs:140). *)
Definition token_eqb (a b : token) : bool :=
  match a, b with
  | TClass c, TClass d => Nat.eqb c d
  | TId c, TId d => Nat.eqb c d
  | TAttr p v, TAttr q w => Nat.eqb p q && match v, w with None, None => true | Some v, Some w => Nat.eqb v w | _, _ => false end
  | TName c, TName d => Nat.eqb c d
  | TNot c, TNot d => Nat.eqb c d
  | TPseudo c, TPseudo d => Nat.eqb c d
  | TClassAttr l, TClassAttr m => list_eqb l m
  | _, _ => false
  end.
(** [HashSet::contains] (inline_styles.rs:355, 527-531). *)
Definition has (l : list token) (t : token) : bool := existsb (token_eqb t) l.
(** A selector: what is after its last combinator, what is before it, the kinds of its combinators, and its specificity (inline_styles.rs:524-564). *)
Record selector : Type := mkSelector { tail : list token; before : list (list token); kinds : nat; spec : nat }.
(** [CssRule] (inline_styles.rs:513-521, 589-624): style rules and those that hold others under a condition. *)
Inductive srule : Type := SRule (sels : list selector) (b : block) | SMedia (q : nat) (rs : list srule).
(** A style element: its [media] attribute, and its rules (inline_styles.rs:263-300; the attribute is not read). *)
Record sheet : Type := mkSheet { media : option nat; rules : list srule }.
(** An element: its name, classes, id, other attributes and style attribute (inline_styles.rs:318-369, 458-477). *)
Record element : Type := mkElement { el_name : nat; classes : list nat; id : option nat; attrs : list (prop * value); style : option block }.
(** [InlineStyles] (inline_styles.rs:65-83). [remove_matched] is not read. *)
Record options : Type := mkOptions { matched_once : bool; remove_matched : bool }.
(** inline_styles.rs:705-710. *)
Definition default_options : options := mkOptions true true.

(** inline_styles.rs:455-490, and what the selectors crate says about one compound selector. *)
Definition holds (e : element) (t : token) : bool :=
  match t with
  | TClass c => existsb (Nat.eqb c) (classes e)
  | TId i => match id e with Some j => Nat.eqb i j | None => false end
  | TAttr p v => match find_prop p (attrs e), v with Some w, Some v => Nat.eqb v w | Some _, None => true | None, _ => false end
  | TName n => Nat.eqb n (el_name e)
  | TNot c => negb (existsb (Nat.eqb c) (classes e))
  | TPseudo _ => false
  | TClassAttr l => list_eqb (classes e) l
  end.
(** A selector that is taken out, for one element ([RemovedToken], inline_styles.rs:37-43). *)
Record inlined : Type := mkInlined { i_element : nat; i_tokens : list token; i_spec : nat; i_block : block }.

Section Job.
  (** Whether an element is in a place the part before the last combinator asks for, from which tokens hold for which element
      (crates/oxvg_ast/src/selectors.rs:227-311). *)
  Variable context : list (list token) -> nat -> (nat -> token -> bool) -> nat -> bool.
  (** The elements of a document by number; no token holds for one that is not there (crates/oxvg_ast/src/element.rs:705-721). *)
  Definition token_holds (d : list element) (i : nat) (t : token) : bool := match nth_error d i with Some e => holds e t | None => false end.
  (** Whether a selector matches an element (crates/oxvg_ast/src/selectors.rs:288-305). *)
  Definition matches (d : list element) (s : selector) (i : nat) : bool :=
    forallb (token_holds d i) (tail s) && match before s with [] => true | b => context b (kinds s) (token_holds d) i end.
  (** inline_styles.rs:549-554: [root.select]. *)
  Definition select (d : list element) (s : selector) : list nat := filter (matches d s) (seq 0 (List.length d)).

  (** inline_styles.rs:642-661 [visit_selector]: tokens that are dynamic. *)
  Definition dynamic_selector (is_media : bool) (s : selector) : list token := (if is_media then tail s else []) ++ concat (before s).
  (** inline_styles.rs:582-632 [FindRemovableTokens::visit_rule], 642-661: the tokens of one rule. *)
  Fixpoint dynamic_rule (is_media : bool) (r : srule) : list token :=
    match r with
    | SRule sels _ => flat_map (dynamic_selector is_media) sels
    | SMedia _ rs => (fix go (l : list srule) : list token := match l with [] => [] | r :: l => dynamic_rule true r ++ go l end) rs
    end.
  (** A pseudo-class that is not preserved (inline_styles.rs:436-453). *)
  Definition is_pseudo (t : token) : bool := match t with TPseudo _ => true | _ => false end.
  (** inline_styles.rs:420-503 [is_selector_removable]. *)
  Definition removable (o : options) (d : list element) (s : selector) (found : list nat) : bool :=
    match before s with
    | _ :: _ => false
    | [] =>
        if existsb is_pseudo (tail s) then false
        else
          let n := List.length (filter (fun i => forallb (token_holds d i) (tail s)) found) in
          if matched_once o then Nat.eqb n 1 else Nat.ltb 0 n
    end.
  (** [dynamically_referenced] and [inlines] (inline_styles.rs:98-105). *)
  Definition state : Type := (list token * list inlined)%type.
  (** inline_styles.rs:524-567: the selectors of a rule in turn; those that are retained, and the new state. *)
  Fixpoint retain (o : options) (d : list element) (b : block) (sels : list selector) (st : state) : list selector * state :=
    match sels with
    | [] => ([], st)
    | s :: sels =>
        if existsb (has (fst st)) (tail s)
        then let '(l, st) := retain o d b sels (fst st ++ tail s ++ concat (before s), snd st) in (s :: l, st)
        else
          let found := select d s in
          if removable o d s found
          then retain o d b sels (fst st, snd st ++ map (fun i => mkInlined i (tail s) (spec s) b) found)
          else let '(l, st) := retain o d b sels st in (s :: l, st)
    end.
  (** inline_styles.rs:513-572 [CollectMatchingSelectors::visit_rule]. *)
  Fixpoint collect (o : options) (d : list element) (r : srule) (st : state) : srule * state :=
    match r with
    | SRule sels b => let '(l, st) := retain o d b sels st in (SRule l (match l with [] => mkBlock [] [] | _ => b end), st)
    | SMedia q rs =>
        let '(l, st) := (fix go (l : list srule) (st : state) : list srule * state :=
                           match l with
                           | [] => ([], st)
                           | r :: l => let '(r, st) := collect o d r st in let '(l, st) := go l st in (r :: l, st)
                           end) rs st in
        (SMedia q l, st)
    end.
  (** The rules in turn (inline_styles.rs:391-396). *)
  Fixpoint collect_all (o : options) (d : list element) (rs : list srule) (st : state) : list srule * state :=
    match rs with
    | [] => ([], st)
    | r :: rs => let '(r, st) := collect o d r st in let '(l, st) := collect_all o d rs st in (r :: l, st)
    end.
  (** inline_styles.rs:384-399 [inline_rules], 285-296: one style element; what it adds. *)
  Definition inline_rules (o : options) (d : list element) (s : sheet) : sheet * state :=
    let '(l, st) := collect_all o d (rules s) (flat_map (dynamic_rule false) (rules s), []) in (mkSheet (media s) l, st).
  (** inline_styles.rs:263-300: the style elements in turn. *)
  Fixpoint inline_sheets (o : options) (d : list element) (ss : list sheet) : list sheet * state :=
    match ss with
    | [] => ([], ([], []))
    | s :: ss =>
        let '(s', st) := inline_rules o d s in
        let '(ss', sts) := inline_sheets o d ss in
        (s' :: ss', (fst st ++ fst sts, snd st ++ snd sts))
    end.

  (** [sort_by_key] (Rust [std], stable; used at inline_styles.rs:319). *)
  Fixpoint insert_by (x : inlined) (l : list inlined) : list inlined :=
    match l with
    | [] => [x]
    | y :: l => if i_spec y <? i_spec x then y :: insert_by x l else x :: y :: l
    end.
  (** [sort_by_key] (inline_styles.rs:319). *)
  Fixpoint sort (l : list inlined) : list inlined := match l with [] => [] | x :: l => insert_by x (sort l) end.
  (** inline_styles.rs:321-338: the declarations that are taken over, then those there were. *)
  Definition merged (group : list inlined) (old : option block) : block :=
    let old := match old with Some b => b | None => mkBlock [] [] end in
    mkBlock (flat_map (fun x => b_important (i_block x)) group ++ b_important old) (flat_map (fun x => b_normal (i_block x)) group ++ b_normal old).
  (** inline_styles.rs:340-343, 671-691: attributes that are named like a property, unless an attribute selector is dynamic. *)
  Definition drop_attrs (dyn : list token) (b : block) (l : list (prop * value)) : list (prop * value) :=
    filter (fun a => existsb (fun t => match t with TAttr p _ => Nat.eqb p (fst a) | _ => false end) dyn
                     || negb (existsb (fun x => Nat.eqb (fst x) (fst a)) (b_important b ++ b_normal b))) l.
  (** inline_styles.rs:350-369: classes and the id that were selected by. *)
  Definition drop_token (dyn : list token) (referenced : list nat) (e : element) (t : token) : element :=
    if has dyn t then e
    else
      match t with
      | TClass c => mkElement (el_name e) (filter (fun x => negb (Nat.eqb c x)) (classes e)) (id e) (attrs e) (style e)
      | TId i => if existsb (Nat.eqb i) referenced then e else mkElement (el_name e) (classes e) None (attrs e) (style e)
      | _ => e
      end.
  (** inline_styles.rs:318-370: one element. *)
  Definition finish (dyn : list token) (referenced : list nat) (group : list inlined) (e : element) : element :=
    match group with
    | [] => e
    | _ =>
        let group := sort group in
        let b := merged group (style e) in
        let e := mkElement (el_name e) (classes e) (id e) (drop_attrs dyn b (attrs e)) (match b with mkBlock [] [] => None | _ => Some b end) in
        fold_left (drop_token dyn referenced) (flat_map i_tokens group) e
    end.
  (** The elements in turn (inline_styles.rs:314-370). *)
  Fixpoint finish_all (dyn : list token) (referenced : list nat) (l : list inlined) (i : nat) (d : list element) : list element :=
    match d with
    | [] => []
    | e :: d => finish dyn referenced (filter (fun x => Nat.eqb (i_element x) i) l) e :: finish_all dyn referenced l (S i) d
    end.
  (** The job (inline_styles.rs:240-373); [referenced]: ids in attributes of the document (248-262). *)
  Definition run (o : options) (referenced : list nat) (d : list element) (ss : list sheet) : list element * list sheet :=
    let '(ss', (dyn, l)) := inline_sheets o d ss in (finish_all dyn referenced l 0 d, ss').
End Job.
