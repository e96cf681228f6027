(** Model of computed styles: crates/oxvg_ast/src/style.rs [ComputedStyles].

    Simplifications: properties and values are numbers, and a presentation attribute is the property of its name, so that the conversions between
    [PropertyId] and [AttrId] (style.rs:381-401) are left out, and with them shorthands and properties no attribute stands for; the maps are
    association lists with the newest entry first; the [unreachable!] arms for attributes in the maps of declarations (style.rs:448, 485) are left out by typing.
    What a selector is and whether it matches an element is an argument. *)
From Coq Require Import String List NArith Bool Arith.
From Verif Require Import Chars.
Import ListNotations.

(** Properties and values (style.rs:119-134). *)
Definition prop := nat.
(** What a property is declared as (style.rs:119-134). *)
Definition value := nat.
(** [Mode] (style.rs:90-97). *)
Inductive mode : Type := Static | Dynamic.
(** A declaration block (lightningcss [DeclarationBlock]): important declarations and normal ones, in order (style.rs:285-306, 488-506). *)
Record block : Type := mkBlock { b_important : list (prop * value); b_normal : list (prop * value) }.
(** A selector of a list: its text and its specificity (style.rs:285-306). *)
Record sel : Type := mkSel { sel_text : text; sel_spec : nat }.
(** Rules (lightningcss [CssRule]): style rules; [@media] and [@container] with their condition; rules that hold other rules
    under a condition as well, which style.rs:316 skips ([@supports], [@layer]). *)
Inductive rule : Type :=
| RStyle (sels : list sel) (b : block)
| RMedia (q : nat) (rs : list rule)
| RSkipped (q : nat) (rs : list rule).
(** An element: what selectors see of it, its presentation attributes and its style attribute (style.rs:203-254). *)
Record elem : Type := mkElem { e_id : nat; e_attrs : list (prop * value); e_style : option block }.

(** A map: [HashMap::get] and [HashMap::insert] (style.rs:126-134, 431-486). *)
Fixpoint find_prop {A} (p : prop) (l : list (prop * A)) : option A :=
  match l with [] => None | (q, a) :: l => if Nat.eqb q p then Some a else find_prop p l end.
(** [HashMap::insert] (style.rs:508-519). *)
Definition insert {A} (p : prop) (a : A) (l : list (prop * A)) : list (prop * A) := (p, a) :: l.
(** [HashMap::extend]: the entries in turn (style.rs:213-251). *)
Definition extend {A} (m l : list (prop * A)) : list (prop * A) := fold_left (fun m x => insert (fst x) (snd x) m) l m.

(** [ComputedStyles] (style.rs:119-134); the specificity kept beside a declaration is never read. *)
Record styles : Type := mkStyles {
  inherited : list (prop * (value * mode));
  declarations : list (prop * (nat * (value * mode)));
  attr : list (prop * value);
  inline : option block;
  important_declarations : list (prop * (nat * (value * mode))) }.
(** Derived [Default] (style.rs:119-134). *)
Definition no_styles : styles := mkStyles [] [] [] None [].
(** style.rs:508-519 [set_declarations]. *)
Definition set_declarations (record : list (prop * (nat * (value * mode)))) (ds : list (prop * value)) (spec : nat) (m : mode) : list (prop * (nat * (value * mode))) :=
  fold_left (fun r d => insert (fst d) (spec, (snd d, m)) r) ds record.
(** style.rs:488-506 [add_declarations]. *)
Definition add_declarations (s : styles) (b : block) (spec : nat) (m : mode) : styles :=
  mkStyles (inherited s) (set_declarations (declarations s) (b_normal b) spec m) (attr s) (inline s)
           (set_declarations (important_declarations s) (b_important b) spec m).

Section Select.
  (** [Selector::new] and [matches_naive] (crates/oxvg_ast/src/selectors.rs:273-284, 308-310): [None] if the text is not a selector it can read. *)
  Variable select : text -> elem -> option bool.

  (** style.rs:285-306: the selectors of one style rule. [stack]: the vector [selector], the last pushed at the end; it is left with what [continue] does not pop. *)
  Fixpoint style_rule (e : elem) (b : block) (m : mode) (specificity : nat) (sels : list sel) (stack : list text) (s : styles) : option (styles * list text) :=
    match sels with
    | [] => Some (s, stack)
    | x :: sels =>
        let pushed := stack ++ [sel_text x] in
        match select (concat pushed) e with
        | None => None
        | Some false => style_rule e b m specificity sels pushed s
        | Some true => style_rule e b m specificity sels stack (add_declarations s b (specificity + sel_spec x) m)
        end
    end.
  (** style.rs:275-319 [with_nested_style]; [None]: [BadSelector]. *)
  Fixpoint with_nested_style (e : elem) (r : rule) (specificity : nat) (m : mode) (stack : list text) (s : styles) : option (styles * list text) :=
    match r with
    | RStyle sels b => style_rule e b m specificity sels stack s
    | RMedia _ rs =>
        (fix go (rs : list rule) (stack : list text) (s : styles) : option (styles * list text) :=
           match rs with
           | [] => Some (s, stack)
           | r :: rs => match with_nested_style e r specificity Dynamic stack s with
                        | Some (s, stack) => go rs stack s
                        | None => None
                        end
           end) rs stack s
    | RSkipped _ _ => Some (s, stack)
    end.
  (** style.rs:261-272 [with_style]: each rule of each stylesheet, with a new vector. *)
  Fixpoint with_style (e : elem) (rs : list rule) (s : styles) : option styles :=
    match rs with
    | [] => Some s
    | r :: rs => match with_nested_style e r 0 Static [] s with
                 | Some (s, _) => with_style e rs s
                 | None => None
                 end
    end.
  (** style.rs:336-344 [with_inline_style]. *)
  Definition with_inline_style (e : elem) (s : styles) : styles :=
    match e_style e with
    | Some b => mkStyles (inherited s) (declarations s) (attr s) (Some b) (important_declarations s)
    | None => s
    end.
  (** style.rs:322-334 [with_attribute]. *)
  Definition with_attribute (e : elem) (s : styles) : styles :=
    mkStyles (inherited s) (declarations s) (e_attrs e) (inline s) (important_declarations s).
  (** [into_iter] of a map, in some order: here each entry that counts, the oldest first (style.rs:213-251). *)
  Definition entries {A B} (f : A -> B) (l : list (prop * A)) : list (prop * B) := map (fun x => (fst x, f (snd x))) (rev l).
  (** style.rs:213-251: what the parent hands down, in this order. *)
  Definition inherit_from (parent : styles) (s : styles) : styles :=
    let static l := map (fun x : prop * value => (fst x, (snd x, Static))) l in
    let i := extend (inherited s) (entries (fun x => x) (inherited parent)) in
    let i := extend i (entries snd (declarations parent)) in
    let i := extend i (static (attr parent)) in
    let i := extend i (static (match inline parent with Some b => b_normal b | None => [] end)) in
    let i := extend i (entries snd (important_declarations parent)) in
    let i := extend i (static (match inline parent with Some b => b_important b | None => [] end)) in
    mkStyles i (declarations s) (attr s) (inline s) (important_declarations s).
  (** style.rs:187-196 [with_all] and 203-254 [with_inherited], on [default()]: the element and its ancestors, nearest first. *)
  Fixpoint with_all (sheets : list rule) (chain : list elem) : option styles :=
    match chain with
    | [] => Some no_styles
    | e :: rest =>
        match with_style e sheets (with_attribute e (with_inline_style e no_styles)) with
        | None => None
        | Some s =>
            match rest with
            | [] => Some s
            | _ => match with_all sheets rest with Some parent => Some (inherit_from parent s) | None => None end
            end
        end
    end.
End Select.

Section Get.
  (** [AttributeInfo::Inheritable] of a presentation attribute (crates/oxvg_collections/src/attribute.rs). *)
  Variable inheritable : prop -> bool.
  (** The first of two options that is there (style.rs:379-401). *)
  Definition or_else {A} (a b : option A) : option A := match a with Some _ => a | None => b end.
  (** [Style::Static] (style.rs:90-97, 467-474). *)
  Definition as_static (v : option value) : option (value * mode) := option_map (fun v => (v, Static)) v.
  (** style.rs:431-464 [get_from_css_high_priori]. *)
  Definition get_high (s : styles) (p : prop) : option (value * mode) :=
    or_else (match inline s with Some b => as_static (find_prop p (b_important b)) | None => None end)
   (or_else (option_map snd (find_prop p (important_declarations s)))
            (match inline s with Some b => as_static (find_prop p (b_normal b)) | None => None end)).
  (** style.rs:476-486 [get_from_css_low_priori]. *)
  Definition get_low (s : styles) (p : prop) : option (value * mode) := option_map snd (find_prop p (declarations s)).
  (** style.rs:467-474 [get_from_attr]. *)
  Definition get_attr (s : styles) (p : prop) : option (value * mode) := as_static (find_prop p (attr s)).
  (** style.rs:348-371 [get_inherited]. *)
  Definition get_inherited (s : styles) (p : prop) : option (value * mode) := if inheritable p then find_prop p (inherited s) else None.
  (** style.rs:379-401 [get]. *)
  Definition get (s : styles) (p : prop) : option (value * mode) :=
    or_else (get_high s p) (or_else (get_low s p) (or_else (get_attr s p) (get_inherited s p))).
End Get.

(** ** Where the stylesheets come from *)
(** Elements of a document: a style element with its rules, or another one (style.rs:138-144). *)
Inductive node : Type := NStyle (rs : list rule) | NElem (kids : list node).
(** style.rs:138-144 [root], with [breadth_first] (crates/oxvg_ast/src/element.rs:705-708): the style elements level by level, with fuel for the levels.
    Simplification: one node stands for a style element and the rules that are its first child. *)
Fixpoint levels (fuel : nat) (l : list node) : option (list rule) :=
  match l with
  | [] => Some []
  | _ =>
      match fuel with
      | 0 => None
      | S fuel =>
          option_map (app (flat_map (fun n => match n with NStyle rs => rs | NElem _ => [] end) l))
                     (levels fuel (flat_map (fun n => match n with NStyle _ => [] | NElem k => k end) l))
      end
  end.
