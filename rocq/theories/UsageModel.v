(** Model of the job minifyStyles (crates/oxvg_optimiser/src/jobs/minify_styles.rs).

    Simplifications: minification itself (lightningcss, reached through crates/oxvg_optimiser/src/utils/minify_style.rs:10-23) is an argument; so is whether the text of a
    style attribute can be read.  Rules nested in style rules, which the job leaves alone, are not modelled. Ids are as read: one with white space in it is not
    (crates/oxvg_collections/src/attribute/core_attrs.rs:41-56). The maps of elements, which are gone through in no fixed order, are the tree itself: what is done to one
    element does not depend on the others. *)
From Coq Require Import String List NArith Bool Arith.
From Verif Require Import Chars TextModel.
Import ListNotations.

(** A simple selector (lightningcss [Component]); all but three kinds are the same to the job (minify_styles.rs:217-222). *)
Inductive component : Type := CLocal (t : text) | CId (t : text) | CClass (t : text) | COther (k : nat).
(** Combinators (lightningcss [Combinator]); the job steps over them (minify_styles.rs:226). *)
Inductive combinator : Type := Descendant | Child | NextSibling | LaterSibling.
(** A selector, the rightmost compound first, as [Selector::iter] and [next_sequence] give them (minify_styles.rs:216-226). *)
Inductive selector : Type := Last (c : list component) | More (c : list component) (k : combinator) (s : selector).
(** Rules (lightningcss [CssRule]): style rules with selectors and declarations, and others, which may hold rules under a condition (minify_styles.rs:206-209). *)
Inductive rule : Type := RStyle (sels : list selector) (block : list nat) | RHolds (q : nat) (rs : list rule).

(** A style attribute: none; one that could not be read (crates/oxvg_collections/src/attribute.rs:410-418); its declarations (minify_styles.rs:121, 186-193). *)
Inductive style_attr : Type := NoStyle | Unread (t : text) | Declared (l : list nat).
(** What the job sees of an element (minify_styles.rs:112-150) and of its attributes (crates/oxvg_ast/src/visitor.rs:386-401). [i_key] stands for all else. *)
Record info : Type := mkInfo {
  i_key : nat;
  i_svg : bool;                    (** in the SVG namespace *)
  i_name : text;                   (** local name *)
  i_id : option text;
  i_classes : list text;
  i_style : style_attr;
  i_handler : bool;                (** has an attribute of the event groups *)
  i_href : option text;
  i_xlink : option text }.
(** Elements; a [style] element with a stylesheet in it is one of the second kind (minify_styles.rs:117-120, 157-160). *)
Inductive node : Type := El (i : info) (kids : list node) | Sheet (i : info) (rules : list rule).

(** ** What is used *)
(** The three sets (minify_styles.rs:78-80). *)
Record usage : Type := mkUsage { u_tags : list text; u_ids : list text; u_classes : list text }.
(** minify_styles.rs:131-149: what one element adds. *)
Definition record (i : info) (u : usage) : usage :=
  if negb (i_svg i) then u
  else mkUsage (i_name i :: u_tags u) (match i_id i with Some t => t :: u_ids u | None => u_ids u end) (i_classes i ++ u_classes u).
(** The walk (crates/oxvg_ast/src/visitor.rs:312-375): each element in turn. *)
Fixpoint record_all (n : node) (u : usage) {struct n} : usage :=
  match n with
  | El i kids => fold_left (fun u k => record_all k u) kids (record i u)
  | Sheet i _ => record i u
  end.
(** [HashSet::contains] (minify_styles.rs:218-220). *)
Definition mem (t : text) (l : list text) : bool := existsb (text_eqb t) l.
(** The closure at minify_styles.rs:217-222. *)
Definition in_use (u : usage) (c : component) : bool :=
  match c with
  | CLocal t => mem t (u_tags u)
  | CId t => mem t (u_ids u)
  | CClass t => mem t (u_classes u)
  | COther _ => true
  end.
(** minify_styles.rs:215-238: the closure of [retain]. *)
Fixpoint retained (u : usage) (s : selector) : bool :=
  match s with
  | Last c => existsb (in_use u) c
  | More c _ s => existsb (in_use u) c || retained u s
  end.
(** minify_styles.rs:206-240 [visit_rule]: rules other than style rules are not entered. *)
Definition visit_rule (u : usage) (r : rule) : rule :=
  match r with
  | RStyle sels b => RStyle (filter (retained u) sels) b
  | RHolds q rs => RHolds q rs
  end.

(** ** Scripts *)
(** crates/oxvg_ast/src/visitor.rs:390-399: the closure of [any]. *)
Definition scripted (i : info) : bool :=
  (i_svg i && text_eqb (i_name i) (lit "script")) ||
  match i_href i with
  | Some h => i_svg i && text_eqb (i_name i) (lit "a") && starts_with (lit "javascript:") (trim_start h)
  | None => false
  end || i_handler i.
(** crates/oxvg_ast/src/visitor.rs:386-401 [has_scripts], from the document, which is no element here. *)
Fixpoint has_scripts (n : node) : bool :=
  match n with
  | El i kids => scripted i || existsb has_scripts kids
  | Sheet i _ => scripted i
  end.

(** ** The job *)
(** [RemoveUnused] (minify_styles.rs:36-48). *)
Inductive remove_unused : Type := RuFalse | RuTrue | RuForce.
(** minify_styles.rs:163-175: whether the rules are gone through. *)
Definition sweeps (o : remove_unused) (scripts : bool) : bool :=
  match o with RuTrue => negb scripts | RuForce => true | RuFalse => false end.

Section Job.
  (** [minify_style::style_list] and [minify_style::style] (crates/oxvg_optimiser/src/utils/minify_style.rs:10-23).
      Simplification: the first does not fail. *)
  Variable minify : list rule -> list rule.
  Variable minify_block : list nat -> list nat.

  (** minify_styles.rs:185-195, for an element that has the attribute (line 121); [None]: the panic at line 187. *)
  Definition minify_attr (s : style_attr) : option style_attr :=
    match s with
    | NoStyle => Some NoStyle
    | Unread _ => None
    | Declared l => match minify_block l with [] => Some NoStyle | l => Some (Declared l) end
    end.
  (** The element with another style attribute (minify_styles.rs:189-194). *)
  Definition with_style (i : info) (s : style_attr) : info :=
    mkInfo (i_key i) (i_svg i) (i_name i) (i_id i) (i_classes i) s (i_handler i) (i_href i) (i_xlink i).
  (** minify_styles.rs:152-197 [exit_document], on one node and those in it: what it becomes, [Some None] if it is removed, [None] on a panic. *)
  Fixpoint finish (u : option usage) (n : node) {struct n} : option (option node) :=
    match n with
    | Sheet i rs =>
        let rs := minify (match u with Some u => map (visit_rule u) rs | None => rs end) in
        Some (match rs with [] => None | _ => Some (Sheet i rs) end)
    | El i kids =>
        match minify_attr (i_style i) with
        | None => None
        | Some s =>
            match (fix go (l : list node) : option (list node) :=
                     match l with
                     | [] => Some []
                     | k :: l => match finish u k, go l with
                                 | Some (Some k), Some l => Some (k :: l)
                                 | Some None, Some l => Some l
                                 | _, _ => None
                                 end
                     end) kids with
            | Some kids => Some (Some (El (with_style i s) kids))
            | None => None
            end
        end
    end.
  (** minify_styles.rs:88-109: [prepare] of both. *)
  Definition run (o : remove_unused) (n : node) : option (option node) :=
    finish (if sweeps o (has_scripts n) then Some (record_all n (mkUsage [] [] [])) else None) n.
End Job.
