(** What users expect of files and exit statuses. *)
From Coq Require Import String List NArith Bool Arith.
From Verif Require Import Chars ShellModel.
Import ListNotations.

(** What is in a file (as commands see it at walk.rs:172). *)
Definition file_at (s : fs) (p : path) : option bytes := match get s p with Some (File b) => Some b | _ => None end.
(** A file system: one entry for each path, and what is above an entry is a directory (walk.rs:148). *)
Definition tree (s : fs) : Prop :=
  NoDup (map fst s) /\ ~ In [] (map fst s) /\ forall p q r, In p (map fst s) -> p = q ++ r -> r <> [] -> get s q = Some Dir.
(** A file name as for svg documents (walk.rs:166). *)
Definition svg_name (n : text) : Prop := exists stem, stem <> [] /\ n = stem ++ lit ".svg".
(** The files that the options ask for below a path (walk.rs:18-50, the documentation of the options). *)
Definition chosen (ignored : path -> bool) (o : options) (s : fs) (root p rel : path) : Prop :=
  p = root ++ rel /\ svg_name (last p []) /\ file_at s p <> None /\
  (o_recursive o = false -> List.length rel <= 1) /\
  (o_hidden o = false -> forall n, In n rel -> forall r, n <> 46%N :: r) /\
  (o_no_ignore o = false -> rel <> [] -> ignored p = false).
(** Whether a file can be written (walk.rs:70-73). *)
Definition creatable (denied : path -> bool) (s : fs) (q : path) : Prop :=
  q <> [] /\ denied q = false /\ get s q <> Some Dir /\
  forall a b, q = a ++ b -> a <> [] -> b <> [] -> get s a = Some Dir \/ (get s a = None /\ denied a = false).
(** No file that is asked for lies where the result for another goes (walk.rs:136-147). *)
Definition apart (ignored : path -> bool) (o : options) (s : fs) (root out : path) : Prop :=
  forall p rel p' rel', chosen ignored o s root p rel -> chosen ignored o s root p' rel' -> out ++ rel = p' -> p' = p.
Section Documents.
  Variable D : Type.
  Variable parse : text -> option D.
  Variable serialise : D -> text * bool.
  Variable work : D -> option D.
  (** The text a document becomes (commands/optimise.rs:75-101). *)
  Definition becomes (t r : text) : Prop := exists d d', parse t = Some d /\ work d = Some d' /\ fst (serialise d') = r.
  (** A document that cannot be handled (commands/optimise.rs:75-101). *)
  Definition fails (t : text) : Prop := parse t = None \/ exists d, parse t = Some d /\ work d = None.
  (** A document that cannot be written to the end (commands/optimise.rs:100). *)
  Definition breaks (t : text) : Prop := exists d d', parse t = Some d /\ work d = Some d' /\ snd (serialise d') = false.
  (** What the commands that write documents leave behind (args.rs:40-57). *)
  Definition leaves ignored denied shuffle (o : options) (terminal : bool) (stdin : option text) (s : fs) (w : world) : Prop :=
    w = fst (optimise ignored denied shuffle D parse serialise work o terminal stdin s) \/
    (work = (fun d => Some d) /\ w = fst (format ignored denied shuffle D parse serialise o terminal stdin s)) \/
    w = fst (action ignored denied shuffle D parse serialise (Some work) o terminal stdin s).
End Documents.
