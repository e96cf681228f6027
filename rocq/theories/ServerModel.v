(** Model of the language server: crates/oxvg/src/commands/lint/lsp.rs; lines without a file are of this one.

    Simplifications: a text is a list of code points; the parser and the rules are a parameter; notifications are handled one after the other; the
    methods of the trait that are not written here have the default of tower_lsp_server: nothing for notifications, an error for requests. *)
From Coq Require Import List NArith Bool Arith.
From Verif Require Import TextModel.
Import ListNotations.

(** The bytes of a code point ([str::as_bytes], 36-37). *)
Definition encode (c : N) : list N :=
  if (c <? 128)%N then [c]
  else if (c <? 2048)%N then [192 + c / 64; 128 + c mod 64]%N
  else if (c <? 65536)%N then [224 + c / 4096; 128 + c / 64 mod 64; 128 + c mod 64]%N
  else [240 + c / 262144; 128 + c / 4096 mod 64; 128 + c / 64 mod 64; 128 + c mod 64]%N.
(** [source.as_bytes()] (36-37). *)
Definition bytes_of (t : list N) : list N := flat_map encode t.

(** [Severity] (49-53). *)
Inductive severity := Off | Warn | Err.
(** [Error] (24-30): the problem as it is displayed, and its range of bytes. *)
Record problem := Problem { p_text : list N; p_severity : severity; p_range : option (nat * nat); p_help : option (list N) }.
(** [DiagnosticSeverity] (51-52). *)
Inductive level := WARNING | ERROR.
(** [Range] (38-41): lines and columns of start and end. *)
Record range := Range { r_start : N * N; r_end : N * N }.
(** [Diagnostic] (47-64) with its [related_information] (56-64); the source is always the same (55). *)
Record diagnostic := Diagnostic { d_range : range; d_severity : option level; d_message : list N; d_related : option (N * range * list N) }.

(** [as u32] (39-40). *)
Definition as_u32 (n : nat) : N := (N.of_nat n mod 4294967296)%N.
(** [error_to_diagnostic] (23-66); [None] is the panic of [to_line_and_col]. *)
Definition error_to_diagnostic (source : list N) (uri : N) (e : problem) : option diagnostic :=
  let range :=
    match p_range e with
    | Some (s, t) =>
        match to_line_and_col s (bytes_of source), to_line_and_col t (bytes_of source) with
        | Some a, Some b => Some (Range (as_u32 (fst a), as_u32 (snd a)) (as_u32 (fst b), as_u32 (snd b)))
        | _, _ => None
        end
    | None => Some (Range (0, 0)%N (0, 0)%N)
    end in
  match range with
  | None => None
  | Some r => Some (Diagnostic r (match p_severity e with Off => None | Warn => Some WARNING | Err => Some ERROR end) (p_text e)
                               (match p_help e with Some h => Some (uri, r, h) | None => None end))
  end.

(** What the parser and the rules say of a text (76-78, 87-96). *)
Inductive outcome := Unparsed | Clean | Problems (l : list problem).
(** [PublishDiagnosticsParams] (98-102). *)
Inductive notification := Publish (uri : N) (l : list diagnostic).
(** The [collect] of 79-82: a panic ends it. *)
Fixpoint collect {A} (l : list (option A)) : option (list A) :=
  match l with
  | [] => Some []
  | Some a :: r => option_map (cons a) (collect r)
  | None :: _ => None
  end.

(** What the editor tells: [didOpen] (144-147), [didChange] (149-154), and [didSave] and [didClose], which have no method. *)
Inductive event :=
| DidOpen (uri : N) (text : list N)
| DidChange (uri : N) (changes : list (list N))
| DidSave (uri : N)
| DidClose (uri : N).

Section Server.
(** The parser and the rules (76, 87-94). *)
Variable analyse : N -> list N -> outcome.
(** [Backend::lint] (85-107) and [analyse] (69-83). *)
Definition lint (uri : N) (source : list N) : option (list notification) :=
  match analyse uri source with
  | Problems l => option_map (fun d => [Publish uri d]) (collect (map (error_to_diagnostic source uri) l))
  | _ => Some []
  end.
(** [content_changes.last()] (150-152). *)
Fixpoint last_change (l : list (list N)) : option (list N) :=
  match l with [] => None | [t] => Some t | _ :: r => last_change r end.
(** 144-154. *)
Definition handle (e : event) : option (list notification) :=
  match e with
  | DidOpen u t => lint u t
  | DidChange u l => match last_change l with Some t => lint u t | None => Some [] end
  | DidSave _ | DidClose _ => Some []
  end.
(** All that is sent for some events; [None] when the server panics (166-172). *)
Fixpoint serve (l : list event) : option (list notification) :=
  match l with
  | [] => Some []
  | e :: r => match handle e with
              | Some a => match serve r with Some b => Some (a ++ b) | None => None end
              | None => None
              end
  end.
End Server.

(** Requests and whether [initialize] (111-141) tells that they are answered. *)
Inductive request := Initialize | Shutdown | DocumentDiagnostic | WorkspaceDiagnostic | Hover.
(** 126-136: [diagnostic_provider], with those of the workspace. *)
Definition advertised (r : request) : bool := match r with DocumentDiagnostic | WorkspaceDiagnostic => true | _ => false end.
(** The methods written (111, 156); others are the default, an error. *)
Definition answered (r : request) : bool := match r with Initialize | Shutdown => true | _ => false end.
