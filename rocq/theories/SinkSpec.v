(** Namespaces in a document. *)
From Coq Require Import String List NArith Bool.
From Verif Require Import Chars NameModel SinkModel.
Import ListNotations.

(** An attribute that declares a namespace: of elements without a prefix, or of a prefix. *)
Definition declares (a : attr) (p : option text) (uri : text) : Prop :=
  match p with
  | None => prefix_value (a_prefix a) = None /\ a_local a = lit "xmlns" /\ a_value a = uri
  | Some q => prefix_value (a_prefix a) = Some (lit "xmlns") /\ a_local a = q /\ a_value a = uri
  end.
Definition is_declaration (a : attr) : Prop := exists p uri, declares a p uri.
(** The namespace of a name. *)
Definition uri_of (p : prefix) : text := ns_uri (prefix_ns p).
(** The elements inside an element and itself, with their attributes. *)
Inductive inside : tree -> prefix -> list attr -> Prop :=
| inside_here p local attrs kids : inside (Node p local attrs kids) p attrs
| inside_below p local attrs kids t q b : In t kids -> inside t q b -> inside (Node p local attrs kids) q b.
(** The prefixes of the names of elements and attributes. *)
Inductive used (t : tree) : prefix -> Prop :=
| used_elem p attrs : inside t p attrs -> used t p
| used_attr p attrs a : inside t p attrs -> In a attrs -> used t (a_prefix a).
(** What the declarations around an element and its own make of a prefix: the innermost counts.  [xml] needs no declaration. *)
Inductive resolves : list (list attr) -> option text -> text -> Prop :=
| resolves_xml env : resolves env (Some (lit "xml")) (known_uri XML)
| resolves_here a attrs env p uri : In a attrs -> declares a p uri -> (forall b u, In b attrs -> declares b p u -> u = uri) -> resolves (attrs :: env) p uri
| resolves_out attrs env p uri : (forall b u, In b attrs -> ~ declares b p u) -> resolves env p uri -> resolves (attrs :: env) p uri.
(** In every element, every name resolves to its namespace; an attribute without a prefix needs none. *)
Inductive resolved : list (list attr) -> tree -> Prop :=
| resolved_node env p local attrs kids : resolves (attrs :: env) (prefix_value p) (uri_of p) ->
    Forall (fun a => is_declaration a \/ prefix_value (a_prefix a) = None \/ resolves (attrs :: env) (prefix_value (a_prefix a)) (uri_of (a_prefix a))) attrs ->
    Forall (resolved (attrs :: env)) kids -> resolved env (Node p local attrs kids).
(** No name occurs twice among the attributes of an element, and [xmlns] is not declared. *)
Definition written (a : attr) : option text * text := (prefix_value (a_prefix a), a_local a).
Definition well_formed (attrs : list attr) : Prop := NoDup (map written attrs) /\ forall a uri, In a attrs -> ~ declares a (Some (lit "xmlns")) uri.
Definition all_well_formed (t : tree) : Prop := forall p attrs, inside t p attrs -> well_formed attrs.
(** What xml5ever hands over: prefixes are made from a namespace and a name, there are no declarations, no name occurs twice, attributes without a prefix have no namespace. *)
Definition from_parser (t : tree) : Prop := all_well_formed t /\ (forall p attrs, inside t p attrs -> Forall (fun a => ~ is_declaration a) attrs) /\
  (forall p, used t p -> exists uri name, p = prefix_new uri name) /\ (forall p attrs a, inside t p attrs -> In a attrs -> prefix_value (a_prefix a) = None -> a_prefix a = PKnown SVG) /\
  (forall p, used t p -> prefix_value p <> Some (lit "xmlns") /\ uri_of p <> known_uri XMLNS /\ (prefix_value p = Some (lit "xml") <-> uri_of p = known_uri XML)).
(** Each prefix stands for one namespace in the whole document, and elements without a prefix are SVG. *)
Definition uniform (t : tree) : Prop := (forall p q, used t p -> used t q -> prefix_value p = prefix_value q -> uri_of p = uri_of q) /\ (forall p attrs, inside t p attrs -> prefix_value p = None -> p = PKnown SVG).
(** The root has no prefix. *)
Definition root_plain (t : tree) : Prop := match t with Node p _ _ _ => prefix_value p = None end.
(** If [xml:] is used anywhere, it is used by the root. *)
Definition xml_at_root (t : tree) : Prop := match t with Node _ _ attrs kids => (exists p, used t p /\ prefix_value p = Some (lit "xml")) -> exists a, In a attrs /\ prefix_value (a_prefix a) = Some (lit "xml") end.
(** The tree [t'] is [t] with declarations added to the root. *)
Inductive only_declarations : list attr -> list attr -> Prop :=
| only_nil : only_declarations [] []
| only_add d l m : is_declaration d -> only_declarations l m -> only_declarations l (d :: m)
| only_same a l m : only_declarations l m -> only_declarations (a :: l) (a :: m).
Definition same_but_root (t t' : tree) : Prop := match t, t' with Node p local attrs kids, Node p' local' attrs' kids' => p' = p /\ local' = local /\ kids' = kids /\ only_declarations attrs attrs' end.
