(** How attributes are spelt in JSX (https://react.dev/reference/react-dom/components/common): in camel case but for those of ARIA. *)
From Coq Require Import String List NArith Bool.
From Verif Require Import Chars NameModel AttrTable.
Import ListNotations.

(** A name with its prefix, as in the document. *)
Definition written (prefix : option text) (local : text) : text := match prefix with Some p => p ++ 58%N :: local | None => local end.
(** A letter in upper case. *)
Definition upper (c : N) : N := if ((97 <=? c) && (c <=? 122))%N then (c - 32)%N else c.
(** Camel case: no hyphen and no colon, and what comes after one in upper case. *)
Fixpoint camel (s : text) : text :=
  match s with
  | [] => []
  | c :: r =>
      if ((c =? 45) || (c =? 58))%N then match r with d :: r' => upper d :: camel r' | [] => [] end
      else c :: camel r
  end.
(** The attributes shared with HTML that JSX spells otherwise. *)
Definition html_spelling : list (string * string) :=
  [("autofocus", "autoFocus"); ("class", "className"); ("crossorigin", "crossOrigin"); ("hreflang", "hrefLang");
   ("referrerpolicy", "referrerPolicy"); ("tabindex", "tabIndex")]%string.
Definition spelling (n : text) : text :=
  if starts_with (lit "aria-") n then n
  else match find (fun e => text_eqb (lit (fst e)) n) html_spelling with Some e => lit (snd e) | None => camel n end.
(** The name of a known attribute in a document. *)
Definition kind_written (k : kind) : text := written (known_name (kind_prefix k)) (kind_local k).
(** The name of an attribute as it is in the document. *)
Definition id_written (a : attr_id) : text := written (prefix_value (id_prefix a)) (id_local a).
(** Characters of JSX names. *)
Definition name_char (alnum : N -> bool) (c : N) : Prop := alnum c = true \/ c = 45%N.

(** The attributes of HTML that React spells in camel case; in a document their names are in small letters. *)
Definition react_props : list string :=
  ["accessKey"; "allowFullScreen"; "autoCapitalize"; "autoComplete"; "autoCorrect"; "autoPlay"; "autoSave"; "cellPadding"; "cellSpacing"; "charSet"; "classID"; "colSpan"; "contentEditable";
   "contextMenu"; "controlsList"; "dateTime"; "encType"; "formMethod"; "formAction"; "formEncType"; "formNoValidate"; "formTarget"; "frameBorder"; "inputMode"; "itemID"; "itemProp"; "itemRef";
   "itemScope"; "itemType"; "keyParams"; "keyType"; "marginWidth"; "marginHeight"; "maxLength"; "mediaGroup"; "minLength"; "noModule"; "noValidate"; "playsInline"; "radioGroup"; "readOnly";
   "rowSpan"; "spellCheck"; "srcDoc"; "srcLang"; "srcSet"; "useMap"]%string.
(** Those whose names are not in small letters, or differ otherwise. *)
Definition react_others : list (string * string) :=
  [("accept-charset", "acceptCharset"); ("http-equiv", "httpEquiv"); ("for", "htmlFor"); ("checked", "defaultChecked"); ("value", "defaultValue")]%string.
Definition small (c : N) : N := if ((65 <=? c) && (c <=? 90))%N then (c + 32)%N else c.
Definition react_html (local n : text) : Prop :=
  (exists r, In r react_props /\ n = lit r /\ local = map small n) \/ (exists h r, In (h, r) react_others /\ local = lit h /\ n = lit r).

