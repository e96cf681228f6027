(** An independent XML reader (XML 1.0, without DTDs) used to say what serialised output means.
    It is written from the XML specification, one character at a time, and shares nothing with
    the writer model except the text type. *)
From Coq Require Import String List NArith Bool Arith.
From Verif Require Import Chars XmlModel.
Import ListNotations.

(** XML 1.0 production [2] Char. *)
Definition is_xml_char (c : N) : bool :=
  ((c =? 9) || (c =? 10) || (c =? 13) || (32 <=? c) && (c <=? 55295) ||
   (57344 <=? c) && (c <=? 65533) || (65536 <=? c) && (c <=? 1114111))%N.
(** Production [3] S. *)
Definition is_xml_space (c : N) : bool := ((c =? 32) || (c =? 9) || (c =? 10) || (c =? 13))%N.
(** Production [4] NameStartChar. *)
Definition in_range (lo hi c : N) : bool := ((lo <=? c) && (c <=? hi))%N.
Definition name_start (c : N) : bool :=
  (c =? 58)%N || in_range 65 90 c || (c =? 95)%N || in_range 97 122 c || in_range 192 214 c ||
  in_range 216 246 c || in_range 248 767 c || in_range 880 893 c || in_range 895 8191 c ||
  in_range 8204 8205 c || in_range 8304 8591 c || in_range 11264 12271 c ||
  in_range 12289 55295 c || in_range 63744 64975 c || in_range 65008 65533 c ||
  in_range 65536 983039 c.
(** Production [4a] NameChar. *)
Definition name_char (c : N) : bool :=
  name_start c || (c =? 45)%N || (c =? 46)%N || in_range 48 57 c || (c =? 183)%N ||
  in_range 768 879 c || in_range 8255 8256 c.
Definition is_name (s : text) : Prop :=
  match s with [] => False | c :: s => name_start c = true /\ forallb name_char s = true end.

(** What a reader reports. *)
Inductive rnode : Type :=
| RElem (name : text) (attrs : list (text * text)) (kids : list rnode)
| RText (s : text)
| RComment (s : text)
| RPI (target value : text).

(** Productions [66]-[68]: character and predefined entity references. *)
Definition digit_value (base : N) (c : N) : option N :=
  let v := if in_range 48 57 c then Some (c - 48)%N
           else if in_range 97 102 c then Some (c - 87)%N
           else if in_range 65 70 c then Some (c - 55)%N else None in
  match v with Some v => if (v <? base)%N then Some v else None | None => None end.
Fixpoint digits_value (base acc : N) (s : text) : option N :=
  match s with
  | [] => Some acc
  | c :: s => match digit_value base c with
              | Some v => digits_value base (acc * base + v)%N s
              | None => None
              end
  end.
Definition decode_ref (e : text) : option N :=
  if text_eqb e (lit "lt") then Some 60%N
  else if text_eqb e (lit "gt") then Some 62%N
  else if text_eqb e (lit "amp") then Some 38%N
  else if text_eqb e (lit "quot") then Some 34%N
  else if text_eqb e (lit "apos") then Some 39%N
  else match e with
       | 35%N :: 120%N :: ((_ :: _) as ds) => digits_value 16 0 ds
       | 35%N :: ((_ :: _) as ds) => digits_value 10 0 ds
       | _ => None
       end.

(** Decoding a whole escaped string: every [&] must begin a reference. *)
Inductive umode : Type := UText | URef (e : text).
Fixpoint unescape_from (m : umode) (s : text) : option text :=
  match s with
  | [] => match m with UText => Some [] | URef _ => None end
  | c :: s =>
      match m with
      | UText => if N.eqb c 38 then unescape_from (URef []) s
                 else option_map (cons c) (unescape_from UText s)
      | URef e => if N.eqb c 59
                  then match decode_ref (rev e) with
                       | Some x => option_map (cons x) (unescape_from UText s)
                       | None => None
                       end
                  else unescape_from (URef (c :: e)) s
      end
  end.
Definition unescape (s : text) : option text := unescape_from UText s.

(** Section 2.11: line ends. *)
Fixpoint normalise_eol (s : text) : text :=
  match s with
  | [] => []
  | 13%N :: s => match s with 10%N :: _ => normalise_eol s | _ => 10%N :: normalise_eol s end
  | c :: s => c :: normalise_eol s
  end.

(** The reader's mode; accumulated texts are reversed. *)
Inductive mode : Type :=
| MText (acc : text) | MRef (acc e : text) | MLt (acc : text) | MBang (acc e : text)
| MCData (acc : text) (brackets : nat)
| MComment (acc : text) (dashes : nat)
| MPiTarget (t : text) | MPiEnd (t : text) | MPiValue (t acc : text) (q : bool)
| MName (n : text)
| MTag (n : text) (attrs : list (text * text)) (spaced : bool)
| MAttr (n : text) (attrs : list (text * text)) (a : text)
| MAfterAttr (n : text) (attrs : list (text * text)) (a : text)
| MEq (n : text) (attrs : list (text * text)) (a : text)
| MVal (n : text) (attrs : list (text * text)) (a : text) (q : N) (acc : text)
| MValRef (n : text) (attrs : list (text * text)) (a : text) (q : N) (acc e : text)
| MSlash (n : text) (attrs : list (text * text))
| MClose (n : text) | MCloseEnd (n : text).

(** Open elements: name, attributes, and the siblings before it (reversed). *)
Definition frame : Type := (text * list (text * text) * list rnode)%type.
Record rstate : Type := mkR { md : mode; frames : list frame; cur : list rnode }.

Definition flush (acc : text) (cur : list rnode) : list rnode :=
  match acc with [] => cur | _ => RText (rev acc) :: cur end.

Definition has_attr (a : text) (attrs : list (text * text)) : bool :=
  existsb (fun x => text_eqb a (fst x)) attrs.

Definition open_tag (n : text) (attrs : list (text * text)) (fs : list frame) (cur : list rnode)
  : rstate := mkR (MText []) ((n, rev attrs, cur) :: fs) [].

Definition close_tag (n : text) (fs : list frame) (cur : list rnode) : option rstate :=
  match fs with
  | (n', attrs, before) :: fs =>
      if text_eqb n n' then Some (mkR (MText []) fs (RElem n attrs (rev cur) :: before)) else None
  | [] => None
  end.

(** One character.  [None] is a well-formedness error. *)
Definition step (r : rstate) (c : N) : option rstate :=
  let fs := frames r in
  let cu := cur r in
  if negb (is_xml_char c) then None else
  match md r with
  | MText acc =>
      if N.eqb c 60 then Some (mkR (MLt acc) fs cu)
      else if N.eqb c 38 then Some (mkR (MRef acc []) fs cu)
      else Some (mkR (MText (c :: acc)) fs cu)
  | MRef acc e =>
      if N.eqb c 59 then
        match decode_ref (rev e) with
        | Some x => if is_xml_char x then Some (mkR (MText (x :: acc)) fs cu) else None
        | None => None
        end
      else Some (mkR (MRef acc (c :: e)) fs cu)
  | MLt acc =>
      if N.eqb c 47 then Some (mkR (MClose []) fs (flush acc cu))
      else if N.eqb c 33 then Some (mkR (MBang acc []) fs cu)
      else if N.eqb c 63 then Some (mkR (MPiTarget []) fs (flush acc cu))
      else if name_start c then Some (mkR (MName [c]) fs (flush acc cu))
      else None
  | MBang acc e =>
      let e := e ++ [c] in
      if text_eqb e (lit "--") then Some (mkR (MComment [] 0) fs (flush acc cu))
      else if text_eqb e (lit "[CDATA[") then Some (mkR (MCData acc 0) fs cu)
      else if starts_with e (lit "--") || starts_with e (lit "[CDATA[")
      then Some (mkR (MBang acc e) fs cu)
      else None
  | MCData acc k =>
      if N.eqb c 93 then
        match k with
        | 2 => Some (mkR (MCData (93%N :: acc) 2) fs cu)
        | _ => Some (mkR (MCData acc (S k)) fs cu)
        end
      else if N.eqb c 62 && Nat.eqb k 2 then Some (mkR (MText acc) fs cu)
      else Some (mkR (MCData (c :: repeat 93%N k ++ acc) 0) fs cu)
  | MComment acc k =>
      match k with
      | 0 => if N.eqb c 45 then Some (mkR (MComment acc 1) fs cu)
             else Some (mkR (MComment (c :: acc) 0) fs cu)
      | 1 => if N.eqb c 45 then Some (mkR (MComment acc 2) fs cu)
             else Some (mkR (MComment (c :: 45%N :: acc) 0) fs cu)
      | _ => if N.eqb c 62 then Some (mkR (MText []) fs (RComment (rev acc) :: cu)) else None
      end
  | MPiTarget t =>
      match t with
      | [] => if name_start c then Some (mkR (MPiTarget [c]) fs cu) else None
      | _ => if name_char c then Some (mkR (MPiTarget (c :: t)) fs cu)
             else if N.eqb c 63 then Some (mkR (MPiEnd (rev t)) fs cu)
             else if is_xml_space c then Some (mkR (MPiValue (rev t) [] false) fs cu)
             else None
      end
  | MPiEnd t => if N.eqb c 62 then Some (mkR (MText []) fs (RPI t [] :: cu)) else None
  | MPiValue t acc q =>
      if q then
        if N.eqb c 62 then Some (mkR (MText []) fs (RPI t (rev acc) :: cu))
        else if N.eqb c 63 then Some (mkR (MPiValue t (63%N :: acc) true) fs cu)
        else Some (mkR (MPiValue t (c :: 63%N :: acc) false) fs cu)
      else if N.eqb c 63 then Some (mkR (MPiValue t acc true) fs cu)
      else if is_xml_space c && match acc with [] => true | _ => false end
      then Some (mkR (MPiValue t [] false) fs cu)
      else Some (mkR (MPiValue t (c :: acc) false) fs cu)
  | MName n =>
      if name_char c then Some (mkR (MName (c :: n)) fs cu)
      else if is_xml_space c then Some (mkR (MTag (rev n) [] true) fs cu)
      else if N.eqb c 62 then Some (open_tag (rev n) [] fs cu)
      else if N.eqb c 47 then Some (mkR (MSlash (rev n) []) fs cu)
      else None
  | MTag n attrs spaced =>
      if is_xml_space c then Some (mkR (MTag n attrs true) fs cu)
      else if N.eqb c 62 then Some (open_tag n attrs fs cu)
      else if N.eqb c 47 then Some (mkR (MSlash n attrs) fs cu)
      else if spaced && name_start c then Some (mkR (MAttr n attrs [c]) fs cu)
      else None
  | MAttr n attrs a =>
      if name_char c then Some (mkR (MAttr n attrs (c :: a)) fs cu)
      else if N.eqb c 61 then Some (mkR (MEq n attrs (rev a)) fs cu)
      else if is_xml_space c then Some (mkR (MAfterAttr n attrs (rev a)) fs cu)
      else None
  | MAfterAttr n attrs a =>
      if N.eqb c 61 then Some (mkR (MEq n attrs a) fs cu)
      else if is_xml_space c then Some r
      else None
  | MEq n attrs a =>
      if N.eqb c 34 || N.eqb c 39 then Some (mkR (MVal n attrs a c []) fs cu)
      else if is_xml_space c then Some r
      else None
  | MVal n attrs a q acc =>
      if N.eqb c q then
        if has_attr a attrs then None
        else Some (mkR (MTag n ((a, rev acc) :: attrs) false) fs cu)
      else if N.eqb c 60 then None
      else if N.eqb c 38 then Some (mkR (MValRef n attrs a q acc []) fs cu)
      else if is_xml_space c then Some (mkR (MVal n attrs a q (32%N :: acc)) fs cu)
      else Some (mkR (MVal n attrs a q (c :: acc)) fs cu)
  | MValRef n attrs a q acc e =>
      if N.eqb c 59 then
        match decode_ref (rev e) with
        | Some x => if is_xml_char x then Some (mkR (MVal n attrs a q (x :: acc)) fs cu) else None
        | None => None
        end
      else Some (mkR (MValRef n attrs a q acc (c :: e)) fs cu)
  | MSlash n attrs =>
      if N.eqb c 62 then Some (mkR (MText []) fs (RElem n (rev attrs) [] :: cu)) else None
  | MClose n =>
      match n with
      | [] => if name_start c then Some (mkR (MClose [c]) fs cu) else None
      | _ => if name_char c then Some (mkR (MClose (c :: n)) fs cu)
             else if N.eqb c 62 then close_tag (rev n) fs cu
             else if is_xml_space c then Some (mkR (MCloseEnd (rev n)) fs cu)
             else None
      end
  | MCloseEnd n =>
      if N.eqb c 62 then close_tag n fs cu
      else if is_xml_space c then Some r
      else None
  end.

Fixpoint run (r : rstate) (s : text) : option rstate :=
  match s with
  | [] => Some r
  | c :: s => match step r c with Some r => run r s | None => None end
  end.

(** Reading a whole document: the list of its top-level nodes. *)
Definition read (s : text) : option (list rnode) :=
  match run (mkR (MText []) [] []) (normalise_eol s) with
  | Some (mkR (MText acc) [] cur) => Some (rev (flush acc cur))
  | _ => None
  end.

(** The tree a document denotes to a reader: adjacent texts are one text, empty texts are
    nothing, style rules are text. *)
Definition glue (n : rnode) (l : list rnode) : list rnode :=
  match n with
  | RText [] => l
  | RText s => match l with RText s' :: l => RText (s ++ s') :: l | _ => n :: l end
  | _ => n :: l
  end.
Definition merge (l : list rnode) : list rnode := fold_right glue [] l.

Fixpoint denotes (n : xnode) : list rnode :=
  match n with
  | XElem name attrs kids => [RElem name attrs (merge (flat_map denotes kids))]
  | XText s => [RText s]
  | XStyle css => [RText css]
  | XComment s => [RComment s]
  | XPI t v => [RPI t (match v with Some v => v | None => [] end)]
  | XDoctype => []
  end.
Definition document_of (l : list xnode) : list rnode := merge (flat_map denotes l).

(** Documents a writer can be expected to write: XML names, XML characters, distinct attribute
    names per element.  Carriage returns, and tabs and newlines inside attribute values, have to
    be written as character references to survive; they are excluded here. *)
Definition text_ok (s : text) : Prop := forallb (fun c => is_xml_char c && negb (N.eqb c 13)) s = true.
Definition value_ok (s : text) : Prop :=
  forallb (fun c => is_xml_char c && (negb (is_xml_space c) || N.eqb c 32)) s = true.
(** A comment without a double hyphen and not ending in a hyphen. *)
Definition comment_ok (s : text) : Prop :=
  text_ok s /\ contains (lit "--") s = false /\ forall s', s <> s' ++ lit "-".
(** Style rules without markup characters. *)
Definition css_ok (s : text) : Prop := text_ok s /\ ~ In 60%N s /\ ~ In 38%N s.

Fixpoint node_ok (n : xnode) : Prop :=
  match n with
  | XElem name attrs kids =>
      is_name name /\ NoDup (map fst attrs) /\
      Forall (fun a => is_name (fst a) /\ value_ok (snd a)) attrs /\
      (fix all (l : list xnode) : Prop := match l with [] => True | k :: l => node_ok k /\ all l end) kids
  | XText s => text_ok s
  | XStyle css => css_ok css
  | XComment s => comment_ok s
  | XPI _ _ => False
  | XDoctype => True
  end.
(** At top level there is no text. *)
Definition top_ok (n : xnode) : Prop :=
  node_ok n /\ match n with XText (_ :: _) | XStyle (_ :: _) => False | _ => True end.

(** The effect of the whitespace modes on the texts of a tree, with the position flags of the
    serialiser. *)
Definition map_texts (f : bool -> bool -> text -> text) : xnode -> bool -> bool -> xnode :=
  fix go n first last :=
  match n with
  | XElem name attrs kids =>
      XElem name attrs
        ((fix all (l : list xnode) (first : bool) : list xnode :=
            match l with
            | [] => []
            | k :: l => go k first (match l with [] => true | XText _ :: _ => true | _ => false end)
                        :: all l (match k with XText _ => true | _ => false end)
            end) kids true)
  | XText s => XText (f first last s)
  | n => n
  end.

(** The same for the children of a document or element. *)
Definition map_top (f : bool -> bool -> text -> text) : list xnode -> bool -> list xnode :=
  fix all (l : list xnode) (first : bool) : list xnode :=
    match l with
    | [] => []
    | k :: l => map_texts f k first (match l with [] => true | XText _ :: _ => true | _ => false end)
                :: all l (match k with XText _ => true | _ => false end)
    end.

(** The element asks for preserved whitespace. *)
Definition asks_preserve (attrs : list (text * text)) : bool :=
  existsb (fun a => text_eqb (fst a) (lit "xml:space") && text_eqb (snd a) (lit "preserve")) attrs.

(** Every attribute of a tree, in document order. *)
Fixpoint all_attrs (n : xnode) : list (text * text) :=
  match n with XElem _ attrs kids => attrs ++ flat_map all_attrs kids | _ => [] end.

(** A comment a reader can report. *)
Definition comment_shape (s : text) : Prop :=
  contains (lit "--") s = false /\ forall s', s <> s' ++ lit "-".

(** A processing-instruction value a reader reports unchanged. *)
Definition pi_value_ok (v : text) : Prop :=
  text_ok v /\ contains (lit "?>") v = false /\ match v with [] => False | c :: _ => is_xml_space c = false end.

(** The tails of the predefined entity references. *)
Definition entities : list text := map lit ["amp;"; "gt;"; "lt;"; "quot;"; "apos;"]%string.

(** The whitespace request of the last attribute that makes one. *)
Fixpoint last_space (l : list (text * text)) (p : bool) : bool :=
  match l with
  | [] => p
  | (n, v) :: l =>
      last_space l
        (if text_eqb n (lit "xml:space") && text_eqb v (lit "preserve") then true
         else if text_eqb n (lit "xml:space") && text_eqb v (lit "default") then false else p)
  end.

(** ** Laying out a document *)

(** The SVG elements whose character data is rendered. *)
Definition rendered_text : list text :=
  map lit ["text"; "tspan"; "textPath"; "tref"; "altGlyph"]%string.
Definition renders_text (name : text) : bool := existsb (text_eqb name) rendered_text.

Definition layout_space (c : N) : bool := N.eqb c 32 || N.eqb c 9 || N.eqb c 10.

(** [padded frozen l l']: [l'] is [l] with white space added between nodes, but nowhere when
    [frozen] and nowhere inside an element that renders text. *)
Inductive padded : bool -> list xnode -> list xnode -> Prop :=
| padded_nil t : padded t [] []
| padded_space t s l l' : forallb layout_space s = true -> (t = true -> s = []) ->
    padded t l l' -> padded t l (XText s :: l')
| padded_elem t name attrs ks ks' l l' : padded (t || renders_text name) ks ks' ->
    padded t l l' -> padded t (XElem name attrs ks :: l) (XElem name attrs ks' :: l')
| padded_leaf t n l l' : match n with XElem _ _ _ => False | _ => True end ->
    padded t l l' -> padded t (n :: l) (n :: l').
