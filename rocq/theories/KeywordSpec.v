(** Which keywords the attributes have, and how values are written, independently of how they are read. *)
From Coq Require Import String List NArith ZArith Bool Arith.
From Verif Require Import Chars ParseModel ParseSpec OnsetSpec KeywordModel.
Import ListNotations.

(** The keywords of SVG 1.1 and 2, SMIL, XLink, Filter Effects, CSS, ARIA 1.1 and HTML. *)
Definition keywords_of : list (string * list string) :=
  [("AttributeType", ["CSS"; "XML"; "auto"]);
      ("CalcMode", ["discrete"; "linear"; "paced"; "spline"]);
      ("Accumulate", ["none"; "sum"]);
      ("Additive", ["replace"; "sum"]);
      ("Fill", ["freeze"; "remove"]);
      ("Restart", ["always"; "whenNotActive"; "never"]);
      ("AriaAutocomplete", ["inline"; "list"; "both"; "none"]);
      ("AriaCurrent", ["page"; "step"; "location"; "date"; "time"; "true"; "false"]);
      ("AriaDropEffect", ["copy"; "execute"; "link"; "move"; "none"; "popup"]);
      ("AriaHasPopup", ["false"; "true"; "menu"; "listbox"; "tree"; "grid"; "dialog"]);
      ("AriaInvalid", ["grammar"; "false"; "spelling"; "true"]);
      ("AriaLive", ["assertive"; "off"; "polite"]);
      ("AriaOrientation", ["horizontal"; "undefined"; "vertical"]);
      ("AriaSort", ["ascending"; "descending"; "none"; "other"]);
      ("Role", ["alert"; "alertdialog"; "application"; "article"; "banner"; "button"; "cell"; "checkbox"; "columnheader"; "combobox"; "command";
    "complementary"; "composite"; "contentinfo"; "definition"; "dialog"; "directory"; "document"; "feed"; "figure"; "form"; "grid"; "gridcell";
    "group"; "heading"; "img"; "input"; "landmark"; "link"; "list"; "listbox"; "listitem"; "log"; "main"; "marquee"; "math"; "menu"; "menubar";
    "menuitem"; "menuitemcheckbox"; "menuitemradio"; "navigation"; "none"; "note"; "option"; "presentation"; "progressbar"; "radio"; "radiogroup";
    "range"; "region"; "roletype"; "row"; "rowgroup"; "rowheader"; "scrollbar"; "search"; "searchbox"; "section"; "sectionhead"; "select";
    "separator"; "slider"; "spinbutton"; "status"; "structure"; "switch"; "tab"; "table"; "tablist"; "tabpanel"; "term"; "textbox"; "timer";
    "toolbar"; "tooltip"; "tree"; "treegrid"; "treeitem"; "widget"; "window"]);
      ("Tristate", ["true"; "mixed"; "false"]);
      ("ChannelSelector", ["R"; "G"; "B"; "A"]);
      ("TypeFeColorMatrix", ["matrix"; "saturate"; "hueRotate"; "luminanceToAlpha"]);
      ("OperatorFeComposite", ["over"; "in"; "out"; "atop"; "xor"; "lighter"; "arithmetic"]);
      ("EdgeMode", ["duplicate"; "wrap"; "mirror"; "none"]);
      ("OperatorFeMorphology", ["erode"; "dilate"]);
      ("StitchTilesFeTurbulence", ["stitch"; "noStitch"]);
      ("TypeFeTurbulence", ["fractalNoise"; "turbulence"]);
      ("ArabicForm", ["initial"; "medial"; "terminal"; "isolated"]);
      ("Orientation", ["h"; "v"]);
      ("AlignmentBaseline", ["auto"; "baseline"; "before-edge"; "text-before-edge"; "middle"; "central"; "after-edge"; "text-after-edge";
    "ideographic"; "alphabetic"; "hanging"; "mathematical"]);
      ("DominantBaseline", ["auto"; "use-script"; "no-change"; "reset-size"; "ideographic"; "alphabetic"; "hanging"; "mathematical"; "central";
    "middle"; "text-after-edge"; "text-before-edge"]);
      ("CommonLigValues", ["common-ligatures"; "no-common-ligatures"]);
      ("DiscretionaryLigValues", ["discretionary-ligatures"; "no-discretionary-ligatures"]);
      ("HistoricalLigValues", ["historical-ligatures"; "no-historical-ligatures"]);
      ("ContextualAltValues", ["contextual"; "no-contextual"]);
      ("FontVariantCaps", ["small-caps"; "all-small-caps"; "petite-caps"; "all-petite-caps"; "unicase"; "titling-caps"]);
      ("NumericFigureValues", ["lining-nums"; "oldstyle-nums"]);
      ("NumericSpacingValues", ["proportional-nums"; "tabular-nums"]);
      ("NumericFractionValues", ["diagonal-fractions"; "stacked-fractions"]);
      ("EastAsianVariantValues", ["jis78"; "jis83"; "jis90"; "jis04"; "simplified"; "traditional"]);
      ("EastAsianWidthValues", ["full-width"; "proportional-width"]);
      ("FontVariantPosition", ["sub"; "super"]);
      ("FontVariantEmoji", ["text"; "emoji"; "unicode"]);
      ("Paint", ["stroke"; "fill"; "markers"]);
      ("PointerEvents", ["auto"; "bounding-box"; "visiblePainted"; "visibleFill"; "visibleStroke"; "visible"; "painted"; "fill"; "stroke"; "all";
    "none"]);
      ("TextAnchor", ["start"; "middle"; "end"]);
      ("VectorEffect", ["none"; "non-scaling-stroke"; "non-scaling-size"; "non-rotation"; "fixed-position"]);
      ("WritingMode", ["lr-tb"; "rl-tb"; "tb-rl"; "lr"; "rl"; "tb"; "horizontal-tb"; "vertical-rl"; "vertical-lr"; "sideways-rl"; "sideways-lr"]);
      ("TransferFunctionType", ["identity"; "table"; "discrete"; "linear"; "gamma"]);
      ("BlendMode", ["normal"; "multiply"; "color-burn"; "screen"; "color-dodge"; "hard-light"; "overlay"; "soft-light"; "darken"; "lighten";
    "difference"; "exclusion"; "hue"; "saturation"; "color"; "luminosity"]);
      ("CrossOrigin", ["anonymous"; "use-credentials"]);
      ("PreserveAspectRatioAlign", ["none"; "xMinYMin"; "xMidYMin"; "xMaxYMin"; "xMinYMid"; "xMidYMid"; "xMaxYMid"; "xMinYMax"; "xMidYMax";
    "xMaxYMax"]);
      ("PreserveAspectRatioMeetOrSlice", ["meet"; "slice"]);
      ("Playbackorder", ["forwardonly"; "all"]);
      ("Timelinebegin", ["loadend"; "loadbegin"]);
      ("Units", ["userSpaceOnUse"; "objectBoundingBox"]);
      ("MarkerUnits", ["userSpaceOnUse"; "strokeWidth"]);
      ("LengthAdjust", ["spacing"; "spacingAndGlyphs"]);
      ("LinkType", ["alternate"; "author"; "bookmark"; "canonical"; "compression-dictionary"; "dns-prefetch"; "external"; "expect"; "help"; "icon";
    "license"; "manifest"; "me"; "modulepreload"; "next"; "nofollow"; "noopener"; "noreferrer"; "opener"; "pingback"; "preconnect"; "prefetch";
    "preload"; "prerender"; "prev"; "privacy-policy"; "search"; "stylesheet"; "tag"; "terms-of-service"]);
      ("Origin", ["default"]);
      ("RenderingIntent", ["auto"; "perceptual"; "relative-colorimetric"; "saturation"; "absolute-colorimetric"]);
      ("ReferrerPolicy", ["no-referrer"; "no-referrer-when-downgrade"; "same-origin"; "origin"; "strict-origin"; "origin-when-cross-origin";
    "strict-origin-when-cross-origin"; "unsafe-url"]);
      ("SpreadMethod", ["pad"; "reflect"; "repeat"]);
      ("TextPathMethod", ["align"; "stretch"]);
      ("TextPathSpacing", ["auto"; "exact"]);
      ("TextPathSide", ["left"; "right"]);
      ("TypeAnimateTransform", ["translate"; "scale"; "rotate"; "skewX"; "skewY"]);
      ("ZoomAndPan", ["disable"; "magnify"]);
      ("XLinkActuate", ["onRequest"; "onLoad"]);
      ("XLinkShow", ["new"; "replace"; "embed"; "other"; "none"]);
      ("XLinkType", ["simple"]);
      ("XmlSpace", ["default"; "preserve"])]%string.
(** Further ones: of CSS Inline Layout (to which SVG 2 refers for these properties) and of the Graphics Module of ARIA. *)
Definition newer_keywords : list (string * list string) :=
  [("AlignmentBaseline", ["text-top"; "text-bottom"; "top"; "center"; "bottom"]);
   ("DominantBaseline", ["text-top"; "text-bottom"]);
   ("Role", ["graphics-document"; "graphics-object"; "graphics-symbol"])]%string.

(** The shape of a keyword: ASCII letters, digits, hyphens and underscores, beginning with a letter or an underscore. *)
Definition letter (c : N) : Prop := (65 <= c <= 90)%N \/ (97 <= c <= 122)%N \/ c = 95%N.
Definition keyword (t : text) : Prop :=
  match t with [] => False | c :: r => letter c /\ Forall (fun c => letter c \/ digit c \/ c = 45%N) r end.
(** A text with white space around it. *)
Definition padded (k t : text) : Prop := exists v w, spaces v /\ spaces w /\ t = v ++ k ++ w.
(** With any white space of Unicode. *)
Definition padded_any (k t : text) : Prop :=
  exists v w, Forall (fun c => is_whitespace c = true) v /\ Forall (fun c => is_whitespace c = true) w /\ t = v ++ k ++ w.

(** The text of a [preserveAspectRatio]: the alignment, and perhaps after white space [meet] or [slice], which does not matter after [none]. *)
Definition aspect_text (align meet : string) (t : text) : Prop :=
  exists a, In (align, a) (table "PreserveAspectRatioAlign") /\
  ((meet = "Meet"%string /\ t = lit a) \/
   exists m w v, In (v, m) (table "PreserveAspectRatioMeetOrSlice") /\ spaces w /\ w <> [] /\ t = lit a ++ w ++ lit m /\
     meet = if String.eqb align "None" then "Meet"%string else v).

Section Spec.
  Variable finite : dec -> bool.
  Variable f32 : dec -> dec.
  Variable print : dec -> text.

  (** A number in decimals that rounds to [d]. *)
  Definition num_text (d : dec) (t : text) : Prop :=
    is_number t /\ ~ ends_in 46%N t /\ exists e, rust_f64 t = Some e /\ finite e = true /\ f32 e = d.
  (** White space with at most one comma, and not nothing. *)
  Definition comma_wsp (s : text) : Prop :=
    exists v w, spaces v /\ spaces w /\ ((s = v /\ v <> []) \/ s = v ++ 44%N :: w).
  Definition four_text (x : dec * dec * dec * dec) (t : text) : Prop :=
    let '(a, b, c, d) := x in
    exists ta tb tc td s1 s2 s3, num_text a ta /\ num_text b tb /\ num_text c tc /\ num_text d td /\
      comma_wsp s1 /\ comma_wsp s2 /\ comma_wsp s3 /\ t = ta ++ s1 ++ tb ++ s2 ++ tc ++ s3 ++ td.
  Definition pair_text (x : dec * option dec) (t : text) : Prop :=
    exists ta, num_text (fst x) ta /\
    match snd x with
    | None => t = ta
    | Some b => exists s tb, num_text b tb /\ comma_wsp s /\ t = ta ++ s ++ tb
    end.
  (** The text of a rotation. *)
  Definition rotate_text (r : rotate) (t : text) : Prop :=
    match r with Auto => t = lit "auto" | AutoReverse => t = lit "auto-reverse" | Angle d => num_text d t end.
  (** The printer of numbers is good enough. *)
  Definition prints (d : dec) : Prop := num_text d (print d).
End Spec.
(** The key words of inputs (Filter Effects 1, 9.4). *)
Definition svg_sources : list string := ["SourceGraphic"; "SourceAlpha"; "BackgroundImage"; "BackgroundAlpha"; "FillPaint"; "StrokePaint"]%string.
