(** The keywords of enumerated attributes ([enum_attr!], crates/oxvg_collections/src/attribute.rs:93-143). *)
From Coq Require Import String List.
Import ListNotations.

(** The enumerated attributes of crates/oxvg_collections/src/attribute/animation.rs:14-326: the variants, each with its keyword. *)
Definition animation_enums : list (string * list (string * string)) :=
  [(** animation.rs:14-25 *)
   ("AttributeType", [("CSS", "CSS"); ("XML", "XML"); ("Auto", "auto")]);
   (** animation.rs:313-326 *)
   ("CalcMode", [("Discrete", "discrete"); ("Linear", "linear"); ("Paced", "paced"); ("Spline", "spline")])]%string.

(** The enumerated attributes of crates/oxvg_collections/src/attribute/animation_addition.rs:4-31: the variants, each with its keyword. *)
Definition animation_addition_enums : list (string * list (string * string)) :=
  [(** animation_addition.rs:4-17 *)
   ("Accumulate", [("None", "none"); ("Sum", "sum")]);
   (** animation_addition.rs:18-31 *)
   ("Additive", [("Replace", "replace"); ("Sum", "sum")])]%string.

(** The enumerated attributes of crates/oxvg_collections/src/attribute/animation_timing.rs:244-379: the variants, each with its keyword. *)
Definition animation_timing_enums : list (string * list (string * string)) :=
  [(** animation_timing.rs:244-255 *)
   ("Fill", [("Freeze", "freeze"); ("Remove", "remove")]);
   (** animation_timing.rs:366-379 *)
   ("Restart", [("Always", "always"); ("WhenNotActive", "whenNotActive"); ("Never", "never")])]%string.

(** The enumerated attributes of crates/oxvg_collections/src/attribute/aria.rs:6-352: the variants, each with its keyword. *)
Definition aria_enums : list (string * list (string * string)) :=
  [(** aria.rs:6-22 *)
   ("AriaAutocomplete", [("Inline", "inline"); ("List", "list"); ("Both", "both"); ("None", "none")]);
   (** aria.rs:23-45 *)
   ("AriaCurrent", [("Page", "page"); ("Step", "step"); ("Location", "location"); ("Date", "date"); ("Time", "time"); ("True", "true"); ("False",
    "false")]);
   (** aria.rs:46-66 *)
   ("AriaDropEffect", [("Copy", "copy"); ("Execute", "execute"); ("Link", "link"); ("Move", "move"); ("None", "none"); ("Popup", "popup")]);
   (** aria.rs:67-89 *)
   ("AriaHasPopup", [("False", "false"); ("True", "true"); ("Menu", "menu"); ("Listbox", "listbox"); ("Tree", "tree"); ("Grid", "grid"); ("Dialog",
    "dialog")]);
   (** aria.rs:90-106 *)
   ("AriaInvalid", [("Grammar", "grammar"); ("False", "false"); ("Spelling", "spelling"); ("True", "true")]);
   (** aria.rs:107-121 *)
   ("AriaLive", [("Assertive", "assertive"); ("Off", "off"); ("Polite", "polite")]);
   (** aria.rs:122-134 *)
   ("AriaOrientation", [("Horizontal", "horizontal"); ("Undefined", "undefined"); ("Vertical", "vertical")]);
   (** aria.rs:135-149 *)
   ("AriaRelevant", [("Addition", "additions"); ("AdditionsText", "additions text"); ("All", "all"); ("Removals", "removals"); ("Text", "text")]);
   (** aria.rs:150-166 *)
   ("AriaSort", [("Ascending", "ascending"); ("Descending", "descending"); ("None", "none"); ("Other", "other")]);
   (** aria.rs:171-339 *)
   ("Role", [("Alert", "alert"); ("AlertDialog", "alertdialog"); ("Application", "application"); ("Article", "article"); ("Banner", "banner");
    ("Button", "button"); ("Cell", "cell"); ("Checkbox", "checkbox"); ("ColumnHeader", "columnheader"); ("Combobox", "combobox"); ("Command",
    "command"); ("Complementary", "complementary"); ("Composite", "composite"); ("ContentInfo", "contentinfo"); ("Definition", "definition");
    ("Dialog", "dialog"); ("Directory", "directory"); ("Document", "document"); ("Feed", "feed"); ("Figure", "figure"); ("Form", "form"); ("Grid",
    "grid"); ("Gridcell", "gridcell"); ("Group", "group"); ("Heading", "heading"); ("Img", "img"); ("Input", "input"); ("Landmark", "landmark");
    ("Link", "link"); ("List", "list"); ("Listbox", "listbox"); ("Listitem", "listitem"); ("Log", "log"); ("Main", "main"); ("Marquee", "marquee");
    ("Math", "math"); ("Menu", "menu"); ("Menubar", "menubar"); ("Menuitem", "menuitem"); ("MenuitemCheckbox", "menuitemcheckbox"); ("MenuitemRadio",
    "menuitemradio"); ("Navigation", "navigation"); ("None", "none"); ("Note", "note"); ("Option", "option"); ("Presentation", "presentation");
    ("ProgressBar", "progressbar"); ("Radio", "radio"); ("RadioGroup", "radiogroup"); ("Range", "range"); ("Region", "region"); ("RoleType",
    "roletype"); ("Row", "row"); ("RowGroup", "rowgroup"); ("RowHeader", "rowheader"); ("Scrollbar", "scrollbar"); ("Search", "search"); ("SearchBox",
    "searchbox"); ("Section", "section"); ("SectionHead", "sectionhead"); ("Select", "select"); ("Separator", "separator"); ("Slider", "slider");
    ("SpinButton", "spinbutton"); ("Status", "status"); ("Structure", "structure"); ("Switch", "switch"); ("Tab", "tab"); ("Table", "table");
    ("TabList", "tablist"); ("TabPanel", "tabpanel"); ("Term", "term"); ("TextBox", "textbox"); ("Timer", "timer"); ("Toolbar", "toolbar");
    ("Tooltip", "tooltip"); ("Tree", "tree"); ("TreeGrid", "treegrid"); ("TreeItem", "treeitem"); ("Widget", "widget"); ("Window", "window")]);
   (** aria.rs:340-352 *)
   ("Tristate", [("True", "true"); ("Mixed", "mixed"); ("False", "false")])]%string.

(** The enumerated attributes of crates/oxvg_collections/src/attribute/filter_effect.rs:9-144: the variants, each with its keyword. *)
Definition filter_effect_enums : list (string * list (string * string)) :=
  [(** filter_effect.rs:9-26 *)
   ("ChannelSelector", [("R", "R"); ("G", "G"); ("B", "B"); ("A", "A")]);
   (** filter_effect.rs:27-60 *)
   ("TypeFeColorMatrix", [("Matrix", "matrix"); ("Saturate", "saturate"); ("HueRotate", "hueRotate"); ("LuminanceToAlpha", "luminanceToAlpha")]);
   (** filter_effect.rs:61-84 *)
   ("OperatorFeComposite", [("Over", "over"); ("In", "in"); ("Out", "out"); ("Atop", "atop"); ("Xor", "xor"); ("Lighter", "lighter"); ("Arithmetic",
    "arithmetic")]);
   (** filter_effect.rs:85-102 *)
   ("EdgeMode", [("Duplicate", "duplicate"); ("Wrap", "wrap"); ("Mirror", "mirror"); ("None", "none")]);
   (** filter_effect.rs:103-116 *)
   ("OperatorFeMorphology", [("Erode", "erode"); ("Dilate", "dilate")]);
   (** filter_effect.rs:117-130 *)
   ("StitchTilesFeTurbulence", [("Stitch", "stitch"); ("NoStitch", "noStitch")]);
   (** filter_effect.rs:131-144 *)
   ("TypeFeTurbulence", [("FractalNoise", "fractalNoise"); ("Turbulence", "turbulence")])]%string.

(** The enumerated attributes of crates/oxvg_collections/src/attribute/fonts.rs:5-31: the variants, each with its keyword. *)
Definition fonts_enums : list (string * list (string * string)) :=
  [(** fonts.rs:5-19 *)
   ("ArabicForm", [("Initial", "initial"); ("Medial", "medial"); ("Terminal", "terminal"); ("Isolated", "isolated")]);
   (** fonts.rs:21-31 *)
   ("Orientation", [("H", "h"); ("V", "v")])]%string.

(** The enumerated attributes of crates/oxvg_collections/src/attribute/presentation.rs:33-1502: the variants, each with its keyword. *)
Definition presentation_enums : list (string * list (string * string)) :=
  [(** presentation.rs:33-65 *)
   ("AlignmentBaseline", [("Auto", "auto"); ("Baseline", "baseline"); ("BeforeEdge", "before-edge"); ("TextBeforeEdge", "text-before-edge");
    ("Middle", "middle"); ("Central", "central"); ("AfterEdge", "after-edge"); ("TextAfterEdge", "text-after-edge"); ("Ideographic", "ideographic");
    ("Alphabetic", "alphabetic"); ("Hanging", "hanging"); ("Mathematical", "mathematical")]);
   (** presentation.rs:296-326 *)
   ("DominantBaseline", [("Auto", "auto"); ("UseScript", "use-script"); ("NoChange", "no-change"); ("ResetSize", "reset-size"); ("Ideographic",
    "ideographic"); ("Alphabetic", "alphabetic"); ("Hanging", "hanging"); ("Mathematical", "mathematical"); ("Central", "central"); ("Middle",
    "middle"); ("TextAfterEdge", "text-after-edge"); ("TextBeforeEdge", "text-before-edge")]);
   (** presentation.rs:746-754 *)
   ("CommonLigValues", [("CommonLigatures", "common-ligatures"); ("NoCommonLigatures", "no-common-ligatures")]);
   (** presentation.rs:755-763 *)
   ("DiscretionaryLigValues", [("DiscretionaryLigatures", "discretionary-ligatures"); ("NoDiscretionaryLigatures", "no-discretionary-ligatures")]);
   (** presentation.rs:764-772 *)
   ("HistoricalLigValues", [("HistoricalLigatures", "historical-ligatures"); ("NoHistoricalLigatures", "no-historical-ligatures")]);
   (** presentation.rs:773-781 *)
   ("ContextualAltValues", [("Contextual", "contextual"); ("NoContextual", "no-contextual")]);
   (** presentation.rs:783-801 *)
   ("FontVariantCaps", [("SmallCaps", "small-caps"); ("AllSmallCaps", "all-small-caps"); ("PetiteCaps", "petite-caps"); ("AllPetiteCaps",
    "all-petite-caps"); ("Unicase", "unicase"); ("TitlingCaps", "titling-caps")]);
   (** presentation.rs:1124-1132 *)
   ("NumericFigureValues", [("LiningNums", "lining-nums"); ("OldstyleNums", "oldstyle-nums")]);
   (** presentation.rs:1133-1141 *)
   ("NumericSpacingValues", [("ProportionalNums", "proportional-nums"); ("TabularNums", "tabular-nums")]);
   (** presentation.rs:1142-1150 *)
   ("NumericFractionValues", [("DiagonalFractions", "diagonal-fractions"); ("StackedFractions", "stacked-fractions")]);
   (** presentation.rs:1214-1230 *)
   ("EastAsianVariantValues", [("Jis78", "jis78"); ("Jis83", "jis83"); ("Jis90", "jis90"); ("Jis04", "jis04"); ("Simplified", "simplified");
    ("Traditional", "traditional")]);
   (** presentation.rs:1231-1239 *)
   ("EastAsianWidthValues", [("FullWidth", "full-width"); ("ProportionalWidth", "proportional-width")]);
   (** presentation.rs:1241-1251 *)
   ("FontVariantPosition", [("Sub", "sub"); ("Super", "super")]);
   (** presentation.rs:1253-1263 *)
   ("FontVariantEmoji", [("Text", "text"); ("Emoji", "emoji"); ("Unicode", "unicode")]);
   (** presentation.rs:1265-1275 *)
   ("Paint", [("Stroke", "stroke"); ("Fill", "fill"); ("Markers", "markers")]);
   (** presentation.rs:1400-1428 *)
   ("PointerEvents", [("Auto", "auto"); ("BoundingBox", "bounding-box"); ("VisiblePainted", "visiblePainted"); ("VisibleFill", "visibleFill");
    ("VisibleStroke", "visibleStroke"); ("Visible", "visible"); ("Painted", "painted"); ("Fill", "fill"); ("Stroke", "stroke"); ("All", "all");
    ("None", "none")]);
   (** presentation.rs:1429-1441 *)
   ("TextAnchor", [("Start", "start"); ("Middle", "middle"); ("End", "end")]);
   (** presentation.rs:1443-1459 *)
   ("VectorEffect", [("None", "none"); ("NonScalingStroke", "non-scaling-stroke"); ("NonScalingSize", "non-scaling-size"); ("NonRotation",
    "non-rotation"); ("FixedPosition", "fixed-position")]);
   (** presentation.rs:1461-1502 *)
   ("WritingMode", [("LrTb", "lr-tb"); ("RlTb", "rl-tb"); ("TbRl", "tb-rl"); ("Lr", "lr"); ("Rl", "rl"); ("Tb", "tb"); ("HorizontalTb",
    "horizontal-tb"); ("VerticalRl", "vertical-rl"); ("VerticalLr", "vertical-lr"); ("SidewaysRl", "sideways-rl"); ("SidewaysLr",
    "sideways-lr")])]%string.

(** The enumerated attributes of crates/oxvg_collections/src/attribute/transfer_function.rs:4-23: the variants, each with its keyword. *)
Definition transfer_function_enums : list (string * list (string * string)) :=
  [(** transfer_function.rs:4-23 *)
   ("TransferFunctionType", [("Identity", "identity"); ("Table", "table"); ("Discrete", "discrete"); ("Linear", "linear"); ("Gamma",
    "gamma")])]%string.

(** The enumerated attributes of crates/oxvg_collections/src/attribute/uncategorised.rs:17-1281: the variants, each with its keyword. *)
Definition uncategorised_enums : list (string * list (string * string)) :=
  [(** uncategorised.rs:17-58 *)
   ("BlendMode", [("Normal", "normal"); ("Multiply", "multiply"); ("ColorBurn", "color-burn"); ("Screen", "screen"); ("ColorDodge", "color-dodge");
    ("HardLight", "hard-light"); ("Overlay", "overlay"); ("SoftLight", "soft-light"); ("Darken", "darken"); ("Lighten", "lighten"); ("Difference",
    "difference"); ("Exclusion", "exclusion"); ("Hue", "hue"); ("Saturation", "saturation"); ("Color", "color"); ("Luminosity", "luminosity")]);
   (** uncategorised.rs:59-75 *)
   ("CrossOrigin", [("Anonymous", "anonymous"); ("UseCredentials", "use-credentials")]);
   (** uncategorised.rs:214-240 *)
   ("PreserveAspectRatioAlign", [("None", "none"); ("XMinYMin", "xMinYMin"); ("XMidYMin", "xMidYMin"); ("XMaxYMin", "xMaxYMin"); ("XMinYMid",
    "xMinYMid"); ("XMidYMid", "xMidYMid"); ("XMaxYMid", "xMaxYMid"); ("XMinYMax", "xMinYMax"); ("XMidYMax", "xMidYMax"); ("XMaxYMax", "xMaxYMax")]);
   (** uncategorised.rs:242-268 *)
   ("PreserveAspectRatioMeetOrSlice", [("Meet", "meet"); ("Slice", "slice")]);
   (** uncategorised.rs:270-280 *)
   ("Playbackorder", [("Forwardonly", "forwardonly"); ("All", "all")]);
   (** uncategorised.rs:282-290 *)
   ("Timelinebegin", [("Loadend", "loadend"); ("Loadbegin", "loadbegin")]);
   (** uncategorised.rs:292-306 *)
   ("Units", [("UserSpaceOnUse", "userSpaceOnUse"); ("ObjectBoundingBox", "objectBoundingBox")]);
   (** uncategorised.rs:308-323 *)
   ("MarkerUnits", [("UserSpaceOnUse", "userSpaceOnUse"); ("StrokeWidth", "strokeWidth")]);
   (** uncategorised.rs:325-335 *)
   ("LengthAdjust", [("Spacing", "spacing"); ("SpacingAndGlyphs", "spacingAndGlyphs")]);
   (** uncategorised.rs:337-404 *)
   ("LinkType", [("Alternate", "alternate"); ("Author", "author"); ("Bookmark", "bookmark"); ("Canonical", "canonical"); ("CompressionDictionary",
    "compression-dictionary"); ("DnsPrefetch", "dns-prefetch"); ("External", "external"); ("Expect", "expect"); ("Help", "help"); ("Icon", "icon");
    ("License", "license"); ("Manifest", "manifest"); ("Me", "me"); ("Modulepreload", "modulepreload"); ("Next", "next"); ("Nofollow", "nofollow");
    ("Noopener", "noopener"); ("Noreferrer", "noreferrer"); ("Opener", "opener"); ("Pingback", "pingback"); ("Preconnect", "preconnect"); ("Prefetch",
    "prefetch"); ("Preload", "preload"); ("Prerender", "prerender"); ("Prev", "prev"); ("PrivacyPolicy", "privacy-policy"); ("Search", "search");
    ("Stylesheet", "stylesheet"); ("Tag", "tag"); ("TermsOfService", "terms-of-service")]);
   (** uncategorised.rs:551-559 *)
   ("Origin", [("Default", "default")]);
   (** uncategorised.rs:660-678 *)
   ("RenderingIntent", [("Auto", "auto"); ("Perceptual", "perceptual"); ("RelativeColorimetric", "relative-colorimetric"); ("Saturation",
    "saturation"); ("AbsoluteColorimetric", "absolute-colorimetric")]);
   (** uncategorised.rs:844-887 *)
   ("ReferrerPolicy", [("NoReferrer", "no-referrer"); ("NoReferrerWhenDowngrade", "no-referrer-when-downgrade"); ("SameOrigin", "same-origin");
    ("Origin", "origin"); ("StrictOrigin", "strict-origin"); ("OriginWhenCrossOrigin", "origin-when-cross-origin"); ("StrictOriginWhenCrossOrigin",
    "strict-origin-when-cross-origin"); ("UnsafeUrl", "unsafe-url")]);
   (** uncategorised.rs:943-955 *)
   ("SpreadMethod", [("Pad", "pad"); ("Reflect", "reflect"); ("Repeat", "repeat")]);
   (** uncategorised.rs:1024-1034 *)
   ("TextPathMethod", [("Align", "align"); ("Stretch", "stretch")]);
   (** uncategorised.rs:1036-1046 *)
   ("TextPathSpacing", [("Auto", "auto"); ("Exact", "exact")]);
   (** uncategorised.rs:1048-1058 *)
   ("TextPathSide", [("Left", "left"); ("Right", "right")]);
   (** uncategorised.rs:1181-1197 *)
   ("TypeAnimateTransform", [("Translate", "translate"); ("Scale", "scale"); ("Rotate", "rotate"); ("SkewX", "skewX"); ("SkewY", "skewY")]);
   (** uncategorised.rs:1271-1281 *)
   ("ZoomAndPan", [("Disable", "disable"); ("Magnify", "magnify")])]%string.

(** The enumerated attributes of crates/oxvg_collections/src/attribute/xlink.rs:4-38: the variants, each with its keyword. *)
Definition xlink_enums : list (string * list (string * string)) :=
  [(** xlink.rs:4-12 *)
   ("XLinkActuate", [("OnRequest", "onRequest"); ("OnLoad", "onLoad")]);
   (** xlink.rs:14-30 *)
   ("XLinkShow", [("New", "new"); ("Replace", "replace"); ("Embed", "embed"); ("Other", "other"); ("None", "none")]);
   (** xlink.rs:32-38 *)
   ("XLinkType", [("Simple", "simple")])]%string.

(** The enumerated attributes of crates/oxvg_collections/src/attribute/xml.rs:4-20: the variants, each with its keyword. *)
Definition xml_enums : list (string * list (string * string)) :=
  [(** xml.rs:4-20 *)
   ("XmlSpace", [("Default", "default"); ("Preserve", "preserve")])]%string.

(** All of them (attribute.rs:93-143: the macro makes the same reader and printer for each). *)
Definition enums : list (string * list (string * string)) :=
  animation_enums ++ animation_addition_enums ++ animation_timing_enums ++ aria_enums ++ filter_effect_enums ++ fonts_enums ++ presentation_enums ++
    transfer_function_enums ++ uncategorised_enums ++ xlink_enums ++ xml_enums.
