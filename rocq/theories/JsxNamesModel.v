(** Model of the names of attributes in JSX (crates/oxvg_jsx/src/utils/attr_to_jsx_str.rs). *)
From Coq Require Import String List NArith Bool.
From Verif Require Import Chars NameModel AttrTable ElemModel.
Import ListNotations.

(** attr_to_jsx_str.rs 14-221: the known attributes with a name of their own in JSX, by their identifier. *)
Definition jsx_known : list (text * text) := Eval vm_compute in map (fun e => (lit (fst e), lit (snd e)))
  [("AutoFocus", "autoFocus"); ("Class", "className"); ("CrossOrigin", "crossOrigin"); ("Hreflang", "hrefLang"); ("ReferrerPolicy", "referrerPolicy");
  ("Tabindex", "tabIndex"); ("AriaActiveDescendant", "aria-activedescendant"); ("AriaAtomic", "aria-atomic"); ("AriaAutocomplete", "aria-autocomplete");
  ("AriaBusy", "aria-busy"); ("AriaChecked", "aria-checked"); ("AriaColCount", "aria-colcount"); ("AriaColIndex", "aria-colindex"); ("AriaColSpan",
  "aria-colspan"); ("AriaControls", "aria-controls"); ("AriaCurrent", "aria-current"); ("AriaDescribedBy", "aria-describedby"); ("AriaDetails",
  "aria-details"); ("AriaDisabled", "aria-disabled"); ("AriaDropEffect", "aria-dropeffect"); ("AriaErrorMessage", "aria-errormessage"); ("AriaExpanded",
  "aria-expanded"); ("AriaFlowTo", "aria-flowto"); ("AriaGrabbed", "aria-grabbed"); ("AriaHasPopup", "aria-haspopup"); ("AriaHidden", "aria-hidden");
  ("AriaInvalid", "aria-invalid"); ("AriaKeyshortcuts", "aria-keyshortcuts"); ("AriaLabel", "aria-label"); ("AriaLabelledBy", "aria-labelledby");
  ("AriaLevel", "aria-level"); ("AriaLive", "aria-live"); ("AriaModal", "aria-modal"); ("AriaMultiline", "aria-multiline"); ("AriaMultiselectable",
  "aria-multiselectable"); ("AriaOrientation", "aria-orientation"); ("AriaOwns", "aria-owns"); ("AriaPlaceholder", "aria-placeholder"); ("AriaPosInSet",
  "aria-posinset"); ("AriaPressed", "aria-pressed"); ("AriaReadonly", "aria-readonly"); ("AriaRelevant", "aria-relevant"); ("AriaRequired",
  "aria-required"); ("AriaRoleDescription", "aria-roledescription"); ("AriaRowCount", "aria-rowcount"); ("AriaRowIndex", "aria-rowindex");
  ("AriaRowSpan", "aria-rowspan"); ("AriaSelected", "aria-selected"); ("AriaSetSize", "aria-setsize"); ("AriaSort", "aria-sort"); ("AriaValueMax",
  "aria-valuemax"); ("AriaValueMin", "aria-valuemin"); ("AriaValueNow", "aria-valuenow"); ("AriaValueText", "aria-valuetext"); ("AccentHeight",
  "accentHeight"); ("AlignmentBaseline", "alignmentBaseline"); ("ArabicForm", "arabicForm"); ("AttributeName", "attributeName"); ("AttributeType",
  "attributeType"); ("BaseFrequency", "baseFrequency"); ("BaselineShift", "baselineShift"); ("BaseProfile", "baseProfile"); ("CalcMode", "calcMode");
  ("CapHeight", "capHeight"); ("ClipPath", "clipPath"); ("ClipPathUnits", "clipPathUnits"); ("ClipRule", "clipRule"); ("ColorInterpolation",
  "colorInterpolation"); ("ColorInterpolationFilters", "colorInterpolationFilters"); ("ColorProfile", "colorProfile"); ("ColorRendering",
  "colorRendering"); ("ContentScriptType", "contentScriptType"); ("ContentStyleType", "contentStyleType"); ("DiffuseConstant", "diffuseConstant");
  ("DominantBaseline", "dominantBaseline"); ("EdgeModeFeConvolveMatrix", "edgeMode"); ("EdgeModeFeGaussianBlur", "edgeMode"); ("EnableBackground",
  "enableBackground"); ("ExternalResourcesRequired", "externalResourcesRequired"); ("FillOpacity", "fillOpacity"); ("FillRule", "fillRule");
  ("FilterRes", "filterRes"); ("FilterUnits", "filterUnits"); ("FloodOpacity", "floodOpacity"); ("FloodColor", "floodColor"); ("FontFamily",
  "fontFamily"); ("FontSize", "fontSize"); ("FontSizeAdjust", "fontSizeAdjust"); ("FontStretch", "fontStretch"); ("FontStyle", "fontStyle");
  ("FontVariant", "fontVariant"); ("FontWeight", "fontWeight"); ("GlyphName", "glyphName"); ("GlyphOrientationHorizontal",
  "glyphOrientationHorizontal"); ("GlyphOrientationVertical", "glyphOrientationVertical"); ("GlyphRef", "glyphRef"); ("GradientTransform",
  "gradientTransform"); ("GradientUnits", "gradientUnits"); ("HorizAdvX", "horizAdvX"); ("HorizOriginX", "horizOriginX"); ("HorizOriginY",
  "horizOriginY"); ("ImageRendering", "imageRendering"); ("KernelMatrix", "kernelMatrix"); ("KernelUnitLength", "kernelUnitLength"); ("KeyPoints",
  "keyPoints"); ("KeySplines", "keySplines"); ("KeyTimes", "keyTimes"); ("LengthAdjust", "lengthAdjust"); ("LetterSpacing", "letterSpacing");
  ("LightingColor", "lightingColor"); ("LimitingConeAngle", "limitingConeAngle"); ("MarkerEnd", "markerEnd"); ("MarkerHeight", "markerHeight");
  ("MarkerMid", "markerMid"); ("MarkerStart", "markerStart"); ("MarkerUnits", "markerUnits"); ("MarkerWidth", "markerWidth"); ("MaskContentUnits",
  "maskContentUnits"); ("MaskUnits", "maskUnits"); ("NumOctaves", "numOctaves"); ("OverlinePosition", "overlinePosition"); ("OverlineThickness",
  "overlineThickness"); ("PaintOrder", "paintOrder"); ("Panose1", "panose1"); ("PathLength", "pathLength"); ("PatternContentUnits",
  "patternContentUnits"); ("PatternTransform", "patternTransform"); ("PatternUnits", "patternUnits"); ("PointerEvents", "pointerEvents"); ("PointsAtX",
  "pointsAtX"); ("PointsAtY", "pointsAtY"); ("PointsAtZ", "pointsAtZ"); ("PreserveAlpha", "preserveAlpha"); ("PreserveAspectRatio",
  "preserveAspectRatio"); ("PrimitiveUnits", "primitiveUnits"); ("RefX", "refX"); ("RefY", "refY"); ("RenderingIntent", "renderingIntent");
  ("RepeatCount", "repeatCount"); ("RepeatDur", "repeatDur"); ("RequiredExtensions", "requiredExtensions"); ("RequiredFeatures", "requiredFeatures");
  ("ShapeRendering", "shapeRendering"); ("SolidColor", "solidColor"); ("SolidOpacity", "solidOpacity"); ("SpecularConstant", "specularConstant");
  ("SpecularExponent", "specularExponent"); ("SpreadMethod", "spreadMethod"); ("StartOffset", "startOffset"); ("StdDeviationFeDropShadow",
  "stdDeviation"); ("StdDeviationFeGaussianBlur", "stdDeviation"); ("StitchTiles", "stitchTiles"); ("StopColor", "stopColor"); ("StopOpacity",
  "stopOpacity"); ("StrikethroughPosition", "strikethroughPosition"); ("StrikethroughThickness", "strikethroughThickness"); ("StrokeDasharray",
  "strokeDasharray"); ("StrokeDashoffset", "strokeDashoffset"); ("StrokeLinecap", "strokeLinecap"); ("StrokeLinejoin", "strokeLinejoin");
  ("StrokeMiterlimit", "strokeMiterlimit"); ("StrokeWidth", "strokeWidth"); ("StrokeOpacity", "strokeOpacity"); ("SurfaceScale", "surfaceScale");
  ("SystemLanguage", "systemLanguage"); ("TableValues", "tableValues"); ("TargetX", "targetX"); ("TargetY", "targetY"); ("TextAnchor", "textAnchor");
  ("TextDecoration", "textDecoration"); ("TextLength", "textLength"); ("TextRendering", "textRendering"); ("TransformOrigin", "transformOrigin");
  ("UnderlinePosition", "underlinePosition"); ("UnderlineThickness", "underlineThickness"); ("UnicodeBidi", "unicodeBidi"); ("UnicodeRange",
  "unicodeRange"); ("UnitsPerEm", "unitsPerEm"); ("VAlphabetic", "vAlphabetic"); ("VectorEffect", "vectorEffect"); ("VertAdvY", "vertAdvY");
  ("VertOriginX", "vertOriginX"); ("VertOriginY", "vertOriginY"); ("VHanging", "vHanging"); ("VIdeographic", "vIdeographic"); ("ViewBox", "viewBox");
  ("ViewTarget", "viewTarget"); ("VMathematical", "vMathematical"); ("WordSpacing", "wordSpacing"); ("WritingMode", "writingMode"); ("XChannelSelector",
  "xChannelSelector"); ("XHeight", "xHeight"); ("XLinkActuate", "xlinkActuate"); ("XLinkArcrole", "xlinkArcrole"); ("XLinkHref", "xlinkHref");
  ("XLinkRole", "xlinkRole"); ("XLinkShow", "xlinkShow"); ("XLinkTitle", "xlinkTitle"); ("XLinkType", "xlinkType"); ("XmlBase", "xmlBase"); ("XmlLang",
  "xmlLang"); ("XmlSpace", "xmlSpace"); ("YChannelSelector", "yChannelSelector"); ("ZoomAndPan", "zoomAndPan")]%string.
(** attr_to_jsx_str.rs 238-290: the attributes of HTML, by their local name. *)
Definition jsx_html : list (text * text) := Eval vm_compute in map (fun e => (lit (fst e), lit (snd e)))
  [("accept-charset", "acceptCharset"); ("accesskey", "accessKey"); ("allowfullscreen", "allowFullScreen"); ("autocapitalize", "autoCapitalize");
  ("autocomplete", "autoComplete"); ("autocorrect", "autoCorrect"); ("autoplay", "autoPlay"); ("autosave", "autoSave"); ("cellpadding", "cellPadding");
  ("cellspacing", "cellSpacing"); ("charset", "charSet"); ("classid", "classID"); ("colspan", "colSpan"); ("contenteditable", "contentEditable");
  ("contextmenu", "contextMenu"); ("controlslist", "controlsList"); ("datetime", "dateTime"); ("checked", "defaultChecked"); ("value", "defaultValue");
  ("enctype", "encType"); ("for", "htmlFor"); ("formmethod", "formMethod"); ("formaction", "formAction"); ("formenctype", "formEncType");
  ("formnovalidate", "formNoValidate"); ("formtarget", "formTarget"); ("frameborder", "frameBorder"); ("http-equiv", "httpEquiv"); ("inputmode",
  "inputMode"); ("itemid", "itemID"); ("itemprop", "itemProp"); ("itemref", "itemRef"); ("itemscope", "itemScope"); ("itemtype", "itemType");
  ("keyparams", "keyParams"); ("keytype", "keyType"); ("marginwidth", "marginWidth"); ("marginheight", "marginHeight"); ("maxlength", "maxLength");
  ("mediagroup", "mediaGroup"); ("minlength", "minLength"); ("nomodule", "noModule"); ("novalidate", "noValidate"); ("playsinline", "playsInline");
  ("radiogroup", "radioGroup"); ("readonly", "readOnly"); ("rowspan", "rowSpan"); ("spellcheck", "spellCheck"); ("srcdoc", "srcDoc"); ("srclang",
  "srcLang"); ("srcset", "srcSet"); ("usemap", "useMap")]%string.
(** A [match] on texts (attr_to_jsx_str.rs:237-299). *)
Definition look (t : list (text * text)) (n : text) : option text := option_map snd (find (fun e => text_eqb (fst e) n) t).
(** The errors of attr_to_jsx_str (crates/oxvg_jsx/src/error.rs:20-38); each makes the attribute be left out (crates/oxvg_jsx/src/swc.rs:151-198). *)
Inductive dropped : Type := UnknownPrefix | UnsupportedXmlns (local : text) | InvalidName (local : text).
(** What a function gives or why not (attr_to_jsx_str.rs:10). *)
Inductive named : Type := Named (n : text) | Dropped (e : dropped).
(** [char::is_alphanumeric] (Rust core library; used at attr_to_jsx_str.rs:292): exact for ASCII, an argument for the rest. *)
Definition is_alphanumeric (uni : N -> bool) (c : N) : bool :=
  if (c <? 128)%N then ((48 <=? c) && (c <=? 57) || (65 <=? c) && (c <=? 90) || (97 <=? c) && (c <=? 122))%N else uni c.
(** attr_to_jsx_str.rs 232-300: the attributes without a name of their own. *)
Definition jsx_other (uni : N -> bool) (a : attr_id) : named :=
  if negb (prefix_is_empty (id_prefix a)) then Dropped UnknownPrefix
  else match look jsx_html (id_local a) with
       | Some n => Named n
       | None => if forallb (is_alphanumeric uni) (id_local a) then Named (id_local a) else Dropped (InvalidName (id_local a))
       end.
(** attr_to_jsx_str.rs 10-301. *)
Definition jsx_name (uni : N -> bool) (a : attr_id) : named :=
  if negb (otext_eqb (prefix_value (id_prefix a)) (prefix_value (base_prefix (id_unaliased a)))) then Dropped UnknownPrefix
  else match a with
       | ABase (BKnown k) => match look jsx_known (kind_id k) with Some n => Named n | None => jsx_other uni a end
       | ABase (BUnknown (mkName (PKnown XMLNS) local)) =>
           if text_eqb local (lit "xlink") then Named (lit "xmlnsXlink") else Dropped (UnsupportedXmlns local)
       | _ => jsx_other uni a
       end.
(** The name in JSX of an attribute as it is in the document (read as in crates/oxvg_ast/src/parse/roxmltree.rs:331-352, then crates/oxvg_jsx/src/swc.rs:227-236). *)
Definition prop_name (uni : N -> bool) (e : elem_id) (uri : text) (name : option text) (local : text) : named :=
  jsx_name uni (parse_attr_id e (prefix_new uri name) local).
