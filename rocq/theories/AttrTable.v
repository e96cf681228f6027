(** The known attributes. *)
From Coq Require Import String List NArith.
From Verif Require Import Chars NameModel.
Import ListNotations.

(** attribute.rs 562-2607 (crates/oxvg_collections/src), the [define_attrs!] invocation: for each
    [AttrId] variant its identifier, prefix and local name.  Value types, groups, info flags and
    defaults are left out. *)
Definition attr_table : list kind := Eval vm_compute in
  map (fun e => match e with (i, p, n) => mkKind (lit i) p (lit n) end)
  [
   ("AccentHeight", SVG, "accent-height");
   ("Accumulate", SVG, "accumulate");
   ("Additive", SVG, "additive");
   ("Alphabetic", SVG, "alphabetic");
   ("Amplitude", SVG, "amplitude");
   ("ArabicForm", SVG, "arabic-form");
   ("AriaActiveDescendant", SVG, "aria-activedescendant");
   ("AriaAtomic", SVG, "aria-atomic");
   ("AriaAutocomplete", SVG, "aria-autocomplete");
   ("AriaBusy", SVG, "aria-busy");
   ("AriaChecked", SVG, "aria-checked");
   ("AriaColCount", SVG, "aria-colcount");
   ("AriaColIndex", SVG, "aria-colindex");
   ("AriaColSpan", SVG, "aria-colspan");
   ("AriaControls", SVG, "aria-controls");
   ("AriaCurrent", SVG, "aria-current");
   ("AriaDescribedBy", SVG, "aria-describedby");
   ("AriaDetails", SVG, "aria-details");
   ("AriaDisabled", SVG, "aria-disabled");
   ("AriaDropEffect", SVG, "aria-dropeffect");
   ("AriaErrorMessage", SVG, "aria-errormessage");
   ("AriaExpanded", SVG, "aria-expanded");
   ("AriaFlowTo", SVG, "aria-flowto");
   ("AriaGrabbed", SVG, "aria-grabbed");
   ("AriaHasPopup", SVG, "aria-haspopup");
   ("AriaHidden", SVG, "aria-hidden");
   ("AriaInvalid", SVG, "aria-invalid");
   ("AriaKeyshortcuts", SVG, "aria-keyshortcuts");
   ("AriaLabel", SVG, "aria-label");
   ("AriaLabelledBy", SVG, "aria-labelledby");
   ("AriaLevel", SVG, "aria-level");
   ("AriaLive", SVG, "aria-live");
   ("AriaModal", SVG, "aria-modal");
   ("AriaMultiline", SVG, "aria-multiline");
   ("AriaMultiselectable", SVG, "aria-multiselectable");
   ("AriaOrientation", SVG, "aria-orientation");
   ("AriaOwns", SVG, "aria-owns");
   ("AriaPlaceholder", SVG, "aria-placeholder");
   ("AriaPosInSet", SVG, "aria-posinset");
   ("AriaPressed", SVG, "aria-pressed");
   ("AriaReadonly", SVG, "aria-readonly");
   ("AriaRelevant", SVG, "aria-relevant");
   ("AriaRequired", SVG, "aria-required");
   ("AriaRoleDescription", SVG, "aria-roledescription");
   ("AriaRowCount", SVG, "aria-rowcount");
   ("AriaRowIndex", SVG, "aria-rowindex");
   ("AriaRowSpan", SVG, "aria-rowspan");
   ("AriaSelected", SVG, "aria-selected");
   ("AriaSetSize", SVG, "aria-setsize");
   ("AriaSort", SVG, "aria-sort");
   ("AriaValueMax", SVG, "aria-valuemax");
   ("AriaValueMin", SVG, "aria-valuemin");
   ("AriaValueNow", SVG, "aria-valuenow");
   ("AriaValueText", SVG, "aria-valuetext");
   ("Ascent", SVG, "ascent");
   ("AttributeName", SVG, "attributeName");
   ("AttributeType", SVG, "attributeType");
   ("AutoFocus", SVG, "autofocus");
   ("Azimuth", SVG, "azimuth");
   ("BaseFrequency", SVG, "baseFrequency");
   ("BaseProfile", SVG, "baseProfile");
   ("Bbox", SVG, "bbox");
   ("Begin", SVG, "begin");
   ("Bias", SVG, "bias");
   ("By", SVG, "by");
   ("CalcMode", SVG, "calcMode");
   ("CapHeight", SVG, "cap-height");
   ("Class", SVG, "class");
   ("ClipPathUnits", SVG, "clipPathUnits");
   ("ContentScriptType", SVG, "contentScriptType");
   ("ContentStyleType", SVG, "contentStyleType");
   ("CrossOrigin", SVG, "crossorigin");
   ("CXGeometry", SVG, "cx");
   ("CXRadialGradient", SVG, "cx");
   ("CYGeometry", SVG, "cy");
   ("CYRadialGradient", SVG, "cy");
   ("D", SVG, "d");
   ("Descent", SVG, "descent");
   ("DiffuseConstant", SVG, "diffuseConstant");
   ("Divisor", SVG, "divisor");
   ("Download", SVG, "download");
   ("Dur", SVG, "dur");
   ("DXAltGlyph", SVG, "dx");
   ("DXFeDropShadow", SVG, "dx");
   ("DXFeOffset", SVG, "dx");
   ("DXGlyphRef", SVG, "dx");
   ("DXText", SVG, "dx");
   ("DXTSpan", SVG, "dx");
   ("DYAltGlyph", SVG, "dy");
   ("DYFeDropShadow", SVG, "dy");
   ("DYFeOffset", SVG, "dy");
   ("DYGlyphRef", SVG, "dy");
   ("DYText", SVG, "dy");
   ("DYTSpan", SVG, "dy");
   ("EdgeModeFeConvolveMatrix", SVG, "edgeMode");
   ("EdgeModeFeGaussianBlur", SVG, "edgeMode");
   ("Elevation", SVG, "elevation");
   ("End", SVG, "end");
   ("Exponent", SVG, "exponent");
   ("ExternalResourcesRequired", SVG, "externalResourcesRequired");
   ("FillAnimate", SVG, "fill");
   ("FilterRes", SVG, "filterRes");
   ("FilterUnits", SVG, "filterUnits");
   ("Format", SVG, "format");
   ("FR", SVG, "fr");
   ("From", SVG, "from");
   ("FX", SVG, "fx");
   ("FY", SVG, "fy");
   ("G1", SVG, "g1");
   ("G2", SVG, "g2");
   ("GlyphName", SVG, "glyph-name");
   ("GlyphRef", SVG, "glyphRef");
   ("GradientTransform", SVG, "gradientTransform");
   ("GradientUnits", SVG, "gradientUnits");
   ("Hanging", SVG, "hanging");
   ("HatchContentUnits", SVG, "hatchContentUnits");
   ("HatchUnits", SVG, "hatchUnits");
   ("HeightFilter", SVG, "height");
   ("HeightForeignObject", SVG, "height");
   ("HeightImage", SVG, "height");
   ("HeightPattern", SVG, "height");
   ("HeightRect", SVG, "height");
   ("HeightSvg", SVG, "height");
   ("HeightSymbol", SVG, "height");
   ("HeightUse", SVG, "height");
   ("HeightFe", SVG, "height");
   ("HeightMask", SVG, "height");
   ("HorizAdvX", SVG, "horiz-adv-x");
   ("HorizOriginX", SVG, "horiz-origin-x");
   ("HorizOriginY", SVG, "horiz-origin-y");
   ("Href", SVG, "href");
   ("Hreflang", SVG, "hreflang");
   ("Id", SVG, "id");
   ("Ideographic", SVG, "ideographic");
   ("In", SVG, "in");
   ("In2", SVG, "in2");
   ("Intercept", SVG, "intercept");
   ("K", SVG, "k");
   ("K1", SVG, "k1");
   ("K2", SVG, "k2");
   ("K3", SVG, "k3");
   ("K4", SVG, "k4");
   ("KernelMatrix", SVG, "kernelMatrix");
   ("KernelUnitLength", SVG, "kernelUnitLength");
   ("KeyPoints", SVG, "keyPoints");
   ("KeySplines", SVG, "keySplines");
   ("KeyTimes", SVG, "keyTimes");
   ("Lang", SVG, "lang");
   ("LengthAdjust", SVG, "lengthAdjust");
   ("LimitingConeAngle", SVG, "limitingConeAngle");
   ("Local", SVG, "local");
   ("MarkerHeight", SVG, "markerHeight");
   ("MarkerUnits", SVG, "markerUnits");
   ("MarkerWidth", SVG, "markerWidth");
   ("MaskContentUnits", SVG, "maskContentUnits");
   ("MaskUnits", SVG, "maskUnits");
   ("Mathematical", SVG, "mathematical");
   ("Max", SVG, "max");
   ("Media", SVG, "media");
   ("Method", SVG, "method");
   ("Min", SVG, "min");
   ("Mode", SVG, "mode");
   ("NameColorProfile", SVG, "name");
   ("NameFontFace", SVG, "name");
   ("NumOctaves", SVG, "numOctaves");
   ("OffsetStop", SVG, "offset");
   ("OffsetFe", SVG, "offset");
   ("OffsetHatchPath", SVG, "offset");
   ("OnAbort", SVG, "onabort");
   ("OnActivate", SVG, "onactivate");
   ("OnBegin", SVG, "onbegin");
   ("OnCancel", SVG, "oncancel");
   ("OnCanplay", SVG, "oncanplay");
   ("OnCanplaythrough", SVG, "oncanplaythrough");
   ("OnChange", SVG, "onchange");
   ("OnClick", SVG, "onclick");
   ("OnClose", SVG, "onclose");
   ("OnCopy", SVG, "oncopy");
   ("OnCuechange", SVG, "oncuechange");
   ("OnCut", SVG, "oncut");
   ("OnDblclick", SVG, "ondblclick");
   ("OnDrag", SVG, "ondrag");
   ("OnDragend", SVG, "ondragend");
   ("OnDragenter", SVG, "ondragenter");
   ("OnDragexit", SVG, "ondragexit");
   ("OnDragleave", SVG, "ondragleave");
   ("OnDragover", SVG, "ondragover");
   ("OnDragstart", SVG, "ondragstart");
   ("OnDrop", SVG, "ondrop");
   ("OnDurationchange", SVG, "ondurationchange");
   ("OnEmptied", SVG, "onemptied");
   ("OnEnd", SVG, "onend");
   ("OnEnded", SVG, "onended");
   ("OnError", SVG, "onerror");
   ("OnFocusIn", SVG, "onfocusin");
   ("OnFocusOut", SVG, "onfocusout");
   ("OnFocus", SVG, "onfocus");
   ("OnInput", SVG, "oninput");
   ("OnInvalid", SVG, "oninvalid");
   ("OnKeydown", SVG, "onkeydown");
   ("OnKeypress", SVG, "onkeypress");
   ("OnKeyup", SVG, "onkeyup");
   ("OnLoad", SVG, "onload");
   ("OnLoadeddata", SVG, "onloadeddata");
   ("OnLoadedmetadata", SVG, "onloadedmetadata");
   ("OnLoadstart", SVG, "onloadstart");
   ("OnMousedown", SVG, "onmousedown");
   ("OnMouseenter", SVG, "onmouseenter");
   ("OnMouseleave", SVG, "onmouseleave");
   ("OnMousemove", SVG, "onmousemove");
   ("OnMouseout", SVG, "onmouseout");
   ("OnMouseover", SVG, "onmouseover");
   ("OnMouseup", SVG, "onmouseup");
   ("OnPaste", SVG, "onpaste");
   ("OnPause", SVG, "onpause");
   ("OnPlay", SVG, "onplay");
   ("OnPlaying", SVG, "onplaying");
   ("OnProgress", SVG, "onprogress");
   ("OnRatechange", SVG, "onratechange");
   ("OnRepeat", SVG, "onrepeat");
   ("OnReset", SVG, "onreset");
   ("OnResize", SVG, "onresize");
   ("OnScroll", SVG, "onscroll");
   ("OnSeeked", SVG, "onseeked");
   ("OnSeeking", SVG, "onseeking");
   ("OnSelect", SVG, "onselect");
   ("OnShow", SVG, "onshow");
   ("OnStalled", SVG, "onstalled");
   ("OnSubmit", SVG, "onsubmit");
   ("OnSuspend", SVG, "onsuspend");
   ("OnTimeupdate", SVG, "ontimeupdate");
   ("OnToggle", SVG, "ontoggle");
   ("OnUnload", SVG, "onunload");
   ("OnVolumechange", SVG, "onvolumechange");
   ("OnWaiting", SVG, "onwaiting");
   ("OnWheel", SVG, "onwheel");
   ("OnZoom", SVG, "onzoom");
   ("OperatorFeComposite", SVG, "operator");
   ("OperatorFeMorphology", SVG, "operator");
   ("Order", SVG, "order");
   ("Orient", SVG, "orient");
   ("Orientation", SVG, "orientation");
   ("Origin", SVG, "origin");
   ("OverlinePosition", SVG, "overline-position");
   ("OverlineThickness", SVG, "overline-thickness");
   ("Panose1", SVG, "panose-1");
   ("Path", SVG, "path");
   ("PathLength", SVG, "pathLength");
   ("PatternContentUnits", SVG, "patternContentUnits");
   ("PatternTransform", SVG, "patternTransform");
   ("PatternUnits", SVG, "patternUnits");
   ("Ping", SVG, "ping");
   ("Pitch", SVG, "pitch");
   ("Playbackorder", SVG, "playbackorder");
   ("Points", SVG, "points");
   ("PointsAtX", SVG, "pointsAtX");
   ("PointsAtY", SVG, "pointsAtY");
   ("PointsAtZ", SVG, "pointsAtZ");
   ("PreserveAlpha", SVG, "preserveAlpha");
   ("PreserveAspectRatio", SVG, "preserveAspectRatio");
   ("PrimitiveUnits", SVG, "primitiveUnits");
   ("Radius", SVG, "radius");
   ("ReferrerPolicy", SVG, "referrerpolicy");
   ("RefX", SVG, "refX");
   ("RefY", SVG, "refY");
   ("Rel", SVG, "rel");
   ("RenderingIntent", SVG, "rendering-intent");
   ("RepeatCount", SVG, "repeatCount");
   ("RepeatDur", SVG, "repeatDur");
   ("RequiredExtensions", SVG, "requiredExtensions");
   ("RequiredFeatures", SVG, "requiredFeatures");
   ("Restart", SVG, "restart");
   ("Result", SVG, "result");
   ("Role", SVG, "role");
   ("RotateText", SVG, "rotate");
   ("RotateAnimate", SVG, "rotate");
   ("RotateHatch", SVG, "rotate");
   ("RX", SVG, "rx");
   ("RY", SVG, "ry");
   ("RGeometry", SVG, "r");
   ("RRadialGradient", SVG, "r");
   ("Scale", SVG, "scale");
   ("Seed", SVG, "seed");
   ("Side", SVG, "side");
   ("SlopeFont", SVG, "slope");
   ("SlopeFe", SVG, "slope");
   ("SolidColor", SVG, "solid-color");
   ("SolidOpacity", SVG, "solid-opacity");
   ("Spacing", SVG, "spacing");
   ("SpecularConstant", SVG, "specularConstant");
   ("SpecularExponent", SVG, "specularExponent");
   ("SpreadMethod", SVG, "spreadMethod");
   ("StartOffset", SVG, "startOffset");
   ("StdDeviationFeDropShadow", SVG, "stdDeviation");
   ("StdDeviationFeGaussianBlur", SVG, "stdDeviation");
   ("Stemh", SVG, "stemh");
   ("Stemv", SVG, "stemv");
   ("StitchTiles", SVG, "stitchTiles");
   ("StrikethroughPosition", SVG, "strikethrough-position");
   ("StrikethroughThickness", SVG, "strikethrough-thickness");
   ("String", SVG, "string");
   ("Style", SVG, "style");
   ("SurfaceScale", SVG, "surfaceScale");
   ("SystemLanguage", SVG, "systemLanguage");
   ("Tabindex", SVG, "tabindex");
   ("TableValues", SVG, "tableValues");
   ("Target", SVG, "target");
   ("TargetX", SVG, "targetX");
   ("TargetY", SVG, "targetY");
   ("TextLength", SVG, "textLength");
   ("Timelinebegin", SVG, "timelinebegin");
   ("Title", SVG, "title");
   ("To", SVG, "to");
   ("TypeA", SVG, "type");
   ("TypeAnimateTransform", SVG, "type");
   ("TypeFeColorMatrix", SVG, "type");
   ("TypeFeFunc", SVG, "type");
   ("TypeFeTurbulence", SVG, "type");
   ("TypeScript", SVG, "type");
   ("TypeStyle", SVG, "type");
   ("U1", SVG, "u1");
   ("U2", SVG, "u2");
   ("UnderlinePosition", SVG, "underline-position");
   ("UnderlineThickness", SVG, "underline-thickness");
   ("Unicode", SVG, "unicode");
   ("UnicodeRange", SVG, "unicode-range");
   ("UnitsPerEm", SVG, "units-per-em");
   ("VAlphabetic", SVG, "v-alphabetic");
   ("VHanging", SVG, "v-hanging");
   ("VIdeographic", SVG, "v-ideographic");
   ("VMathematical", SVG, "v-mathematical");
   ("ValuesFeColorMatrix", SVG, "values");
   ("ValuesAnimate", SVG, "values");
   ("Version", SVG, "version");
   ("VertAdvY", SVG, "vert-adv-y");
   ("VertOriginX", SVG, "vert-origin-x");
   ("VertOriginY", SVG, "vert-origin-y");
   ("ViewBox", SVG, "viewBox");
   ("ViewTarget", SVG, "viewTarget");
   ("WidthFilter", SVG, "width");
   ("WidthForeignObject", SVG, "width");
   ("WidthImage", SVG, "width");
   ("WidthPattern", SVG, "width");
   ("WidthRect", SVG, "width");
   ("WidthSvg", SVG, "width");
   ("WidthSymbol", SVG, "width");
   ("WidthUse", SVG, "width");
   ("WidthFe", SVG, "width");
   ("WidthMask", SVG, "width");
   ("Widths", SVG, "widths");
   ("XAltGlyph", SVG, "x");
   ("XCursor", SVG, "x");
   ("XFe", SVG, "x");
   ("XFePointLight", SVG, "x");
   ("XFeSpotLight", SVG, "x");
   ("XFilter", SVG, "x");
   ("XGeometry", SVG, "x");
   ("XGlyphRef", SVG, "x");
   ("XHatch", SVG, "x");
   ("XMask", SVG, "x");
   ("XPattern", SVG, "x");
   ("XText", SVG, "x");
   ("XTRef", SVG, "x");
   ("XHeight", SVG, "x-height");
   ("X1Line", SVG, "x1");
   ("X1LinearGradient", SVG, "x1");
   ("X2Line", SVG, "x2");
   ("X2LinearGradient", SVG, "x2");
   ("XChannelSelector", SVG, "xChannelSelector");
   ("XLinkActuate", XLink, "actuate");
   ("XLinkArcrole", XLink, "arcrole");
   ("XLinkHref", XLink, "href");
   ("XLinkRole", XLink, "role");
   ("XLinkTitle", XLink, "title");
   ("XLinkType", XLink, "type");
   ("XLinkShow", XLink, "show");
   ("XMLNS", SVG, "xmlns");
   ("XmlBase", XML, "base");
   ("XmlLang", XML, "lang");
   ("XmlSpace", XML, "space");
   ("YAltGlyph", SVG, "y");
   ("YCursor", SVG, "y");
   ("YFe", SVG, "y");
   ("YFePointLight", SVG, "y");
   ("YFeSpotLight", SVG, "y");
   ("YFilter", SVG, "y");
   ("YGeometry", SVG, "y");
   ("YGlyphRef", SVG, "y");
   ("YHatch", SVG, "y");
   ("YMask", SVG, "y");
   ("YPattern", SVG, "y");
   ("YText", SVG, "y");
   ("YTRef", SVG, "y");
   ("Y1Line", SVG, "y1");
   ("Y1LinearGradient", SVG, "y1");
   ("Y2Line", SVG, "y2");
   ("Y2LinearGradient", SVG, "y2");
   ("YChannelSelector", SVG, "yChannelSelector");
   ("ZFe", SVG, "z");
   ("ZoomAndPan", SVG, "zoomAndPan");
   ("AlignmentBaseline", SVG, "alignment-baseline");
   ("BaselineShift", SVG, "baseline-shift");
   ("Clip", SVG, "clip");
   ("ClipPath", SVG, "clip-path");
   ("ClipRule", SVG, "clip-rule");
   ("Color", SVG, "color");
   ("ColorInterpolation", SVG, "color-interpolation");
   ("ColorInterpolationFilters", SVG, "color-interpolation-filters");
   ("ColorProfile", SVG, "color-profile");
   ("ColorRendering", SVG, "color-rendering");
   ("Cursor", SVG, "cursor");
   ("Direction", SVG, "direction");
   ("Display", SVG, "display");
   ("DominantBaseline", SVG, "dominant-baseline");
   ("EnableBackground", SVG, "enable-background");
   ("Fill", SVG, "fill");
   ("FillOpacity", SVG, "fill-opacity");
   ("FillRule", SVG, "fill-rule");
   ("Filter", SVG, "filter");
   ("FloodColor", SVG, "flood-color");
   ("FloodOpacity", SVG, "flood-opacity");
   ("Font", SVG, "font");
   ("FontFamily", SVG, "font-family");
   ("FontSize", SVG, "font-size");
   ("FontSizeAdjust", SVG, "font-size-adjust");
   ("FontStretch", SVG, "font-stretch");
   ("FontStyle", SVG, "font-style");
   ("FontVariant", SVG, "font-variant");
   ("FontWeight", SVG, "font-weight");
   ("GlyphOrientationHorizontal", SVG, "glyph-orientation-horizontal");
   ("GlyphOrientationVertical", SVG, "glyph-orientation-vertical");
   ("ImageRendering", SVG, "image-rendering");
   ("Kerning", SVG, "kerning");
   ("LetterSpacing", SVG, "letter-spacing");
   ("LightingColor", SVG, "lighting-color");
   ("MarkerEnd", SVG, "marker-end");
   ("MarkerMid", SVG, "marker-mid");
   ("MarkerStart", SVG, "marker-start");
   ("Marker", SVG, "marker");
   ("Mask", SVG, "mask");
   ("Opacity", SVG, "opacity");
   ("Overflow", SVG, "overflow");
   ("PaintOrder", SVG, "paint-order");
   ("PointerEvents", SVG, "pointer-events");
   ("ShapeRendering", SVG, "shape-rendering");
   ("StopColor", SVG, "stop-color");
   ("StopOpacity", SVG, "stop-opacity");
   ("Stroke", SVG, "stroke");
   ("StrokeDasharray", SVG, "stroke-dasharray");
   ("StrokeDashoffset", SVG, "stroke-dashoffset");
   ("StrokeLinecap", SVG, "stroke-linecap");
   ("StrokeLinejoin", SVG, "stroke-linejoin");
   ("StrokeMiterlimit", SVG, "stroke-miterlimit");
   ("StrokeOpacity", SVG, "stroke-opacity");
   ("StrokeWidth", SVG, "stroke-width");
   ("TextAnchor", SVG, "text-anchor");
   ("TextDecoration", SVG, "text-decoration");
   ("TextRendering", SVG, "text-rendering");
   ("Transform", SVG, "transform");
   ("TransformOrigin", SVG, "transform-origin");
   ("UnicodeBidi", SVG, "unicode-bidi");
   ("VectorEffect", SVG, "vector-effect");
   ("Visibility", SVG, "visibility");
   ("WordSpacing", SVG, "word-spacing");
   ("WritingMode", SVG, "writing-mode")]%string.
