(** Defaults and types of the known attributes. *)
From Coq Require Import String List.
Import ListNotations.
Local Open Scope string_scope.

(** crates/oxvg_collections/src/attribute.rs 562-2607, the [default] of each attribute of the [define_attrs!] invocation that has one, as the text it is written as.
    A [Percentage(1.0)] is written [100%] (crates/oxvg_ast/src/parse/roxmltree.rs:475 reads it so), so a default of [Percentage(50.0)] is [5000%]. *)
Definition default_rows : list (string * string) := [
   ("Accumulate", "none") (* 570 *);
   ("Additive", "replace") (* 575 *);
   ("Amplitude", "1") (* 584 *);
   ("ArabicForm", "initial") (* 589 *);
   ("AriaAutocomplete", "none") (* 602 *);
   ("AriaBusy", "false") (* 607 *);
   ("AriaCurrent", "false") (* 632 *);
   ("AriaDisabled", "false") (* 645 *);
   ("AriaDropEffect", "none") (* 650 *);
   ("AriaExpanded", "undefined") (* 662 *);
   ("AriaGrabbed", "undefined") (* 671 *);
   ("AriaHasPopup", "false") (* 676 *);
   ("AriaHidden", "undefined") (* 681 *);
   ("AriaInvalid", "false") (* 686 *);
   ("AriaLive", "off") (* 707 *);
   ("AriaModal", "false") (* 712 *);
   ("AriaMultiline", "false") (* 717 *);
   ("AriaMultiselectable", "false") (* 722 *);
   ("AriaOrientation", "undefined") (* 727 *);
   ("AriaReadonly", "false") (* 748 *);
   ("AriaRequired", "false") (* 757 *);
   ("AriaSelected", "undefined") (* 778 *);
   ("AriaSort", "none") (* 787 *);
   ("AttributeType", "auto") (* 817 *);
   ("Azimuth", "0") (* 825 *);
   ("BaseFrequency", "0") (* 829 *);
   ("BaseProfile", "none") (* 834 *);
   ("Bias", "0") (* 847 *);
   ("ClipPathUnits", "userSpaceOnUse") (* 867 *);
   ("ContentScriptType", "application/ecmascript") (* 872 *);
   ("ContentStyleType", "text/css") (* 877 *);
   ("CXGeometry", "0") (* 884 *);
   ("CXRadialGradient", "50") (* 888 *);
   ("CYGeometry", "0") (* 892 *);
   ("CYRadialGradient", "50") (* 896 *);
   ("D", "") (* 900 *);
   ("DiffuseConstant", "1") (* 908 *);
   ("Divisor", "1") (* 912 *);
   ("DXFeDropShadow", "2") (* 927 *);
   ("DXFeOffset", "0") (* 931 *);
   ("DXGlyphRef", "0") (* 936 *);
   ("DYFeDropShadow", "2") (* 950 *);
   ("DYFeOffset", "0") (* 954 *);
   ("EdgeModeFeConvolveMatrix", "duplicate") (* 968 *);
   ("EdgeModeFeGaussianBlur", "none") (* 972 *);
   ("Elevation", "0") (* 976 *);
   ("Exponent", "1") (* 985 *);
   ("ExternalResourcesRequired", "false") (* 990 *);
   ("FillAnimate", "remove") (* 995 *);
   ("FR", "0%") (* 1010 *);
   ("GradientUnits", "objectBoundingBox") (* 1043 *);
   ("HatchContentUnits", "userSpaceOnUse") (* 1053 *);
   ("HatchUnits", "objectBoundingBox") (* 1059 *);
   ("HeightFilter", "12000%") (* 1063 *);
   ("HeightPattern", "0%") (* 1073 *);
   ("HeightSvg", "10000%") (* 1080 *);
   ("HeightMask", "12000%") (* 1095 *);
   ("HorizOriginX", "0") (* 1104 *);
   ("HorizOriginY", "0") (* 1109 *);
   ("Intercept", "0") (* 1135 *);
   ("K1", "0") (* 1143 *);
   ("K2", "0") (* 1147 *);
   ("K3", "0") (* 1151 *);
   ("K4", "0") (* 1155 *);
   ("LengthAdjust", "spacing") (* 1180 *);
   ("MarkerHeight", "3") (* 1191 *);
   ("MarkerUnits", "strokeWidth") (* 1195 *);
   ("MarkerWidth", "3") (* 1199 *);
   ("MaskContentUnits", "userSpaceOnUse") (* 1203 *);
   ("MaskUnits", "objectBoundingBox") (* 1207 *);
   ("Media", "all") (* 1219 *);
   ("Method", "align") (* 1229 *);
   ("Mode", "normal") (* 1237 *);
   ("NameColorProfile", "sRGB") (* 1242 *);
   ("NumOctaves", "1") (* 1250 *);
   ("OffsetFe", "0") (* 1258 *);
   ("OperatorFeComposite", "over") (* 1556 *);
   ("OperatorFeMorphology", "erode") (* 1560 *);
   ("Order", "3") (* 1564 *);
   ("Orient", "0") (* 1568 *);
   ("Origin", "default") (* 1576 *);
   ("Panose1", "0 0 0 0 0 0 0 0 0 0") (* 1589 *);
   ("PatternContentUnits", "userSpaceOnUse") (* 1602 *);
   ("PatternUnits", "objectBoundingBox") (* 1609 *);
   ("Pitch", "0") (* 1617 *);
   ("Playbackorder", "all") (* 1621 *);
   ("PointsAtX", "0") (* 1628 *);
   ("PointsAtY", "0") (* 1632 *);
   ("PointsAtZ", "0") (* 1636 *);
   ("PreserveAlpha", "false") (* 1640 *);
   ("PreserveAspectRatio", "xMidYMid") (* 1644 *);
   ("PrimitiveUnits", "userSpaceOnUse") (* 1648 *);
   ("Radius", "0") (* 1652 *);
   ("RefX", "0") (* 1659 *);
   ("RefY", "0") (* 1663 *);
   ("RenderingIntent", "auto") (* 1671 *);
   ("Restart", "always") (* 1693 *);
   ("RotateAnimate", "0") (* 1708 *);
   ("RotateHatch", "0deg") (* 1712 *);
   ("RGeometry", "0") (* 1722 *);
   ("RRadialGradient", "5000%") (* 1726 *);
   ("Scale", "0") (* 1730 *);
   ("Seed", "0") (* 1734 *);
   ("Side", "left") (* 1738 *);
   ("SlopeFont", "0") (* 1743 *);
   ("SlopeFe", "1") (* 1748 *);
   ("Spacing", "exact") (* 1760 *);
   ("SpecularConstant", "1") (* 1764 *);
   ("SpecularExponent", "1") (* 1768 *);
   ("SpreadMethod", "pad") (* 1772 *);
   ("StartOffset", "0") (* 1776 *);
   ("StdDeviationFeDropShadow", "2") (* 1780 *);
   ("StdDeviationFeGaussianBlur", "0") (* 1784 *);
   ("StitchTiles", "noStitch") (* 1796 *);
   ("SurfaceScale", "1") (* 1816 *);
   ("TableValues", "") (* 1829 *);
   ("Target", "_self") (* 1836 *);
   ("Timelinebegin", "loadend") (* 1849 *);
   ("TypeAnimateTransform", "translate") (* 1863 *);
   ("TypeFeColorMatrix", "matrix") (* 1867 *);
   ("TypeFeFunc", "identity") (* 1872 *);
   ("TypeFeTurbulence", "turbulence") (* 1876 *);
   ("TypeScript", "application/ecmascript") (* 1880 *);
   ("TypeStyle", "text/css") (* 1884 *);
   ("UnicodeRange", "U+0-10FFFF") (* 1909 *);
   ("UnitsPerEm", "1000") (* 1914 *);
   ("Version", "1.1") (* 1943 *);
   ("WidthFilter", "12000%") (* 1966 *);
   ("WidthPattern", "0%") (* 1976 *);
   ("WidthSvg", "10000%") (* 1983 *);
   ("WidthMask", "12000%") (* 1998 *);
   ("XCursor", "0") (* 2011 *);
   ("XFe", "0%") (* 2016 *);
   ("XFePointLight", "0") (* 2020 *);
   ("XFeSpotLight", "0") (* 2024 *);
   ("XFilter", "-1000%") (* 2028 *);
   ("XGeometry", "0") (* 2032 *);
   ("XHatch", "0%") (* 2042 *);
   ("XMask", "-1000%") (* 2046 *);
   ("XPattern", "0") (* 2050 *);
   ("XText", "0") (* 2054 *);
   ("X1Line", "0") (* 2068 *);
   ("X1LinearGradient", "0%") (* 2072 *);
   ("X2Line", "0") (* 2076 *);
   ("X2LinearGradient", "10000%") (* 2080 *);
   ("XChannelSelector", "A") (* 2084 *);
   ("YCursor", "0") (* 2150 *);
   ("YFe", "0%") (* 2155 *);
   ("YFePointLight", "0") (* 2159 *);
   ("YFeSpotLight", "0") (* 2163 *);
   ("YFilter", "-1000%") (* 2167 *);
   ("YGeometry", "0") (* 2171 *);
   ("YHatch", "0%") (* 2180 *);
   ("YMask", "-1000%") (* 2184 *);
   ("YPattern", "0") (* 2188 *);
   ("YText", "0") (* 2192 *);
   ("Y1Line", "0%") (* 2202 *);
   ("Y1LinearGradient", "-1000%") (* 2206 *);
   ("Y2Line", "0%") (* 2210 *);
   ("Y2LinearGradient", "0%") (* 2214 *);
   ("YChannelSelector", "A") (* 2218 *);
   ("ZFe", "0") (* 2222 *);
   ("ZoomAndPan", "magnify") (* 2227 *);
   ("Clip", "auto") (* 2242 *);
   ("ClipPath", "none") (* 2248 *);
   ("ClipRule", "nonzero") (* 2254 *);
   ("ColorInterpolation", "sRGB") (* 2265 *);
   ("ColorInterpolationFilters", "linearRGB") (* 2271 *);
   ("ColorProfile", "auto") (* 2278 *);
   ("ColorRendering", "auto") (* 2285 *);
   ("Cursor", "auto") (* 2291 *);
   ("DominantBaseline", "auto") (* 2310 *);
   ("FillOpacity", "1") (* 2326 *);
   ("FillRule", "nonzero") (* 2332 *);
   ("FloodOpacity", "1") (* 2346 *);
   ("FontSize", "medium") (* 2363 *);
   ("FontSizeAdjust", "none") (* 2369 *);
   ("FontStretch", "normal") (* 2375 *);
   ("FontStyle", "normal") (* 2382 *);
   ("FontVariant", "normal") (* 2388 *);
   ("FontWeight", "normal") (* 2395 *);
   ("GlyphOrientationHorizontal", "0deg") (* 2402 *);
   ("ImageRendering", "auto") (* 2414 *);
   ("Kerning", "auto") (* 2420 *);
   ("LetterSpacing", "normal") (* 2426 *);
   ("MarkerEnd", "none") (* 2436 *);
   ("MarkerMid", "none") (* 2442 *);
   ("MarkerStart", "none") (* 2448 *);
   ("Opacity", "1") (* 2470 *);
   ("PaintOrder", "normal") (* 2480 *);
   ("PointerEvents", "visiblePainted") (* 2486 *);
   ("ShapeRendering", "auto") (* 2492 *);
   ("StopOpacity", "1") (* 2501 *);
   ("StrokeDashoffset", "0") (* 2517 *);
   ("StrokeLinecap", "butt") (* 2523 *);
   ("StrokeLinejoin", "miter") (* 2529 *);
   ("StrokeMiterlimit", "4") (* 2535 *);
   ("StrokeOpacity", "1") (* 2541 *);
   ("StrokeWidth", "1") (* 2547 *);
   ("TextAnchor", "start") (* 2553 *);
   ("TextRendering", "auto") (* 2564 *);
   ("TransformOrigin", "5000% 5000%") (* 2574 *);
   ("UnicodeBidi", "normal") (* 2583 *);
   ("VectorEffect", "none") (* 2588 *);
   ("Visibility", "visible") (* 2594 *);
   ("WordSpacing", "normal") (* 2600 *)].

(** attribute.rs 562-2607: the attributes whose type is [Inheritable<_>]. *)
Definition inheritable_types : list string := [
   "AlignmentBaseline";
   "BaselineShift";
   "Clip";
   "ClipPath";
   "ClipRule";
   "Color";
   "ColorInterpolation";
   "ColorInterpolationFilters";
   "ColorProfile";
   "ColorRendering";
   "Cursor";
   "Direction";
   "Display";
   "DominantBaseline";
   "EnableBackground";
   "Fill";
   "FillOpacity";
   "FillRule";
   "Filter";
   "FloodColor";
   "FloodOpacity";
   "Font";
   "FontFamily";
   "FontSize";
   "FontSizeAdjust";
   "FontStretch";
   "FontStyle";
   "FontVariant";
   "FontWeight";
   "GlyphOrientationHorizontal";
   "GlyphOrientationVertical";
   "ImageRendering";
   "Kerning";
   "LetterSpacing";
   "LightingColor";
   "MarkerEnd";
   "MarkerMid";
   "MarkerStart";
   "Marker";
   "Mask";
   "Opacity";
   "Overflow";
   "PaintOrder";
   "PointerEvents";
   "ShapeRendering";
   "StopColor";
   "StopOpacity";
   "Stroke";
   "StrokeDasharray";
   "StrokeDashoffset";
   "StrokeLinecap";
   "StrokeLinejoin";
   "StrokeMiterlimit";
   "StrokeOpacity";
   "StrokeWidth";
   "TextAnchor";
   "TextDecoration";
   "TextRendering";
   "Transform";
   "UnicodeBidi";
   "Visibility";
   "WordSpacing";
   "WritingMode"].
