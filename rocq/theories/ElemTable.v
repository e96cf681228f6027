(** The known elements, and the groups and flags of the known attributes. *)
From Coq Require Import String List NArith.
From Verif Require Import Chars.
Import ListNotations.

(** crates/oxvg_collections/src/attribute.rs 562-2607, the [define_attrs!] invocation, in the order of [attr_table]: the
    groups ([AttributeGroup], attribute/group.rs 13-48) and flags ([AttributeInfo], attribute/group.rs 102-118)
    of each attribute, as bits. *)
Definition attr_groups : list (N * N) := [
   (0, 2) (* AccentHeight *);
   (1, 0) (* Accumulate *);
   (1, 0) (* Additive *);
   (0, 2) (* Alphabetic *);
   (32768, 0) (* Amplitude *);
   (0, 2) (* ArabicForm *);
   (64, 0) (* AriaActiveDescendant *);
   (64, 0) (* AriaAtomic *);
   (64, 0) (* AriaAutocomplete *);
   (64, 0) (* AriaBusy *);
   (64, 0) (* AriaChecked *);
   (64, 0) (* AriaColCount *);
   (64, 0) (* AriaColIndex *);
   (64, 0) (* AriaColSpan *);
   (64, 0) (* AriaControls *);
   (64, 0) (* AriaCurrent *);
   (64, 0) (* AriaDescribedBy *);
   (64, 0) (* AriaDetails *);
   (64, 0) (* AriaDisabled *);
   (64, 0) (* AriaDropEffect *);
   (64, 0) (* AriaErrorMessage *);
   (64, 0) (* AriaExpanded *);
   (64, 0) (* AriaFlowTo *);
   (64, 0) (* AriaGrabbed *);
   (64, 0) (* AriaHasPopup *);
   (64, 0) (* AriaHidden *);
   (64, 0) (* AriaInvalid *);
   (64, 0) (* AriaKeyshortcuts *);
   (64, 0) (* AriaLabel *);
   (64, 0) (* AriaLabelledBy *);
   (64, 0) (* AriaLevel *);
   (64, 0) (* AriaLive *);
   (64, 0) (* AriaModal *);
   (64, 0) (* AriaMultiline *);
   (64, 0) (* AriaMultiselectable *);
   (64, 0) (* AriaOrientation *);
   (64, 0) (* AriaOwns *);
   (64, 0) (* AriaPlaceholder *);
   (64, 0) (* AriaPosInSet *);
   (64, 0) (* AriaPressed *);
   (64, 0) (* AriaReadonly *);
   (64, 0) (* AriaRelevant *);
   (64, 0) (* AriaRequired *);
   (64, 0) (* AriaRoleDescription *);
   (64, 0) (* AriaRowCount *);
   (64, 0) (* AriaRowIndex *);
   (64, 0) (* AriaRowSpan *);
   (64, 0) (* AriaSelected *);
   (64, 0) (* AriaSetSize *);
   (64, 0) (* AriaSort *);
   (64, 0) (* AriaValueMax *);
   (64, 0) (* AriaValueMin *);
   (64, 0) (* AriaValueNow *);
   (64, 0) (* AriaValueText *);
   (0, 2) (* Ascent *);
   (2, 0) (* AttributeName *);
   (2, 2) (* AttributeType *);
   (256, 0) (* AutoFocus *);
   (0, 0) (* Azimuth *);
   (0, 0) (* BaseFrequency *);
   (0, 2) (* BaseProfile *);
   (0, 2) (* Bbox *);
   (16, 0) (* Begin *);
   (0, 0) (* Bias *);
   (32, 0) (* By *);
   (32, 0) (* CalcMode *);
   (0, 2) (* CapHeight *);
   (256, 0) (* Class *);
   (0, 0) (* ClipPathUnits *);
   (0, 2) (* ContentScriptType *);
   (0, 2) (* ContentStyleType *);
   (0, 0) (* CrossOrigin *);
   (0, 0) (* CXGeometry *);
   (0, 0) (* CXRadialGradient *);
   (0, 0) (* CYGeometry *);
   (0, 0) (* CYRadialGradient *);
   (0, 0) (* D *);
   (0, 2) (* Descent *);
   (0, 0) (* DiffuseConstant *);
   (0, 0) (* Divisor *);
   (0, 0) (* Download *);
   (16, 0) (* Dur *);
   (0, 2) (* DXAltGlyph *);
   (0, 0) (* DXFeDropShadow *);
   (0, 0) (* DXFeOffset *);
   (0, 2) (* DXGlyphRef *);
   (0, 0) (* DXText *);
   (0, 0) (* DXTSpan *);
   (0, 2) (* DYAltGlyph *);
   (0, 0) (* DYFeDropShadow *);
   (0, 0) (* DYFeOffset *);
   (0, 2) (* DYGlyphRef *);
   (0, 0) (* DYText *);
   (0, 0) (* DYTSpan *);
   (0, 0) (* EdgeModeFeConvolveMatrix *);
   (0, 0) (* EdgeModeFeGaussianBlur *);
   (0, 0) (* Elevation *);
   (16, 0) (* End *);
   (32768, 0) (* Exponent *);
   (0, 2) (* ExternalResourcesRequired *);
   (16, 0) (* FillAnimate *);
   (0, 2) (* FilterRes *);
   (0, 0) (* FilterUnits *);
   (0, 2) (* Format *);
   (0, 0) (* FR *);
   (32, 0) (* From *);
   (0, 0) (* FX *);
   (0, 0) (* FY *);
   (0, 2) (* G1 *);
   (0, 2) (* G2 *);
   (0, 2) (* GlyphName *);
   (0, 2) (* GlyphRef *);
   (0, 0) (* GradientTransform *);
   (0, 0) (* GradientUnits *);
   (0, 2) (* Hanging *);
   (0, 2) (* HatchContentUnits *);
   (0, 2) (* HatchUnits *);
   (0, 0) (* HeightFilter *);
   (0, 0) (* HeightForeignObject *);
   (0, 0) (* HeightImage *);
   (0, 0) (* HeightPattern *);
   (0, 0) (* HeightRect *);
   (0, 0) (* HeightSvg *);
   (0, 0) (* HeightSymbol *);
   (0, 0) (* HeightUse *);
   (2048, 0) (* HeightFe *);
   (0, 0) (* HeightMask *);
   (0, 2) (* HorizAdvX *);
   (0, 2) (* HorizOriginX *);
   (0, 2) (* HorizOriginY *);
   (8, 0) (* Href *);
   (0, 0) (* Hreflang *);
   (256, 0) (* Id *);
   (0, 2) (* Ideographic *);
   (0, 0) (* In *);
   (0, 0) (* In2 *);
   (32768, 0) (* Intercept *);
   (0, 2) (* K *);
   (0, 0) (* K1 *);
   (0, 0) (* K2 *);
   (0, 0) (* K3 *);
   (0, 0) (* K4 *);
   (0, 0) (* KernelMatrix *);
   (0, 0) (* KernelUnitLength *);
   (0, 0) (* KeyPoints *);
   (32, 0) (* KeySplines *);
   (32, 0) (* KeyTimes *);
   (256, 0) (* Lang *);
   (0, 0) (* LengthAdjust *);
   (0, 0) (* LimitingConeAngle *);
   (0, 2) (* Local *);
   (0, 0) (* MarkerHeight *);
   (0, 0) (* MarkerUnits *);
   (0, 0) (* MarkerWidth *);
   (0, 0) (* MaskContentUnits *);
   (0, 0) (* MaskUnits *);
   (0, 2) (* Mathematical *);
   (16, 0) (* Max *);
   (0, 0) (* Media *);
   (0, 0) (* Method *);
   (16, 0) (* Min *);
   (0, 0) (* Mode *);
   (0, 2) (* NameColorProfile *);
   (0, 2) (* NameFontFace *);
   (0, 0) (* NumOctaves *);
   (0, 0) (* OffsetStop *);
   (32768, 0) (* OffsetFe *);
   (0, 2) (* OffsetHatchPath *);
   (512, 0) (* OnAbort *);
   (4096, 0) (* OnActivate *);
   (4, 0) (* OnBegin *);
   (8192, 0) (* OnCancel *);
   (8192, 0) (* OnCanplay *);
   (8192, 0) (* OnCanplaythrough *);
   (8192, 0) (* OnChange *);
   (12288, 0) (* OnClick *);
   (8192, 0) (* OnClose *);
   (9216, 0) (* OnCopy *);
   (8192, 0) (* OnCuechange *);
   (9216, 0) (* OnCut *);
   (8192, 0) (* OnDblclick *);
   (8192, 0) (* OnDrag *);
   (8192, 0) (* OnDragend *);
   (8192, 0) (* OnDragenter *);
   (8192, 0) (* OnDragexit *);
   (8192, 0) (* OnDragleave *);
   (8192, 0) (* OnDragover *);
   (8192, 0) (* OnDragstart *);
   (8192, 0) (* OnDrop *);
   (8192, 0) (* OnDurationchange *);
   (8192, 0) (* OnEmptied *);
   (4, 0) (* OnEnd *);
   (8192, 0) (* OnEnded *);
   (8704, 0) (* OnError *);
   (4096, 0) (* OnFocusIn *);
   (4096, 0) (* OnFocusOut *);
   (8192, 0) (* OnFocus *);
   (8192, 0) (* OnInput *);
   (8192, 0) (* OnInvalid *);
   (8192, 0) (* OnKeydown *);
   (8192, 0) (* OnKeypress *);
   (8192, 0) (* OnKeyup *);
   (12292, 0) (* OnLoad *);
   (8192, 0) (* OnLoadeddata *);
   (8192, 0) (* OnLoadedmetadata *);
   (8192, 0) (* OnLoadstart *);
   (12288, 0) (* OnMousedown *);
   (8192, 0) (* OnMouseenter *);
   (8192, 0) (* OnMouseleave *);
   (12288, 0) (* OnMousemove *);
   (12288, 0) (* OnMouseout *);
   (12288, 0) (* OnMouseover *);
   (12288, 0) (* OnMouseup *);
   (9216, 0) (* OnPaste *);
   (8192, 0) (* OnPause *);
   (8192, 0) (* OnPlay *);
   (8192, 0) (* OnPlaying *);
   (8192, 0) (* OnProgress *);
   (8192, 0) (* OnRatechange *);
   (4, 0) (* OnRepeat *);
   (8192, 0) (* OnReset *);
   (8704, 0) (* OnResize *);
   (8704, 0) (* OnScroll *);
   (8192, 0) (* OnSeeked *);
   (8192, 0) (* OnSeeking *);
   (8192, 0) (* OnSelect *);
   (8192, 0) (* OnShow *);
   (8192, 0) (* OnStalled *);
   (8192, 0) (* OnSubmit *);
   (8192, 0) (* OnSuspend *);
   (8192, 0) (* OnTimeupdate *);
   (8192, 0) (* OnToggle *);
   (512, 0) (* OnUnload *);
   (8192, 0) (* OnVolumechange *);
   (8192, 0) (* OnWaiting *);
   (8192, 0) (* OnWheel *);
   (512, 0) (* OnZoom *);
   (0, 0) (* OperatorFeComposite *);
   (0, 0) (* OperatorFeMorphology *);
   (0, 0) (* Order *);
   (0, 0) (* Orient *);
   (0, 2) (* Orientation *);
   (0, 0) (* Origin *);
   (0, 2) (* OverlinePosition *);
   (0, 2) (* OverlineThickness *);
   (0, 2) (* Panose1 *);
   (0, 0) (* Path *);
   (0, 0) (* PathLength *);
   (0, 0) (* PatternContentUnits *);
   (0, 0) (* PatternTransform *);
   (0, 0) (* PatternUnits *);
   (0, 0) (* Ping *);
   (0, 2) (* Pitch *);
   (0, 0) (* Playbackorder *);
   (0, 0) (* Points *);
   (0, 0) (* PointsAtX *);
   (0, 0) (* PointsAtY *);
   (0, 0) (* PointsAtZ *);
   (0, 0) (* PreserveAlpha *);
   (0, 0) (* PreserveAspectRatio *);
   (0, 0) (* PrimitiveUnits *);
   (0, 0) (* Radius *);
   (0, 0) (* ReferrerPolicy *);
   (0, 0) (* RefX *);
   (0, 0) (* RefY *);
   (0, 0) (* Rel *);
   (0, 2) (* RenderingIntent *);
   (16, 0) (* RepeatCount *);
   (16, 0) (* RepeatDur *);
   (128, 0) (* RequiredExtensions *);
   (128, 2) (* RequiredFeatures *);
   (16, 0) (* Restart *);
   (2048, 0) (* Result *);
   (64, 0) (* Role *);
   (0, 0) (* RotateText *);
   (0, 0) (* RotateAnimate *);
   (0, 0) (* RotateHatch *);
   (0, 0) (* RX *);
   (0, 0) (* RY *);
   (0, 0) (* RGeometry *);
   (0, 0) (* RRadialGradient *);
   (0, 0) (* Scale *);
   (0, 0) (* Seed *);
   (0, 0) (* Side *);
   (0, 2) (* SlopeFont *);
   (32768, 0) (* SlopeFe *);
   (0, 0) (* SolidColor *);
   (0, 0) (* SolidOpacity *);
   (0, 0) (* Spacing *);
   (0, 0) (* SpecularConstant *);
   (0, 0) (* SpecularExponent *);
   (0, 0) (* SpreadMethod *);
   (0, 0) (* StartOffset *);
   (0, 0) (* StdDeviationFeDropShadow *);
   (0, 0) (* StdDeviationFeGaussianBlur *);
   (0, 2) (* Stemh *);
   (0, 2) (* Stemv *);
   (0, 0) (* StitchTiles *);
   (0, 2) (* StrikethroughPosition *);
   (0, 2) (* StrikethroughThickness *);
   (0, 2) (* String *);
   (256, 0) (* Style *);
   (0, 0) (* SurfaceScale *);
   (128, 0) (* SystemLanguage *);
   (256, 0) (* Tabindex *);
   (32768, 0) (* TableValues *);
   (0, 0) (* Target *);
   (0, 0) (* TargetX *);
   (0, 0) (* TargetY *);
   (0, 0) (* TextLength *);
   (0, 0) (* Timelinebegin *);
   (0, 0) (* Title *);
   (32, 0) (* To *);
   (0, 0) (* TypeA *);
   (0, 0) (* TypeAnimateTransform *);
   (0, 0) (* TypeFeColorMatrix *);
   (32768, 0) (* TypeFeFunc *);
   (0, 0) (* TypeFeTurbulence *);
   (0, 0) (* TypeScript *);
   (0, 0) (* TypeStyle *);
   (0, 2) (* U1 *);
   (0, 2) (* U2 *);
   (0, 2) (* UnderlinePosition *);
   (0, 2) (* UnderlineThickness *);
   (0, 2) (* Unicode *);
   (0, 2) (* UnicodeRange *);
   (0, 2) (* UnitsPerEm *);
   (0, 2) (* VAlphabetic *);
   (0, 2) (* VHanging *);
   (0, 2) (* VIdeographic *);
   (0, 2) (* VMathematical *);
   (0, 0) (* ValuesFeColorMatrix *);
   (32, 0) (* ValuesAnimate *);
   (0, 1) (* Version *);
   (0, 2) (* VertAdvY *);
   (0, 2) (* VertOriginX *);
   (0, 2) (* VertOriginY *);
   (0, 0) (* ViewBox *);
   (0, 2) (* ViewTarget *);
   (0, 0) (* WidthFilter *);
   (0, 0) (* WidthForeignObject *);
   (0, 0) (* WidthImage *);
   (0, 0) (* WidthPattern *);
   (0, 0) (* WidthRect *);
   (0, 0) (* WidthSvg *);
   (0, 0) (* WidthSymbol *);
   (0, 0) (* WidthUse *);
   (2048, 0) (* WidthFe *);
   (0, 0) (* WidthMask *);
   (0, 2) (* Widths *);
   (0, 2) (* XAltGlyph *);
   (0, 2) (* XCursor *);
   (2048, 0) (* XFe *);
   (0, 0) (* XFePointLight *);
   (0, 0) (* XFeSpotLight *);
   (0, 0) (* XFilter *);
   (0, 0) (* XGeometry *);
   (0, 2) (* XGlyphRef *);
   (0, 2) (* XHatch *);
   (0, 0) (* XMask *);
   (0, 0) (* XPattern *);
   (0, 0) (* XText *);
   (0, 0) (* XTRef *);
   (0, 2) (* XHeight *);
   (0, 0) (* X1Line *);
   (0, 0) (* X1LinearGradient *);
   (0, 0) (* X2Line *);
   (0, 0) (* X2LinearGradient *);
   (0, 0) (* XChannelSelector *);
   (65536, 0) (* XLinkActuate *);
   (65536, 0) (* XLinkArcrole *);
   (65536, 0) (* XLinkHref *);
   (65536, 0) (* XLinkRole *);
   (65536, 0) (* XLinkTitle *);
   (65536, 0) (* XLinkType *);
   (65536, 0) (* XLinkShow *);
   (256, 0) (* XMLNS *);
   (256, 2) (* XmlBase *);
   (256, 2) (* XmlLang *);
   (256, 2) (* XmlSpace *);
   (0, 2) (* YAltGlyph *);
   (0, 2) (* YCursor *);
   (2048, 0) (* YFe *);
   (0, 0) (* YFePointLight *);
   (0, 0) (* YFeSpotLight *);
   (0, 0) (* YFilter *);
   (0, 0) (* YGeometry *);
   (0, 2) (* YGlyphRef *);
   (0, 2) (* YHatch *);
   (0, 0) (* YMask *);
   (0, 0) (* YPattern *);
   (0, 0) (* YText *);
   (0, 0) (* YTRef *);
   (0, 0) (* Y1Line *);
   (0, 0) (* Y1LinearGradient *);
   (0, 0) (* Y2Line *);
   (0, 0) (* Y2LinearGradient *);
   (0, 0) (* YChannelSelector *);
   (0, 0) (* ZFe *);
   (0, 2) (* ZoomAndPan *);
   (16384, 0) (* AlignmentBaseline *);
   (16384, 0) (* BaselineShift *);
   (16384, 0) (* Clip *);
   (16384, 8) (* ClipPath *);
   (16384, 4) (* ClipRule *);
   (16384, 4) (* Color *);
   (16384, 4) (* ColorInterpolation *);
   (16384, 4) (* ColorInterpolationFilters *);
   (16384, 6) (* ColorProfile *);
   (16384, 6) (* ColorRendering *);
   (16384, 4) (* Cursor *);
   (16384, 4) (* Direction *);
   (16384, 8) (* Display *);
   (16384, 4) (* DominantBaseline *);
   (16384, 2) (* EnableBackground *);
   (16384, 4) (* Fill *);
   (16384, 4) (* FillOpacity *);
   (16384, 4) (* FillRule *);
   (16384, 8) (* Filter *);
   (16384, 0) (* FloodColor *);
   (16384, 0) (* FloodOpacity *);
   (16384, 4) (* Font *);
   (16384, 4) (* FontFamily *);
   (16384, 4) (* FontSize *);
   (16384, 4) (* FontSizeAdjust *);
   (16384, 4) (* FontStretch *);
   (16384, 4) (* FontStyle *);
   (16384, 4) (* FontVariant *);
   (16384, 4) (* FontWeight *);
   (16384, 6) (* GlyphOrientationHorizontal *);
   (16384, 6) (* GlyphOrientationVertical *);
   (16384, 4) (* ImageRendering *);
   (16384, 2) (* Kerning *);
   (16384, 4) (* LetterSpacing *);
   (16384, 0) (* LightingColor *);
   (16384, 4) (* MarkerEnd *);
   (16384, 4) (* MarkerMid *);
   (16384, 4) (* MarkerStart *);
   (16384, 4) (* Marker *);
   (16384, 8) (* Mask *);
   (16384, 8) (* Opacity *);
   (16384, 0) (* Overflow *);
   (16384, 4) (* PaintOrder *);
   (16384, 4) (* PointerEvents *);
   (16384, 4) (* ShapeRendering *);
   (16384, 0) (* StopColor *);
   (16384, 0) (* StopOpacity *);
   (16384, 4) (* Stroke *);
   (16384, 4) (* StrokeDasharray *);
   (16384, 4) (* StrokeDashoffset *);
   (16384, 4) (* StrokeLinecap *);
   (16384, 4) (* StrokeLinejoin *);
   (16384, 4) (* StrokeMiterlimit *);
   (16384, 4) (* StrokeOpacity *);
   (16384, 4) (* StrokeWidth *);
   (16384, 4) (* TextAnchor *);
   (16384, 8) (* TextDecoration *);
   (16384, 4) (* TextRendering *);
   (16384, 8) (* Transform *);
   (16384, 0) (* TransformOrigin *);
   (16384, 8) (* UnicodeBidi *);
   (16384, 0) (* VectorEffect *);
   (16384, 4) (* Visibility *);
   (16384, 4) (* WordSpacing *);
   (16384, 4) (* WritingMode *)
  ]%N.

(** element.rs 377-2153 (crates/oxvg_collections/src), the [define_elements!] invocation: for each variant of [ElementId] its
    identifier and local name, the bits of its categories ([ElementCategory], element/category.rs 12-51), of the
    permitted categories, the permitted elements, the bits of the expected attribute groups, the expected attributes
    and the flags ([ElementInfo], element/category.rs 94-99). *)
Definition elem_rows : list (string * string * N * N * list string * N * list string * N) := [
   ("A", "a", 2052%N, 12329%N, ["A"; "AltGlyphDef"; "ClipPath"; "ColorProfile"; "Cursor"; "Filter"; "Font"; "FontFace"; "ForeignObject"; "Image"; "Marker"; "Mask"; "Pattern"; "Script"; "Style"; "Switch"; "Text"; "View"], 95424%N, ["Class"; "ExternalResourcesRequired"; "Download"; "Href"; "Hreflang"; "Ping"; "ReferrerPolicy"; "Rel"; "Target"; "TypeA"], 0%N);
   ("AltGlyph", "altGlyph", 98304%N, 524287%N, [], 86144%N, ["ExternalResourcesRequired"; "XAltGlyph"; "YAltGlyph"; "DXAltGlyph"; "DYAltGlyph"; "GlyphRef"; "Format"; "RotateText"], 0%N);
   ("AltGlyphDef", "altGlyphDef", 262144%N, 0%N, ["GlyphRef"; "AltGlyphItem"], 0%N, [], 0%N);
   ("AltGlyphItem", "altGlyphItem", 262144%N, 0%N, ["GlyphRef"], 0%N, [], 0%N);
   ("Animate", "animate", 1%N, 8%N, ["Script"], 91327%N, ["ExternalResourcesRequired"], 0%N);
   ("AnimateColor", "animateColor", 1%N, 8%N, [], 82103%N, ["ExternalResourcesRequired"], 0%N);
   ("AnimateMotion", "animateMotion", 1%N, 8%N, ["MPath"; "Script"], 74941%N, ["ExternalResourcesRequired"; "Path"; "KeyPoints"; "RotateAnimate"; "Origin"], 0%N);
   ("AnimateTransform", "animateTransform", 1%N, 8%N, ["Script"], 74943%N, ["TypeAnimateTransform"], 0%N);
   ("Circle", "circle", 6210%N, 1033%N, ["ClipPath"; "Marker"; "Mask"; "Script"; "Style"], 29888%N, ["ExternalResourcesRequired"; "PathLength"; "CXGeometry"; "CYGeometry"; "RGeometry"], 0%N);
   ("ClipPath", "clipPath", 262144%N, 4105%N, ["Text"; "Use"; "Script"], 16512%N, ["ExternalResourcesRequired"; "ClipPathUnits"], 1%N);
   ("ColorProfile", "color-profile", 262144%N, 8%N, [], 65536%N, ["Local"; "NameColorProfile"; "RenderingIntent"], 2%N);
   ("Cursor", "cursor", 262144%N, 8%N, [], 65664%N, ["ExternalResourcesRequired"; "XCursor"; "YCursor"], 2%N);
   ("Defs", "defs", 8708%N, 13353%N, ["A"; "AltGlyphDef"; "ClipPath"; "ColorProfile"; "Cursor"; "Filter"; "Font"; "FontFace"; "ForeignObject"; "Image"; "Marker"; "Mask"; "Script"; "Style"; "Switch"; "Text"; "View"], 29824%N, ["ExternalResourcesRequired"], 0%N);
   ("Desc", "desc", 520%N, 524287%N, [], 9216%N, [], 0%N);
   ("Ellipse", "ellipse", 6210%N, 1033%N, ["ClipPath"; "Marker"; "Mask"; "Script"; "Style"], 29888%N, ["ExternalResourcesRequired"; "PathLength"; "CXGeometry"; "CYGeometry"; "RX"; "RY"], 0%N);
   ("FeBlend", "feBlend", 16%N, 8%N, ["Animate"; "Script"; "Set"], 18432%N, ["In"; "In2"; "Mode"], 0%N);
   ("FeColorMatrix", "feColorMatrix", 16%N, 8%N, ["Animate"; "Script"; "Set"], 18432%N, ["In"; "TypeFeColorMatrix"; "ValuesFeColorMatrix"], 0%N);
   ("FeComponentTransfer", "feComponentTransfer", 16%N, 8%N, ["FeFuncB"; "FeFuncR"; "FeFuncG"; "FeFuncA"; "Script"], 18432%N, ["In"], 0%N);
   ("FeComposite", "feComposite", 16%N, 8%N, ["Animate"; "Script"; "Set"], 18432%N, ["In"; "In2"; "OperatorFeComposite"; "K1"; "K2"; "K3"; "K4"], 0%N);
   ("FeConvolveMatrix", "feConvolveMatrix", 16%N, 8%N, ["Animate"; "Script"; "Set"], 18432%N, ["In"; "Order"; "KernelMatrix"; "Divisor"; "Bias"; "TargetX"; "TargetY"; "EdgeModeFeConvolveMatrix"; "KernelUnitLength"; "PreserveAlpha"], 0%N);
   ("FeDiffuseLighting", "feDiffuseLighting", 16%N, 264%N, ["Script"], 18432%N, ["In"; "SurfaceScale"; "DiffuseConstant"; "KernelUnitLength"], 0%N);
   ("FeDisplacementMap", "feDisplacementMap", 16%N, 8%N, ["Animate"; "Script"; "Set"], 18432%N, ["In"; "In2"; "Scale"; "XChannelSelector"; "YChannelSelector"], 0%N);
   ("FeDistantLight", "feDistantLight", 256%N, 8%N, ["Animate"; "Script"; "Set"], 0%N, ["Azimuth"; "Elevation"], 0%N);
   ("FeDropShadow", "feDropShadow", 16%N, 8%N, ["Animate"; "Script"; "Set"], 18432%N, ["In"; "StdDeviationFeDropShadow"; "DXFeDropShadow"; "DYFeDropShadow"], 0%N);
   ("FeFlood", "feFlood", 16%N, 8%N, ["Animate"; "AnimateColor"; "Script"; "Set"], 18432%N, [], 0%N);
   ("FeFuncA", "feFuncA", 131072%N, 8%N, ["Animate"; "Script"; "Set"], 32768%N, [], 0%N);
   ("FeFuncB", "feFuncB", 131072%N, 8%N, ["Animate"; "Script"; "Set"], 32768%N, [], 0%N);
   ("FeFuncG", "feFuncG", 131072%N, 8%N, ["Animate"; "Script"; "Set"], 32768%N, [], 0%N);
   ("FeFuncR", "feFuncR", 131072%N, 8%N, ["Animate"; "Script"; "Set"], 32768%N, [], 0%N);
   ("FeGaussianBlur", "feGaussianBlur", 16%N, 8%N, ["Animate"; "Script"; "Set"], 18432%N, ["In"; "StdDeviationFeGaussianBlur"; "EdgeModeFeGaussianBlur"], 0%N);
   ("FeImage", "feImage", 16%N, 8%N, ["Animate"; "AnimateTransform"; "Script"; "Set"], 83968%N, ["ExternalResourcesRequired"; "PreserveAspectRatio"; "Href"; "CrossOrigin"], 0%N);
   ("FeMerge", "feMerge", 16%N, 8%N, ["FeMergeNode"; "Script"], 18432%N, [], 0%N);
   ("FeMergeNode", "feMergeNode", 262144%N, 8%N, ["Animate"; "Script"; "Set"], 18432%N, ["In"], 0%N);
   ("FeMorphology", "feMorphology", 16%N, 8%N, ["Animate"; "Script"; "Set"], 18432%N, ["In"; "OperatorFeMorphology"; "Radius"], 0%N);
   ("FeOffset", "feOffset", 16%N, 8%N, ["Animate"; "Script"; "Set"], 18432%N, ["In"; "DXFeOffset"; "DYFeOffset"], 0%N);
   ("FePointLight", "fePointLight", 256%N, 8%N, ["Animate"; "Script"; "Set"], 0%N, ["XFe"; "YFe"; "ZFe"], 0%N);
   ("FeSpecularLighting", "feSpecularLighting", 16%N, 264%N, ["Script"], 18432%N, ["In"; "SurfaceScale"; "SpecularConstant"; "SpecularExponent"; "KernelUnitLength"], 0%N);
   ("FeSpotLight", "feSpotLight", 256%N, 8%N, ["Animate"; "Script"; "Set"], 0%N, ["XFe"; "YFe"; "ZFe"; "PointsAtX"; "PointsAtY"; "PointsAtZ"; "SpecularExponent"; "LimitingConeAngle"], 0%N);
   ("FeTile", "feTile", 16%N, 8%N, ["Animate"; "Script"; "Set"], 18432%N, ["In"], 0%N);
   ("FeTurbulence", "feTurbulence", 16%N, 8%N, ["Animate"; "Script"; "Set"], 18432%N, ["BaseFrequency"; "NumOctaves"; "Seed"; "StitchTiles"; "TypeFeTurbulence"], 0%N);
   ("Filter", "filter", 262144%N, 24%N, ["Animate"; "Script"; "Set"], 81920%N, ["ExternalResourcesRequired"; "XFilter"; "YFilter"; "WidthFilter"; "HeightFilter"; "FilterRes"; "FilterUnits"; "PrimitiveUnits"], 1%N);
   ("Font", "font", 262144%N, 8%N, ["FontFace"; "Glyph"; "HKern"; "MissingGlyph"; "VKern"], 16384%N, ["ExternalResourcesRequired"; "HorizOriginX"; "HorizOriginY"; "HorizAdvX"; "VertOriginX"; "VertOriginY"; "VertAdvY"], 2%N);
   ("FontFace", "font-face", 262144%N, 8%N, ["FontFaceSrc"], 0%N, ["FontFamily"; "FontStyle"; "FontVariant"; "FontWeight"; "FontStretch"; "FontSize"; "UnicodeRange"; "UnitsPerEm"; "Panose1"; "Stemv"; "Stemh"; "SlopeFont"; "CapHeight"; "XHeight"; "AccentHeight"; "Ascent"; "Descent"; "Widths"; "Bbox"; "Ideographic"; "Alphabetic"; "Mathematical"; "Hanging"; "VIdeographic"; "VAlphabetic"; "VMathematical"; "VHanging"; "UnderlinePosition"; "UnderlineThickness"; "StrikethroughPosition"; "StrikethroughThickness"; "OverlinePosition"; "OverlineThickness"], 2%N);
   ("FontFaceFormat", "font-face-format", 262144%N, 0%N, [], 0%N, ["String"], 2%N);
   ("FontFaceName", "font-face-name", 262144%N, 0%N, [], 0%N, ["NameFontFace"], 2%N);
   ("FontFaceSrc", "font-face-src", 262144%N, 0%N, ["FontFaceName"; "FontFaceURI"], 0%N, [], 2%N);
   ("FontFaceURI", "font-face-uri", 262144%N, 0%N, ["FontFaceFormat"], 65536%N, [], 2%N);
   ("ForeignObject", "foreignObject", 18496%N, 524287%N, [], 29888%N, ["ExternalResourcesRequired"; "XGeometry"; "YGeometry"; "WidthForeignObject"; "HeightForeignObject"], 0%N);
   ("G", "g", 10244%N, 13353%N, ["A"; "AltGlyphDef"; "ClipPath"; "ColorProfile"; "Cursor"; "Filter"; "Font"; "FontFace"; "ForeignObject"; "Image"; "Marker"; "Mask"; "Pattern"; "Script"; "Style"; "Switch"; "Text"; "View"], 29888%N, ["ExternalResourcesRequired"], 0%N);
   ("Glyph", "glyph", 4%N, 12329%N, ["A"; "AltGlyphDef"; "ClipPath"; "ColorProfile"; "Cursor"; "Filter"; "Font"; "FontFace"; "ForeignObject"; "Image"; "Marker"; "Mask"; "Pattern"; "Script"; "Style"; "Switch"; "Text"; "View"], 16384%N, ["D"; "HorizAdvX"; "VertOriginX"; "VertOriginY"; "VertAdvY"; "Unicode"; "GlyphName"; "Orientation"; "ArabicForm"], 2%N);
   ("GlyphRef", "glyphRef", 262144%N, 0%N, [], 81920%N, ["XGlyphRef"; "YGlyphRef"; "DXGlyphRef"; "DYGlyphRef"; "GlyphRef"; "Format"], 2%N);
   ("Hatch", "hatch", 1025%N, 9%N, ["Script"; "Style"; "HatchPath"], 24576%N, ["XHatch"; "YHatch"; "Pitch"; "RotateHatch"; "HatchUnits"; "HatchContentUnits"; "Href"], 0%N);
   ("HatchPath", "hatchpath", 262144%N, 9%N, ["Script"; "Style"], 24576%N, ["D"; "OffsetHatchPath"], 0%N);
   ("HKern", "hkern", 262144%N, 0%N, [], 0%N, ["U1"; "G1"; "U2"; "G2"; "K"], 2%N);
   ("Image", "image", 18624%N, 9%N, ["ClipPath"; "Mask"; "Script"; "Style"], 95424%N, ["ExternalResourcesRequired"; "PreserveAspectRatio"; "Href"; "CrossOrigin"; "XGeometry"; "YGeometry"; "WidthImage"; "HeightImage"], 0%N);
   ("Line", "line", 6210%N, 1033%N, ["ClipPath"; "Marker"; "Mask"; "Script"; "Style"], 29888%N, ["ExternalResourcesRequired"; "PathLength"; "X1Line"; "X2Line"; "Y1Line"; "Y2Line"], 0%N);
   ("LinearGradient", "linearGradient", 1568%N, 8%N, ["Animate"; "AnimateTransform"; "Script"; "Set"; "Stop"; "Style"], 91136%N, ["ExternalResourcesRequired"; "X1LinearGradient"; "X2LinearGradient"; "Y1LinearGradient"; "Y2LinearGradient"; "GradientUnits"; "GradientTransform"; "SpreadMethod"; "Href"], 1%N);
   ("Marker", "marker", 516%N, 13353%N, ["A"; "AltGlyphDef"; "ClipPath"; "ColorProfile"; "Cursor"; "Filter"; "Font"; "FontFace"; "ForeignObject"; "Image"; "Marker"; "Mask"; "Pattern"; "Script"; "Style"; "Switch"; "Text"; "View"], 25600%N, ["ExternalResourcesRequired"; "ViewBox"; "PreserveAspectRatio"; "RefX"; "RefY"; "MarkerUnits"; "MarkerWidth"; "MarkerHeight"; "Orient"], 1%N);
   ("Mask", "mask", 516%N, 12329%N, ["A"; "AltGlyphDef"; "ClipPath"; "ColorProfile"; "Cursor"; "Filter"; "Font"; "FontFace"; "ForeignObject"; "Image"; "Marker"; "Mask"; "Pattern"; "Script"; "Style"; "Switch"; "View"; "Text"], 16512%N, ["ExternalResourcesRequired"; "XMask"; "YMask"; "WidthMask"; "HeightMask"; "MaskUnits"; "MaskContentUnits"], 1%N);
   ("Metadata", "metadata", 520%N, 524287%N, [], 9216%N, [], 0%N);
   ("MissingGlyph", "missing-glyph", 4%N, 12329%N, ["A"; "AltGlyphDef"; "ClipPath"; "ColorProfile"; "Cursor"; "Filter"; "Font"; "FontFace"; "ForeignObject"; "Image"; "Marker"; "Mask"; "Pattern"; "Script"; "Style"; "Switch"; "Text"; "View"], 16384%N, ["D"; "HorizAdvX"; "VertOriginX"; "VertOriginY"; "VertAdvY"], 2%N);
   ("MPath", "mpath", 1%N, 8%N, ["Script"], 74752%N, ["ExternalResourcesRequired"; "Href"], 0%N);
   ("Path", "path", 6208%N, 1033%N, ["ClipPath"; "Marker"; "Mask"; "Script"; "Style"], 29888%N, ["ExternalResourcesRequired"; "D"; "PathLength"], 0%N);
   ("Pattern", "pattern", 1540%N, 13353%N, ["A"; "AltGlyphDef"; "ClipPath"; "ColorProfile"; "Cursor"; "Filter"; "Font"; "FontFace"; "ForeignObject"; "Image"; "Marker"; "Mask"; "Pattern"; "Script"; "Style"; "Switch"; "Text"; "View"], 91136%N, ["ExternalResourcesRequired"; "ViewBox"; "PreserveAspectRatio"; "XPattern"; "YPattern"; "WidthPattern"; "HeightPattern"; "PatternUnits"; "PatternContentUnits"; "PatternTransform"; "Href"], 1%N);
   ("Polygon", "polygon", 6210%N, 1033%N, ["ClipPath"; "Marker"; "Mask"; "Script"; "Style"], 29888%N, ["ExternalResourcesRequired"; "PathLength"; "Points"], 0%N);
   ("Polyline", "polyline", 6210%N, 1033%N, ["ClipPath"; "Marker"; "Mask"; "Script"; "Style"], 29888%N, ["ExternalResourcesRequired"; "PathLength"; "Points"], 0%N);
   ("RadialGradient", "radialGradient", 1568%N, 8%N, ["Animate"; "AnimateTransform"; "Script"; "Set"; "Stop"; "Style"], 91136%N, ["ExternalResourcesRequired"; "CXRadialGradient"; "CYRadialGradient"; "RRadialGradient"; "FX"; "FY"; "FR"; "GradientUnits"; "GradientTransform"; "SpreadMethod"; "Href"], 1%N);
   ("Rect", "rect", 6210%N, 1033%N, ["ClipPath"; "Marker"; "Mask"; "Script"; "Style"], 29888%N, ["ExternalResourcesRequired"; "PathLength"; "XGeometry"; "YGeometry"; "WidthRect"; "HeightRect"; "RX"; "RY"], 0%N);
   ("Script", "script", 16896%N, 0%N, [], 74752%N, ["ExternalResourcesRequired"; "TypeScript"; "Href"; "CrossOrigin"], 0%N);
   ("Set", "set", 1%N, 8%N, ["Script"], 74910%N, ["ExternalResourcesRequired"; "To"], 0%N);
   ("SolidColor", "solidColor", 262144%N, 0%N, ["Animate"; "AnimateColor"; "Set"], 16384%N, ["SolidColor"; "SolidOpacity"], 1%N);
   ("Stop", "stop", 0%N, 0%N, ["Animate"; "AnimateColor"; "Script"; "Set"; "Style"], 25600%N, ["OffsetStop"], 0%N);
   ("Style", "style", 512%N, 0%N, [], 9216%N, ["TypeStyle"; "Media"; "Title"], 0%N);
   ("Svg", "svg", 10244%N, 13353%N, ["A"; "AltGlyphDef"; "ClipPath"; "ColorProfile"; "Cursor"; "Filter"; "Font"; "FontFace"; "ForeignObject"; "Image"; "Marker"; "Mask"; "Pattern"; "Script"; "Style"; "Switch"; "Text"; "View"], 30400%N, ["ExternalResourcesRequired"; "XGeometry"; "YGeometry"; "WidthSvg"; "HeightSvg"; "ViewBox"; "PreserveAspectRatio"; "ZoomAndPan"; "Version"; "BaseProfile"; "ContentScriptType"; "ContentStyleType"; "Playbackorder"; "Timelinebegin"], 0%N);
   ("Switch", "switch", 2052%N, 4097%N, ["A"; "ForeignObject"; "G"; "Image"; "Svg"; "Switch"; "Text"; "Use"], 29888%N, ["ExternalResourcesRequired"], 0%N);
   ("Symbol", "symbol", 8196%N, 13353%N, ["A"; "AltGlyphDef"; "ClipPath"; "ColorProfile"; "Cursor"; "Filter"; "Font"; "FontFace"; "ForeignObject"; "Image"; "Marker"; "Mask"; "Pattern"; "Script"; "Style"; "Switch"; "Text"; "View"], 29760%N, ["ExternalResourcesRequired"; "PreserveAspectRatio"; "ViewBox"; "RefX"; "RefY"; "XGeometry"; "YGeometry"; "WidthSymbol"; "HeightSymbol"], 1%N);
   ("Text", "text", 34880%N, 66569%N, ["A"; "ClipPath"; "Marker"; "Mask"; "Script"; "Style"], 29888%N, ["ExternalResourcesRequired"; "LengthAdjust"; "XText"; "YText"; "DXText"; "DYText"; "RotateText"; "TextLength"], 0%N);
   ("TextPath", "textPath", 100416%N, 1032%N, ["A"; "AltGlyph"; "Animate"; "AnimateColor"; "ClipPath"; "Marker"; "Mask"; "Script"; "Set"; "TRef"; "Style"; "TSpan"], 95424%N, ["ExternalResourcesRequired"; "LengthAdjust"; "TextLength"; "Path"; "Href"; "StartOffset"; "Method"; "Spacing"; "Side"], 0%N);
   ("Title", "title", 520%N, 524287%N, [], 9216%N, [], 0%N);
   ("TRef", "tref", 98304%N, 8%N, ["Animate"; "AnimateColor"; "Set"], 86144%N, ["ExternalResourcesRequired"; "XTRef"; "YTRef"; "DXTSpan"; "DYTSpan"; "RotateText"], 2%N);
   ("TSpan", "tspan", 100416%N, 1032%N, ["A"; "AltGlyph"; "Animate"; "AnimateColor"; "Script"; "Set"; "Style"; "TRef"; "TSpan"], 25792%N, ["ExternalResourcesRequired"; "XTRef"; "YTRef"; "DXTSpan"; "DYTSpan"; "RotateText"; "TextLength"; "LengthAdjust"], 0%N);
   ("Use", "use", 26816%N, 9%N, ["ClipPath"; "Mask"; "Script"; "Style"], 95424%N, ["ExternalResourcesRequired"; "Href"; "XGeometry"; "YGeometry"; "WidthUse"; "HeightUse"], 0%N);
   ("View", "view", 262144%N, 9%N, ["Script"; "Style"], 9280%N, ["ExternalResourcesRequired"; "ViewBox"; "PreserveAspectRatio"; "ZoomAndPan"; "ViewTarget"], 0%N);
   ("VKern", "vkern", 262144%N, 0%N, [], 0%N, ["U1"; "G1"; "U2"; "G2"; "K"], 0%N)
  ]%string.
