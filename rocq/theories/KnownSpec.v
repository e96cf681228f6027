(** What SVG 2 and Filter Effects 1 say of the attributes and children of elements: which there are, and what an attribute that is not there stands for. *)
From Coq Require Import String List.
From Verif Require Import Chars.
Import ListNotations.
Local Open Scope string_scope.

(** Attributes of every element: core attributes (SVG 2, 5.11.1) and presentation attributes (SVG 2, 6.6, with [transform] below). *)
Definition common_attributes : list string := [
   "id"; "class"; "style"; "tabindex"; "lang"; "alignment-baseline"; "baseline-shift"; "clip-path";
   "clip-rule"; "color"; "color-interpolation"; "color-interpolation-filters"; "cursor"; "direction"; "display"; "dominant-baseline";
   "fill"; "fill-opacity"; "fill-rule"; "filter"; "flood-color"; "flood-opacity"; "font-family"; "font-size";
   "font-size-adjust"; "font-stretch"; "font-style"; "font-variant"; "font-weight"; "glyph-orientation-horizontal"; "glyph-orientation-vertical"; "image-rendering";
   "letter-spacing"; "lighting-color"; "marker-end"; "marker-mid"; "marker-start"; "mask"; "mask-type"; "opacity";
   "overflow"; "paint-order"; "pointer-events"; "shape-rendering"; "stop-color"; "stop-opacity"; "stroke"; "stroke-dasharray";
   "stroke-dashoffset"; "stroke-linecap"; "stroke-linejoin"; "stroke-miterlimit"; "stroke-opacity"; "stroke-width"; "text-anchor"; "text-decoration";
   "text-overflow"; "text-rendering"; "transform-origin"; "unicode-bidi"; "vector-effect"; "visibility"; "white-space"; "word-spacing";
   "writing-mode"; "clip"].
(** Attributes of one element (SVG 2, attribute index; Filter Effects 1, 9). *)
Definition own_attributes : list (string * list string) := [
   ("a", ["href"; "target"; "download"; "ping"; "rel"; "hreflang"; "type"; "referrerpolicy"; "requiredExtensions"; "systemLanguage"; "transform"]);
   ("animate", ["values"; "keyTimes"; "keySplines"; "from"; "to"; "by"; "calcMode"; "additive"; "accumulate"; "begin"; "dur"; "end"; "min"; "max"; "restart"; "repeatCount"; "repeatDur"; "href"; "attributeName"; "requiredExtensions"; "systemLanguage"]);
   ("animateMotion", ["values"; "keyTimes"; "keySplines"; "from"; "to"; "by"; "calcMode"; "additive"; "accumulate"; "begin"; "dur"; "end"; "min"; "max"; "restart"; "repeatCount"; "repeatDur"; "href"; "path"; "keyPoints"; "rotate"; "origin"; "requiredExtensions"; "systemLanguage"]);
   ("animateTransform", ["values"; "keyTimes"; "keySplines"; "from"; "to"; "by"; "calcMode"; "additive"; "accumulate"; "begin"; "dur"; "end"; "min"; "max"; "restart"; "repeatCount"; "repeatDur"; "href"; "attributeName"; "type"; "requiredExtensions"; "systemLanguage"]);
   ("circle", ["cx"; "cy"; "r"; "pathLength"; "requiredExtensions"; "systemLanguage"; "transform"]);
   ("clipPath", ["clipPathUnits"; "requiredExtensions"; "systemLanguage"; "transform"]);
   ("defs", ["transform"]);
   ("desc", []);
   ("discard", ["begin"; "href"; "requiredExtensions"; "systemLanguage"]);
   ("ellipse", ["cx"; "cy"; "rx"; "ry"; "pathLength"; "requiredExtensions"; "systemLanguage"; "transform"]);
   ("feBlend", ["x"; "y"; "width"; "height"; "result"; "in"; "in2"; "mode"]);
   ("feColorMatrix", ["x"; "y"; "width"; "height"; "result"; "in"; "type"; "values"]);
   ("feComponentTransfer", ["x"; "y"; "width"; "height"; "result"; "in"]);
   ("feComposite", ["x"; "y"; "width"; "height"; "result"; "in"; "in2"; "operator"; "k1"; "k2"; "k3"; "k4"]);
   ("feConvolveMatrix", ["x"; "y"; "width"; "height"; "result"; "in"; "order"; "kernelMatrix"; "divisor"; "bias"; "targetX"; "targetY"; "edgeMode"; "kernelUnitLength"; "preserveAlpha"]);
   ("feDiffuseLighting", ["x"; "y"; "width"; "height"; "result"; "in"; "surfaceScale"; "diffuseConstant"; "kernelUnitLength"]);
   ("feDisplacementMap", ["x"; "y"; "width"; "height"; "result"; "in"; "in2"; "scale"; "xChannelSelector"; "yChannelSelector"]);
   ("feDistantLight", ["azimuth"; "elevation"]);
   ("feDropShadow", ["x"; "y"; "width"; "height"; "result"; "in"; "stdDeviation"; "dx"; "dy"]);
   ("feFlood", ["x"; "y"; "width"; "height"; "result"]);
   ("feFuncA", ["type"; "tableValues"; "slope"; "intercept"; "amplitude"; "exponent"; "offset"]);
   ("feFuncB", ["type"; "tableValues"; "slope"; "intercept"; "amplitude"; "exponent"; "offset"]);
   ("feFuncG", ["type"; "tableValues"; "slope"; "intercept"; "amplitude"; "exponent"; "offset"]);
   ("feFuncR", ["type"; "tableValues"; "slope"; "intercept"; "amplitude"; "exponent"; "offset"]);
   ("feGaussianBlur", ["x"; "y"; "width"; "height"; "result"; "in"; "stdDeviation"; "edgeMode"]);
   ("feImage", ["x"; "y"; "width"; "height"; "result"; "href"; "preserveAspectRatio"; "crossorigin"]);
   ("feMerge", ["x"; "y"; "width"; "height"; "result"]);
   ("feMergeNode", ["in"]);
   ("feMorphology", ["x"; "y"; "width"; "height"; "result"; "in"; "operator"; "radius"]);
   ("feOffset", ["x"; "y"; "width"; "height"; "result"; "in"; "dx"; "dy"]);
   ("fePointLight", ["x"; "y"; "z"]);
   ("feSpecularLighting", ["x"; "y"; "width"; "height"; "result"; "in"; "surfaceScale"; "specularConstant"; "specularExponent"; "kernelUnitLength"]);
   ("feSpotLight", ["x"; "y"; "z"; "pointsAtX"; "pointsAtY"; "pointsAtZ"; "specularExponent"; "limitingConeAngle"]);
   ("feTile", ["x"; "y"; "width"; "height"; "result"; "in"]);
   ("feTurbulence", ["x"; "y"; "width"; "height"; "result"; "baseFrequency"; "numOctaves"; "seed"; "stitchTiles"; "type"]);
   ("filter", ["x"; "y"; "width"; "height"; "filterUnits"; "primitiveUnits"]);
   ("foreignObject", ["x"; "y"; "width"; "height"; "requiredExtensions"; "systemLanguage"; "transform"]);
   ("g", ["requiredExtensions"; "systemLanguage"; "transform"]);
   ("image", ["x"; "y"; "width"; "height"; "href"; "preserveAspectRatio"; "crossorigin"; "requiredExtensions"; "systemLanguage"; "transform"]);
   ("line", ["x1"; "y1"; "x2"; "y2"; "pathLength"; "requiredExtensions"; "systemLanguage"; "transform"]);
   ("linearGradient", ["x1"; "x2"; "y1"; "y2"; "gradientUnits"; "gradientTransform"; "spreadMethod"; "href"]);
   ("marker", ["refX"; "refY"; "markerUnits"; "markerWidth"; "markerHeight"; "orient"; "viewBox"; "preserveAspectRatio"]);
   ("mask", ["x"; "y"; "width"; "height"; "maskUnits"; "maskContentUnits"; "requiredExtensions"; "systemLanguage"]);
   ("metadata", []);
   ("mpath", ["href"]);
   ("path", ["d"; "pathLength"; "requiredExtensions"; "systemLanguage"; "transform"]);
   ("pattern", ["x"; "y"; "width"; "height"; "patternUnits"; "patternContentUnits"; "patternTransform"; "viewBox"; "preserveAspectRatio"; "href"]);
   ("polygon", ["points"; "pathLength"; "requiredExtensions"; "systemLanguage"; "transform"]);
   ("polyline", ["points"; "pathLength"; "requiredExtensions"; "systemLanguage"; "transform"]);
   ("radialGradient", ["cx"; "cy"; "r"; "fx"; "fy"; "fr"; "gradientUnits"; "gradientTransform"; "spreadMethod"; "href"]);
   ("rect", ["x"; "y"; "width"; "height"; "rx"; "ry"; "pathLength"; "requiredExtensions"; "systemLanguage"; "transform"]);
   ("script", ["type"; "href"; "crossorigin"]);
   ("set", ["attributeName"; "to"; "begin"; "dur"; "end"; "min"; "max"; "restart"; "repeatCount"; "repeatDur"; "href"; "requiredExtensions"; "systemLanguage"]);
   ("stop", ["offset"]);
   ("style", ["type"; "media"; "title"]);
   ("svg", ["x"; "y"; "width"; "height"; "viewBox"; "preserveAspectRatio"; "zoomAndPan"; "requiredExtensions"; "systemLanguage"; "transform"]);
   ("switch", ["requiredExtensions"; "systemLanguage"; "transform"]);
   ("symbol", ["x"; "y"; "width"; "height"; "refX"; "refY"; "viewBox"; "preserveAspectRatio"]);
   ("text", ["x"; "y"; "dx"; "dy"; "rotate"; "textLength"; "lengthAdjust"; "requiredExtensions"; "systemLanguage"; "transform"]);
   ("textPath", ["href"; "path"; "startOffset"; "method"; "spacing"; "side"; "textLength"; "lengthAdjust"; "requiredExtensions"; "systemLanguage"]);
   ("title", []);
   ("tspan", ["x"; "y"; "dx"; "dy"; "rotate"; "textLength"; "lengthAdjust"; "requiredExtensions"; "systemLanguage"]);
   ("use", ["x"; "y"; "width"; "height"; "href"; "requiredExtensions"; "systemLanguage"; "transform"]);
   ("view", ["viewBox"; "preserveAspectRatio"; "zoomAndPan"])].
(** The children an element may have (SVG 2, content models); those of [a] are those of its parent, here all of them. *)
Definition svg2_children : list (string * list string) := [
   ("svg", ["animate"; "animateMotion"; "animateTransform"; "set"; "discard"; "desc"; "title"; "metadata"; "linearGradient"; "radialGradient"; "pattern"; "circle"; "ellipse"; "line"; "path"; "polygon"; "polyline"; "rect"; "defs"; "g"; "svg"; "symbol"; "use"; "a"; "clipPath"; "filter"; "foreignObject"; "image"; "marker"; "mask"; "script"; "style"; "switch"; "text"; "view"]);
   ("g", ["animate"; "animateMotion"; "animateTransform"; "set"; "discard"; "desc"; "title"; "metadata"; "linearGradient"; "radialGradient"; "pattern"; "circle"; "ellipse"; "line"; "path"; "polygon"; "polyline"; "rect"; "defs"; "g"; "svg"; "symbol"; "use"; "a"; "clipPath"; "filter"; "foreignObject"; "image"; "marker"; "mask"; "script"; "style"; "switch"; "text"; "view"]);
   ("defs", ["animate"; "animateMotion"; "animateTransform"; "set"; "discard"; "desc"; "title"; "metadata"; "linearGradient"; "radialGradient"; "pattern"; "circle"; "ellipse"; "line"; "path"; "polygon"; "polyline"; "rect"; "defs"; "g"; "svg"; "symbol"; "use"; "a"; "clipPath"; "filter"; "foreignObject"; "image"; "marker"; "mask"; "script"; "style"; "switch"; "text"; "view"]);
   ("symbol", ["animate"; "animateMotion"; "animateTransform"; "set"; "discard"; "desc"; "title"; "metadata"; "linearGradient"; "radialGradient"; "pattern"; "circle"; "ellipse"; "line"; "path"; "polygon"; "polyline"; "rect"; "defs"; "g"; "svg"; "symbol"; "use"; "a"; "clipPath"; "filter"; "foreignObject"; "image"; "marker"; "mask"; "script"; "style"; "switch"; "text"; "view"]);
   ("pattern", ["animate"; "animateMotion"; "animateTransform"; "set"; "discard"; "desc"; "title"; "metadata"; "linearGradient"; "radialGradient"; "pattern"; "circle"; "ellipse"; "line"; "path"; "polygon"; "polyline"; "rect"; "defs"; "g"; "svg"; "symbol"; "use"; "a"; "clipPath"; "filter"; "foreignObject"; "image"; "marker"; "mask"; "script"; "style"; "switch"; "text"; "view"]);
   ("marker", ["animate"; "animateMotion"; "animateTransform"; "set"; "discard"; "desc"; "title"; "metadata"; "linearGradient"; "radialGradient"; "pattern"; "circle"; "ellipse"; "line"; "path"; "polygon"; "polyline"; "rect"; "defs"; "g"; "svg"; "symbol"; "use"; "a"; "clipPath"; "filter"; "foreignObject"; "image"; "marker"; "mask"; "script"; "style"; "switch"; "text"; "view"]);
   ("mask", ["animate"; "animateMotion"; "animateTransform"; "set"; "discard"; "desc"; "title"; "metadata"; "linearGradient"; "radialGradient"; "pattern"; "circle"; "ellipse"; "line"; "path"; "polygon"; "polyline"; "rect"; "defs"; "g"; "svg"; "symbol"; "use"; "a"; "clipPath"; "filter"; "foreignObject"; "image"; "marker"; "mask"; "script"; "style"; "switch"; "text"; "view"]);
   ("clipPath", ["desc"; "title"; "metadata"; "animate"; "animateMotion"; "animateTransform"; "set"; "discard"; "circle"; "ellipse"; "line"; "path"; "polygon"; "polyline"; "rect"; "text"; "use"; "script"]);
   ("circle", ["animate"; "animateMotion"; "animateTransform"; "set"; "discard"; "desc"; "title"; "metadata"; "linearGradient"; "radialGradient"; "pattern"; "clipPath"; "marker"; "mask"; "script"; "style"]);
   ("ellipse", ["animate"; "animateMotion"; "animateTransform"; "set"; "discard"; "desc"; "title"; "metadata"; "linearGradient"; "radialGradient"; "pattern"; "clipPath"; "marker"; "mask"; "script"; "style"]);
   ("line", ["animate"; "animateMotion"; "animateTransform"; "set"; "discard"; "desc"; "title"; "metadata"; "linearGradient"; "radialGradient"; "pattern"; "clipPath"; "marker"; "mask"; "script"; "style"]);
   ("path", ["animate"; "animateMotion"; "animateTransform"; "set"; "discard"; "desc"; "title"; "metadata"; "linearGradient"; "radialGradient"; "pattern"; "clipPath"; "marker"; "mask"; "script"; "style"]);
   ("polygon", ["animate"; "animateMotion"; "animateTransform"; "set"; "discard"; "desc"; "title"; "metadata"; "linearGradient"; "radialGradient"; "pattern"; "clipPath"; "marker"; "mask"; "script"; "style"]);
   ("polyline", ["animate"; "animateMotion"; "animateTransform"; "set"; "discard"; "desc"; "title"; "metadata"; "linearGradient"; "radialGradient"; "pattern"; "clipPath"; "marker"; "mask"; "script"; "style"]);
   ("rect", ["animate"; "animateMotion"; "animateTransform"; "set"; "discard"; "desc"; "title"; "metadata"; "linearGradient"; "radialGradient"; "pattern"; "clipPath"; "marker"; "mask"; "script"; "style"]);
   ("image", ["animate"; "animateMotion"; "animateTransform"; "set"; "discard"; "desc"; "title"; "metadata"; "clipPath"; "mask"; "script"; "style"]);
   ("use", ["animate"; "animateMotion"; "animateTransform"; "set"; "discard"; "desc"; "title"; "metadata"; "clipPath"; "mask"; "script"; "style"]);
   ("text", ["animate"; "animateMotion"; "animateTransform"; "set"; "discard"; "desc"; "title"; "metadata"; "linearGradient"; "radialGradient"; "pattern"; "textPath"; "tspan"; "a"; "clipPath"; "marker"; "mask"; "script"; "style"]);
   ("tspan", ["desc"; "title"; "metadata"; "linearGradient"; "radialGradient"; "pattern"; "a"; "animate"; "script"; "set"; "style"; "tspan"]);
   ("textPath", ["desc"; "title"; "metadata"; "linearGradient"; "radialGradient"; "pattern"; "a"; "animate"; "clipPath"; "marker"; "mask"; "script"; "set"; "style"; "tspan"]);
   ("linearGradient", ["desc"; "title"; "metadata"; "animate"; "animateTransform"; "script"; "set"; "stop"; "style"]);
   ("radialGradient", ["desc"; "title"; "metadata"; "animate"; "animateTransform"; "script"; "set"; "stop"; "style"]);
   ("stop", ["animate"; "script"; "set"; "style"]);
   ("filter", ["desc"; "title"; "metadata"; "feBlend"; "feColorMatrix"; "feComponentTransfer"; "feComposite"; "feConvolveMatrix"; "feDiffuseLighting"; "feDisplacementMap"; "feDropShadow"; "feFlood"; "feGaussianBlur"; "feImage"; "feMerge"; "feMorphology"; "feOffset"; "feSpecularLighting"; "feTile"; "feTurbulence"; "animate"; "script"; "set"]);
   ("feBlend", ["animate"; "script"; "set"]);
   ("feColorMatrix", ["animate"; "script"; "set"]);
   ("feComposite", ["animate"; "script"; "set"]);
   ("feConvolveMatrix", ["animate"; "script"; "set"]);
   ("feDisplacementMap", ["animate"; "script"; "set"]);
   ("feDropShadow", ["animate"; "script"; "set"]);
   ("feFlood", ["animate"; "script"; "set"]);
   ("feGaussianBlur", ["animate"; "script"; "set"]);
   ("feMorphology", ["animate"; "script"; "set"]);
   ("feOffset", ["animate"; "script"; "set"]);
   ("feTile", ["animate"; "script"; "set"]);
   ("feTurbulence", ["animate"; "script"; "set"]);
   ("feFuncA", ["animate"; "script"; "set"]);
   ("feFuncB", ["animate"; "script"; "set"]);
   ("feFuncG", ["animate"; "script"; "set"]);
   ("feFuncR", ["animate"; "script"; "set"]);
   ("feMergeNode", ["animate"; "script"; "set"]);
   ("feDistantLight", ["animate"; "script"; "set"]);
   ("fePointLight", ["animate"; "script"; "set"]);
   ("feSpotLight", ["animate"; "script"; "set"]);
   ("feImage", ["animate"; "animateTransform"; "script"; "set"]);
   ("feComponentTransfer", ["feFuncA"; "feFuncB"; "feFuncG"; "feFuncR"; "script"]);
   ("feDiffuseLighting", ["desc"; "title"; "metadata"; "feDistantLight"; "fePointLight"; "feSpotLight"; "script"]);
   ("feSpecularLighting", ["desc"; "title"; "metadata"; "feDistantLight"; "fePointLight"; "feSpotLight"; "script"]);
   ("feMerge", ["feMergeNode"; "script"]);
   ("switch", ["animate"; "animateMotion"; "animateTransform"; "set"; "discard"; "circle"; "ellipse"; "line"; "path"; "polygon"; "polyline"; "rect"; "a"; "foreignObject"; "g"; "image"; "svg"; "switch"; "text"; "use"]);
   ("animate", ["desc"; "title"; "metadata"; "script"]);
   ("animateTransform", ["desc"; "title"; "metadata"; "script"]);
   ("set", ["desc"; "title"; "metadata"; "script"]);
   ("animateMotion", ["desc"; "title"; "metadata"; "mpath"; "script"]);
   ("mpath", ["desc"; "title"; "metadata"; "script"]);
   ("view", ["animate"; "animateMotion"; "animateTransform"; "set"; "discard"; "desc"; "title"; "metadata"; "script"; "style"]);
   ("a", ["animate"; "animateMotion"; "animateTransform"; "set"; "discard"; "desc"; "title"; "metadata"; "linearGradient"; "radialGradient"; "pattern"; "circle"; "ellipse"; "line"; "path"; "polygon"; "polyline"; "rect"; "defs"; "g"; "svg"; "symbol"; "use"; "clipPath"; "filter"; "foreignObject"; "image"; "marker"; "mask"; "script"; "style"; "switch"; "text"; "view"; "tspan"; "textPath"])].

Definition svg2_attribute (element attribute : text) : Prop :=
  exists e own a, In (e, own) own_attributes /\ lit e = element /\ In a (common_attributes ++ own) /\ lit a = attribute.
Definition svg2_child (parent child : text) : Prop :=
  exists p kids c, In (p, kids) svg2_children /\ lit p = parent /\ In c kids /\ lit c = child.

(** What an attribute that is not there stands for on these elements (on all where none are named), as it may be written (SVG 2 and Filter Effects 1, initial values).
    [feConvolveMatrix] has no such value for [divisor]: it is the sum of the values of the kernel (Filter Effects 1, 9.9). *)
Definition initial_rows : list (string * list string * list string) := [
   ("alignment-baseline", [], ["baseline"]);
   ("baseline-shift", [], ["0"]);
   ("clip-path", [], ["none"]);
   ("clip-rule", [], ["nonzero"]);
   ("color-interpolation", [], ["sRGB"]);
   ("color-interpolation-filters", [], ["linearRGB"]);
   ("cursor", [], ["auto"]);
   ("direction", [], ["ltr"]);
   ("display", [], ["inline"]);
   ("dominant-baseline", [], ["auto"]);
   ("fill", [], ["black"]);
   ("fill-opacity", [], ["1"]);
   ("fill-rule", [], ["nonzero"]);
   ("filter", [], ["none"]);
   ("flood-color", [], ["black"]);
   ("flood-opacity", [], ["1"]);
   ("font-size", [], ["medium"]);
   ("font-size-adjust", [], ["none"]);
   ("font-stretch", [], ["normal"]);
   ("font-style", [], ["normal"]);
   ("font-variant", [], ["normal"]);
   ("font-weight", [], ["normal"]);
   ("glyph-orientation-horizontal", [], ["0deg"]);
   ("image-rendering", [], ["auto"]);
   ("letter-spacing", [], ["normal"]);
   ("lighting-color", [], ["white"]);
   ("marker-end", [], ["none"]);
   ("marker-mid", [], ["none"]);
   ("marker-start", [], ["none"]);
   ("mask", [], ["none"]);
   ("mask-type", [], ["luminance"]);
   ("opacity", [], ["1"]);
   ("paint-order", [], ["normal"]);
   ("pointer-events", [], ["visiblePainted"]);
   ("shape-rendering", [], ["auto"]);
   ("stop-color", [], ["black"]);
   ("stop-opacity", [], ["1"]);
   ("stroke", [], ["none"]);
   ("stroke-dasharray", [], ["none"]);
   ("stroke-dashoffset", [], ["0"]);
   ("stroke-linecap", [], ["butt"]);
   ("stroke-linejoin", [], ["miter"]);
   ("stroke-miterlimit", [], ["4"]);
   ("stroke-opacity", [], ["1"]);
   ("stroke-width", [], ["1"]);
   ("text-anchor", [], ["start"]);
   ("text-decoration", [], ["none"]);
   ("text-overflow", [], ["clip"]);
   ("text-rendering", [], ["auto"]);
   ("unicode-bidi", [], ["normal"]);
   ("vector-effect", [], ["none"]);
   ("visibility", [], ["visible"]);
   ("white-space", [], ["normal"]);
   ("word-spacing", [], ["normal"]);
   ("writing-mode", [], ["horizontal-tb"]);
   ("clip", [], ["auto"]);
   ("transform-origin", [], ["0 0"]);
   ("transform", [], ["none"]);
   ("accumulate", ["animate"; "animateMotion"; "animateTransform"], ["none"]);
   ("additive", ["animate"; "animateMotion"; "animateTransform"], ["replace"]);
   ("fill", ["animate"; "animateMotion"; "animateTransform"; "set"], ["remove"]);
   ("restart", ["animate"; "animateMotion"; "animateTransform"; "set"], ["always"]);
   ("calcMode", ["animate"; "animateTransform"], ["linear"]);
   ("calcMode", ["animateMotion"], ["paced"]);
   ("min", ["animate"; "animateMotion"; "animateTransform"; "set"], ["0"]);
   ("rotate", ["animateMotion"], ["0"]);
   ("type", ["animateTransform"], ["translate"]);
   ("origin", ["animateMotion"], ["default"]);
   ("amplitude", ["feFuncA"; "feFuncB"; "feFuncG"; "feFuncR"], ["1"]);
   ("exponent", ["feFuncA"; "feFuncB"; "feFuncG"; "feFuncR"], ["1"]);
   ("offset", ["feFuncA"; "feFuncB"; "feFuncG"; "feFuncR"], ["0"]);
   ("slope", ["feFuncA"; "feFuncB"; "feFuncG"; "feFuncR"], ["1"]);
   ("intercept", ["feFuncA"; "feFuncB"; "feFuncG"; "feFuncR"], ["0"]);
   ("tableValues", ["feFuncA"; "feFuncB"; "feFuncG"; "feFuncR"], [""]);
   ("type", ["feFuncA"; "feFuncB"; "feFuncG"; "feFuncR"], ["identity"]);
   ("azimuth", ["feDistantLight"], ["0"]);
   ("elevation", ["feDistantLight"], ["0"]);
   ("baseFrequency", ["feTurbulence"], ["0"]);
   ("numOctaves", ["feTurbulence"], ["1"]);
   ("seed", ["feTurbulence"], ["0"]);
   ("stitchTiles", ["feTurbulence"], ["noStitch"]);
   ("type", ["feTurbulence"], ["turbulence"]);
   ("bias", ["feConvolveMatrix"], ["0"]);
   ("order", ["feConvolveMatrix"], ["3"]);
   ("edgeMode", ["feConvolveMatrix"], ["duplicate"]);
   ("preserveAlpha", ["feConvolveMatrix"], ["false"]);
   ("edgeMode", ["feGaussianBlur"], ["none"]);
   ("stdDeviation", ["feGaussianBlur"], ["0"]);
   ("stdDeviation", ["feDropShadow"], ["2"]);
   ("dx", ["feDropShadow"], ["2"]);
   ("dy", ["feDropShadow"], ["2"]);
   ("clipPathUnits", ["clipPath"], ["userSpaceOnUse"]);
   ("cx", ["circle"; "ellipse"], ["0"; "0%"]);
   ("cy", ["circle"; "ellipse"], ["0"; "0%"]);
   ("r", ["circle"], ["0"; "0%"]);
   ("cx", ["radialGradient"], ["50%"]);
   ("cy", ["radialGradient"], ["50%"]);
   ("r", ["radialGradient"], ["50%"]);
   ("fr", ["radialGradient"], ["0%"; "0"]);
   ("gradientUnits", ["linearGradient"; "radialGradient"], ["objectBoundingBox"]);
   ("spreadMethod", ["linearGradient"; "radialGradient"], ["pad"]);
   ("gradientTransform", ["linearGradient"; "radialGradient"], ["none"]);
   ("x1", ["linearGradient"], ["0%"; "0"]);
   ("y1", ["linearGradient"], ["0%"; "0"]);
   ("y2", ["linearGradient"], ["0%"; "0"]);
   ("x2", ["linearGradient"], ["100%"]);
   ("x1", ["line"], ["0"; "0%"]);
   ("y1", ["line"], ["0"; "0%"]);
   ("x2", ["line"], ["0"; "0%"]);
   ("y2", ["line"], ["0"; "0%"]);
   ("d", ["path"], [""; "none"]);
   ("points", ["polygon"; "polyline"], [""]);
   ("diffuseConstant", ["feDiffuseLighting"], ["1"]);
   ("surfaceScale", ["feDiffuseLighting"; "feSpecularLighting"], ["1"]);
   ("specularConstant", ["feSpecularLighting"], ["1"]);
   ("specularExponent", ["feSpecularLighting"; "feSpotLight"], ["1"]);
   ("dx", ["feOffset"], ["0"]);
   ("dy", ["feOffset"], ["0"]);
   ("mode", ["feBlend"], ["normal"]);
   ("operator", ["feComposite"], ["over"]);
   ("k1", ["feComposite"], ["0"]);
   ("k2", ["feComposite"], ["0"]);
   ("k3", ["feComposite"], ["0"]);
   ("k4", ["feComposite"], ["0"]);
   ("operator", ["feMorphology"], ["erode"]);
   ("radius", ["feMorphology"], ["0"]);
   ("scale", ["feDisplacementMap"], ["0"]);
   ("xChannelSelector", ["feDisplacementMap"], ["A"]);
   ("yChannelSelector", ["feDisplacementMap"], ["A"]);
   ("type", ["feColorMatrix"], ["matrix"]);
   ("x", ["fePointLight"; "feSpotLight"], ["0"; "0%"]);
   ("y", ["fePointLight"; "feSpotLight"], ["0"; "0%"]);
   ("z", ["fePointLight"; "feSpotLight"], ["0"; "0%"]);
   ("pointsAtX", ["feSpotLight"], ["0"]);
   ("pointsAtY", ["feSpotLight"], ["0"]);
   ("pointsAtZ", ["feSpotLight"], ["0"]);
   ("x", ["feBlend"; "feColorMatrix"; "feComponentTransfer"; "feComposite"; "feConvolveMatrix"; "feDiffuseLighting"; "feDisplacementMap"; "feDropShadow"; "feFlood"; "feGaussianBlur"; "feImage"; "feMerge"; "feMorphology"; "feOffset"; "feSpecularLighting"; "feTile"; "feTurbulence"], ["0%"; "0"]);
   ("y", ["feBlend"; "feColorMatrix"; "feComponentTransfer"; "feComposite"; "feConvolveMatrix"; "feDiffuseLighting"; "feDisplacementMap"; "feDropShadow"; "feFlood"; "feGaussianBlur"; "feImage"; "feMerge"; "feMorphology"; "feOffset"; "feSpecularLighting"; "feTile"; "feTurbulence"], ["0%"; "0"]);
   ("width", ["feBlend"; "feColorMatrix"; "feComponentTransfer"; "feComposite"; "feConvolveMatrix"; "feDiffuseLighting"; "feDisplacementMap"; "feDropShadow"; "feFlood"; "feGaussianBlur"; "feImage"; "feMerge"; "feMorphology"; "feOffset"; "feSpecularLighting"; "feTile"; "feTurbulence"], ["100%"]);
   ("height", ["feBlend"; "feColorMatrix"; "feComponentTransfer"; "feComposite"; "feConvolveMatrix"; "feDiffuseLighting"; "feDisplacementMap"; "feDropShadow"; "feFlood"; "feGaussianBlur"; "feImage"; "feMerge"; "feMorphology"; "feOffset"; "feSpecularLighting"; "feTile"; "feTurbulence"], ["100%"]);
   ("x", ["filter"; "mask"], ["-10%"]);
   ("y", ["filter"; "mask"], ["-10%"]);
   ("width", ["filter"; "mask"], ["120%"]);
   ("height", ["filter"; "mask"], ["120%"]);
   ("filterUnits", ["filter"], ["objectBoundingBox"]);
   ("primitiveUnits", ["filter"], ["userSpaceOnUse"]);
   ("maskUnits", ["mask"], ["objectBoundingBox"]);
   ("maskContentUnits", ["mask"], ["userSpaceOnUse"]);
   ("x", ["pattern"], ["0"; "0%"]);
   ("y", ["pattern"], ["0"; "0%"]);
   ("width", ["pattern"], ["0"; "0%"]);
   ("height", ["pattern"], ["0"; "0%"]);
   ("patternUnits", ["pattern"], ["objectBoundingBox"]);
   ("patternContentUnits", ["pattern"], ["userSpaceOnUse"]);
   ("preserveAspectRatio", ["feImage"; "image"; "marker"; "pattern"; "svg"; "symbol"; "view"], ["xMidYMid"]);
   ("markerWidth", ["marker"], ["3"]);
   ("markerHeight", ["marker"], ["3"]);
   ("markerUnits", ["marker"], ["strokeWidth"]);
   ("orient", ["marker"], ["0"]);
   ("refX", ["marker"; "symbol"], ["0"]);
   ("refY", ["marker"; "symbol"], ["0"]);
   ("x", ["foreignObject"; "image"; "rect"; "svg"; "symbol"; "use"], ["0"; "0%"]);
   ("y", ["foreignObject"; "image"; "rect"; "svg"; "symbol"; "use"], ["0"; "0%"]);
   ("x", ["text"], ["0"; "0%"]);
   ("y", ["text"], ["0"; "0%"]);
   ("width", ["svg"], ["100%"; "auto"]);
   ("height", ["svg"], ["100%"; "auto"]);
   ("lengthAdjust", ["text"; "textPath"; "tspan"], ["spacing"]);
   ("method", ["textPath"], ["align"]);
   ("spacing", ["textPath"], ["exact"]);
   ("side", ["textPath"], ["left"]);
   ("startOffset", ["textPath"], ["0"; "0%"]);
   ("media", ["style"], ["all"]);
   ("type", ["style"], ["text/css"]);
   ("type", ["script"], ["application/ecmascript"]);
   ("target", ["a"], ["_self"]);
   ("zoomAndPan", ["svg"; "view"], ["magnify"])].
Definition initial (element attribute value : text) : Prop :=
  exists a els vs e v, In (a, els, vs) initial_rows /\ lit a = attribute /\ (els = [] \/ (In e els /\ lit e = element)) /\ In v vs /\ lit v = value.

(** ** Where the code differs *)
(** Attributes it does not know. *)
Definition missing_attributes : list string := ["mask-type"; "text-overflow"; "white-space"]%string.
(** Attributes it takes to have another default, beside [transform-origin]. *)
Definition no_default : list (string * string) :=
  [("feConvolveMatrix", "divisor"); ("filter", "x"); ("filter", "y"); ("filter", "width"); ("filter", "height");
   ("linearGradient", "x2"); ("linearGradient", "y1"); ("mask", "x"); ("mask", "y"); ("mask", "width"); ("mask", "height");
   ("radialGradient", "cx"); ("radialGradient", "cy"); ("radialGradient", "r"); ("svg", "width"); ("svg", "height")]%string.
Definition known_kept (local : text) : Prop := ~ In local (map lit missing_attributes).
Definition has_default (element local : text) : Prop :=
  ~ In (element, local) (map (fun x => (lit (fst x), lit (snd x))) no_default) /\ local <> lit "transform-origin".
