(** Tables read off the Go source by tools/gen_tables.py; do not edit by hand.

    The element, attribute, property and unit functions of the packages html,
    svg, css and htmx are one-line calls; an entry is the Go name of the
    function and the call it makes. *)
From Coq Require Import String List.
Import ListNotations.

(** What a function calls, with the bytes of the package variables it passes. *)
Inductive fkind :=
| KElement (tag : string)            (* aitch.NewElement(tag, contents...) *)
| KVoid (tag : string)               (* aitch.NewVoidElement(tag, contents...) *)
| KPlain (name : string)             (* aitch.NewAttribute(name, value...) *)
| KBool (name : string)              (* aitch.NewBooleanAttribute(name) *)
| KDelim (name delimiter : string)   (* aitch.NewDelimitedAttribute(name, delimiter, value...) *)
| KStyle (property : string)         (* styleAttribute(property, value...) *)
| KUnit (unit : string).             (* aitch.NewConcatValue(append(value, unit)...) *)

(** html/elements.go lines 10-827: 114 functions, in source order. *)
Definition html_element_functions : list (string * fkind) := [
  ("A", KElement "a");
  ("Abbr", KElement "abbr");
  ("Address", KElement "address");
  ("Area", KVoid "area");
  ("Article", KElement "article");
  ("Aside", KElement "aside");
  ("Audio", KElement "audio");
  ("B", KElement "b");
  ("Base", KVoid "base");
  ("BlockQuote", KElement "blockquote");
  ("Body", KElement "body");
  ("Br", KVoid "br");
  ("Button", KElement "button");
  ("Canvas", KElement "canvas");
  ("Caption", KElement "caption");
  ("Cite", KElement "cite");
  ("Code", KElement "code");
  ("Col", KVoid "col");
  ("ColGroup", KElement "colgroup");
  ("DataElement", KElement "data");
  ("DataList", KElement "datalist");
  ("Dd", KElement "dd");
  ("Del", KElement "del");
  ("Dfn", KElement "dfn");
  ("Dt", KElement "dt");
  ("Details", KElement "details");
  ("Dialog", KElement "dialog");
  ("Div", KElement "div");
  ("Dl", KElement "dl");
  ("Em", KElement "em");
  ("Embed", KVoid "embed");
  ("Form", KElement "form");
  ("FieldSet", KElement "fieldset");
  ("FigCaption", KElement "figcaption");
  ("Figure", KElement "figure");
  ("Footer", KElement "footer");
  ("H1", KElement "h1");
  ("H2", KElement "h2");
  ("H3", KElement "h3");
  ("H4", KElement "h4");
  ("H5", KElement "h5");
  ("H6", KElement "h6");
  ("Head", KElement "head");
  ("Header", KElement "header");
  ("HGroup", KElement "hgroup");
  ("Hr", KVoid "hr");
  ("Html", KElement "html");
  ("I", KElement "i");
  ("IFrame", KElement "iframe");
  ("Img", KVoid "img");
  ("Input", KVoid "input");
  ("Ins", KElement "ins");
  ("Kbd", KElement "kbd");
  ("Label", KElement "label");
  ("Legend", KElement "legend");
  ("Li", KElement "li");
  ("Link", KVoid "link");
  ("Main", KElement "main");
  ("Mark", KElement "mark");
  ("Menu", KElement "menu");
  ("Meta", KVoid "meta");
  ("Meter", KElement "meter");
  ("Nav", KElement "nav");
  ("NoScript", KElement "noscript");
  ("Object", KElement "object");
  ("Ol", KElement "ol");
  ("OptGroup", KElement "optgroup");
  ("Option", KElement "option");
  ("P", KElement "p");
  ("Para", KElement "p");
  ("Param", KVoid "param");
  ("Picture", KElement "picture");
  ("Pre", KElement "pre");
  ("Progress", KElement "progress");
  ("Q", KElement "q");
  ("S", KElement "s");
  ("Samp", KElement "samp");
  ("Script", KElement "script");
  ("Section", KElement "section");
  ("Select", KElement "select");
  ("Slot", KElement "slot");
  ("Small", KElement "small");
  ("Source", KVoid "source");
  ("Span", KElement "span");
  ("Strong", KElement "strong");
  ("StyleElement", KElement "style");
  ("Sub", KElement "sub");
  ("Sup", KElement "sup");
  ("Summary", KElement "summary");
  ("Table", KElement "table");
  ("TBody", KElement "tbody");
  ("Td", KElement "td");
  ("Template", KElement "template");
  ("Textarea", KElement "textarea");
  ("TFoot", KElement "tfoot");
  ("Th", KElement "th");
  ("THead", KElement "thead");
  ("Time", KElement "time");
  ("TitleElement", KElement "title");
  ("Tr", KElement "tr");
  ("Ul", KElement "ul");
  ("U", KElement "u");
  ("Var", KElement "var");
  ("Video", KElement "video");
  ("Wbr", KVoid "wbr");
  ("Bdi", KElement "bdi");
  ("Bdo", KElement "bdo");
  ("Map", KElement "map");
  ("Output", KElement "output");
  ("Rp", KElement "rp");
  ("Rt", KElement "rt");
  ("Ruby", KElement "ruby");
  ("Search", KElement "search");
  ("Track", KElement "track")
]%string.

(** html/attributes.go lines 10-1395: 203 functions, in source order. *)
Definition html_attribute_functions : list (string * fkind) := [
  ("Async", KBool "async");
  ("AutoFocus", KBool "autofocus");
  ("AutoPlay", KBool "autoplay");
  ("Checked", KBool "checked");
  ("Controls", KBool "controls");
  ("CrossOrigin", KPlain "crossorigin");
  ("DateTime", KPlain "datetime");
  ("Defer", KBool "defer");
  ("Disabled", KBool "disabled");
  ("Download", KPlain "download");
  ("Draggable", KPlain "draggable");
  ("Loop", KBool "loop");
  ("Multiple", KBool "multiple");
  ("Muted", KBool "muted");
  ("PlaysInline", KBool "playsinline");
  ("ReadOnly", KBool "readonly");
  ("Required", KBool "required");
  ("Selected", KBool "selected");
  ("Accept", KPlain "accept");
  ("Action", KPlain "action");
  ("Alt", KPlain "alt");
  ("As", KPlain "as");
  ("AutoComplete", KPlain "autocomplete");
  ("Charset", KPlain "charset");
  ("CiteAttr", KPlain "cite");
  ("Class", KDelim "class" " ");
  ("Cols", KPlain "cols");
  ("ColSpan", KPlain "colspan");
  ("Content", KPlain "content");
  ("ContentEditable", KPlain "contenteditable");
  ("Dir", KPlain "dir");
  ("EncType", KPlain "enctype");
  ("For", KPlain "for");
  ("FormAttr", KPlain "form");
  ("NoValidate", KBool "novalidate");
  ("FormNoValidate", KBool "formnovalidate");
  ("Height", KPlain "height");
  ("Hidden", KBool "hidden");
  ("Href", KPlain "href");
  ("Id", KPlain "id");
  ("Integrity", KPlain "integrity");
  ("Lang", KPlain "lang");
  ("List", KPlain "list");
  ("Loading", KPlain "loading");
  ("Max", KPlain "max");
  ("MaxLength", KPlain "maxlength");
  ("Method", KPlain "method");
  ("Min", KPlain "min");
  ("MinLength", KPlain "minlength");
  ("Name", KPlain "name");
  ("Pattern", KPlain "pattern");
  ("Placeholder", KPlain "placeholder");
  ("PopOver", KPlain "popover");
  ("PopOverTarget", KPlain "popovertarget");
  ("PopOverTargetAction", KPlain "popovertargetaction");
  ("Poster", KPlain "poster");
  ("Preload", KPlain "preload");
  ("ReferrerPolicy", KPlain "referrerpolicy");
  ("Rel", KPlain "rel");
  ("Role", KPlain "role");
  ("Rows", KPlain "rows");
  ("RowSpan", KPlain "rowspan");
  ("SlotAttr", KPlain "slot");
  ("Src", KPlain "src");
  ("SrcSet", KPlain "srcset");
  ("Step", KPlain "step");
  ("Style", KDelim "style" "; ");
  ("TabIndex", KPlain "tabindex");
  ("Target", KPlain "target");
  ("Title", KPlain "title");
  ("Type", KPlain "type");
  ("Value", KPlain "value");
  ("Width", KPlain "width");
  ("AllowFullScreen", KBool "allowfullscreen");
  ("Default", KBool "default");
  ("Inert", KBool "inert");
  ("IsMap", KBool "ismap");
  ("ItemScope", KBool "itemscope");
  ("NoModule", KBool "nomodule");
  ("Open", KBool "open");
  ("Reversed", KBool "reversed");
  ("Spellcheck", KBool "spellcheck");
  ("Translate", KBool "translate");
  ("AriaAtomic", KPlain "aria-atomic");
  ("AriaBusy", KPlain "aria-busy");
  ("AriaChecked", KPlain "aria-checked");
  ("AriaControls", KPlain "aria-controls");
  ("AriaDescribedBy", KPlain "aria-describedby");
  ("AriaDisabled", KPlain "aria-disabled");
  ("AriaExpanded", KPlain "aria-expanded");
  ("AriaFlowTo", KPlain "aria-flowto");
  ("AriaHidden", KPlain "aria-hidden");
  ("AriaInvalid", KPlain "aria-invalid");
  ("AriaLabel", KPlain "aria-label");
  ("AriaLabelledBy", KPlain "aria-labelledby");
  ("AriaLive", KPlain "aria-live");
  ("AriaOwns", KPlain "aria-owns");
  ("AriaPlaceholder", KPlain "aria-placeholder");
  ("AriaPosInSet", KPlain "aria-posinset");
  ("AriaPressed", KPlain "aria-pressed");
  ("AriaReadonly", KPlain "aria-readonly");
  ("AriaRelevant", KPlain "aria-relevant");
  ("AriaRequired", KPlain "aria-required");
  ("AriaSelected", KPlain "aria-selected");
  ("AriaSetSize", KPlain "aria-setsize");
  ("AriaValueMax", KPlain "aria-valuemax");
  ("AriaValueMin", KPlain "aria-valuemin");
  ("AriaValueNow", KPlain "aria-valuenow");
  ("AriaValueText", KPlain "aria-valuetext");
  ("OnAbort", KPlain "onabort");
  ("OnBeforeUnload", KPlain "onbeforeunload");
  ("OnBlur", KPlain "onblur");
  ("OnCanPlay", KPlain "oncanplay");
  ("OnCanPlayThrough", KPlain "oncanplaythrough");
  ("OnChange", KPlain "onchange");
  ("OnClick", KPlain "onclick");
  ("OnContextMenu", KPlain "oncontextmenu");
  ("OnCopy", KPlain "oncopy");
  ("OnCut", KPlain "oncut");
  ("OnDblClick", KPlain "ondblclick");
  ("OnDrag", KPlain "ondrag");
  ("OnDragEnd", KPlain "ondragend");
  ("OnDragEnter", KPlain "ondragenter");
  ("OnDragLeave", KPlain "ondragleave");
  ("OnDragOver", KPlain "ondragover");
  ("OnDragStart", KPlain "ondragstart");
  ("OnDrop", KPlain "ondrop");
  ("OnDurationChange", KPlain "ondurationchange");
  ("OnEnded", KPlain "onended");
  ("OnError", KPlain "onerror");
  ("OnFocus", KPlain "onfocus");
  ("OnHashChange", KPlain "onhashchange");
  ("OnInput", KPlain "oninput");
  ("OnInvalid", KPlain "oninvalid");
  ("OnKeyDown", KPlain "onkeydown");
  ("OnKeyPress", KPlain "onkeypress");
  ("OnKeyUp", KPlain "onkeyup");
  ("OnLoad", KPlain "onload");
  ("OnLoadedData", KPlain "onloadeddata");
  ("OnLoadedMetadata", KPlain "onloadedmetadata");
  ("OnMouseDown", KPlain "onmousedown");
  ("OnMouseEnter", KPlain "onmouseenter");
  ("OnMouseLeave", KPlain "onmouseleave");
  ("OnMouseMove", KPlain "onmousemove");
  ("OnMouseOut", KPlain "onmouseout");
  ("OnMouseOver", KPlain "onmouseover");
  ("OnMouseUp", KPlain "onmouseup");
  ("OnPageHide", KPlain "onpagehide");
  ("OnPageShow", KPlain "onpageshow");
  ("OnPaste", KPlain "onpaste");
  ("OnPause", KPlain "onpause");
  ("OnPlay", KPlain "onplay");
  ("OnPlaying", KPlain "onplaying");
  ("OnPopState", KPlain "onpopstate");
  ("OnProgress", KPlain "onprogress");
  ("OnRateChange", KPlain "onratechange");
  ("OnReset", KPlain "onreset");
  ("OnResize", KPlain "onresize");
  ("OnScroll", KPlain "onscroll");
  ("OnSeeked", KPlain "onseeked");
  ("OnSeeking", KPlain "onseeking");
  ("OnSelect", KPlain "onselect");
  ("OnStalled", KPlain "onstalled");
  ("OnSubmit", KPlain "onsubmit");
  ("OnSuspend", KPlain "onsuspend");
  ("OnTimeUpdate", KPlain "ontimeupdate");
  ("OnToggle", KPlain "ontoggle");
  ("OnUnload", KPlain "onunload");
  ("OnVolumeChange", KPlain "onvolumechange");
  ("OnWaiting", KPlain "onwaiting");
  ("OnPointerDown", KPlain "onpointerdown");
  ("OnPointerUp", KPlain "onpointerup");
  ("OnPointerMove", KPlain "onpointermove");
  ("OnPointerEnter", KPlain "onpointerenter");
  ("OnPointerLeave", KPlain "onpointerleave");
  ("OnPointerOver", KPlain "onpointerover");
  ("OnPointerOut", KPlain "onpointerout");
  ("OnPointerCancel", KPlain "onpointercancel");
  ("OnTouchStart", KPlain "ontouchstart");
  ("OnTouchMove", KPlain "ontouchmove");
  ("OnTouchEnd", KPlain "ontouchend");
  ("OnTouchCancel", KPlain "ontouchcancel");
  ("OnAnimationStart", KPlain "onanimationstart");
  ("OnAnimationEnd", KPlain "onanimationend");
  ("OnAnimationIteration", KPlain "onanimationiteration");
  ("OnTransitionEnd", KPlain "ontransitionend");
  ("OnBeforeInput", KPlain "onbeforeinput");
  ("OnSlotChange", KPlain "onslotchange");
  ("OnFormData", KPlain "onformdata");
  ("AccessKey", KPlain "accesskey");
  ("AutoCapitalize", KPlain "autocapitalize");
  ("AutoCorrect", KPlain "autocorrect");
  ("EnterKeyHint", KPlain "enterkeyhint");
  ("ExportParts", KPlain "exportparts");
  ("InputMode", KPlain "inputmode");
  ("Is", KPlain "is");
  ("ItemId", KPlain "itemid");
  ("ItemProp", KPlain "itemprop");
  ("ItemRef", KPlain "itemref");
  ("ItemType", KPlain "itemtype");
  ("Nonce", KPlain "nonce");
  ("Part", KPlain "part");
  ("WritingSuggestions", KPlain "writingsuggestions")
]%string.

(** svg/elements.go lines 8-461: 66 functions, in source order. *)
Definition svg_element_functions : list (string * fkind) := [
  ("Svg", KElement "svg");
  ("AltGlyph", KElement "altGlyph");
  ("Animate", KElement "animate");
  ("AnimateMotion", KElement "animateMotion");
  ("AnimateTransform", KElement "animateTransform");
  ("Circle", KElement "circle");
  ("ClipPath", KElement "clipPath");
  ("Defs", KElement "defs");
  ("Desc", KElement "desc");
  ("Discard", KElement "discard");
  ("Ellipse", KElement "ellipse");
  ("FeBlend", KElement "feBlend");
  ("FeColorMatrix", KElement "feColorMatrix");
  ("FeComponentTransfer", KElement "feComponentTransfer");
  ("FeComposite", KElement "feComposite");
  ("FeConvolveMatrix", KElement "feConvolveMatrix");
  ("FeDiffuseLighting", KElement "feDiffuseLighting");
  ("FeDisplacementMap", KElement "feDisplacementMap");
  ("FeDistantLight", KElement "feDistantLight");
  ("FeDropShadow", KElement "feDropShadow");
  ("FeFlood", KElement "feFlood");
  ("FeFuncA", KElement "feFuncA");
  ("FeFuncB", KElement "feFuncB");
  ("FeFuncG", KElement "feFuncG");
  ("FeFuncR", KElement "feFuncR");
  ("FeGaussianBlur", KElement "feGaussianBlur");
  ("FeImage", KElement "feImage");
  ("FeMerge", KElement "feMerge");
  ("FeMergeNode", KElement "feMergeNode");
  ("FeMorphology", KElement "feMorphology");
  ("FeOffset", KElement "feOffset");
  ("FePointLight", KElement "fePointLight");
  ("FeSpecularLighting", KElement "feSpecularLighting");
  ("FeSpotLight", KElement "feSpotLight");
  ("FeTile", KElement "feTile");
  ("FeTurbulence", KElement "feTurbulence");
  ("Filter", KElement "filter");
  ("ForeignObject", KElement "foreignObject");
  ("G", KElement "g");
  ("Glyph", KElement "glyph");
  ("Line", KElement "line");
  ("LinearGradient", KElement "linearGradient");
  ("Marker", KElement "marker");
  ("Mask", KElement "mask");
  ("Metadata", KElement "metadata");
  ("Mpath", KElement "mpath");
  ("Path", KElement "path");
  ("Pattern", KElement "pattern");
  ("Polygon", KElement "polygon");
  ("Polyline", KElement "polyline");
  ("RadialGradient", KElement "radialGradient");
  ("Rect", KElement "rect");
  ("Script", KElement "script");
  ("Set", KElement "set");
  ("SolidColor", KElement "solidcolor");
  ("Stop", KElement "stop");
  ("StyleElement", KElement "style");
  ("Symbol", KElement "symbol");
  ("TextElement", KElement "text");
  ("TextPath", KElement "textPath");
  ("Title", KElement "title");
  ("TRef", KElement "tref");
  ("TSpan", KElement "tspan");
  ("Use", KElement "use");
  ("Switch", KElement "switch");
  ("View", KElement "view")
]%string.

(** svg/attributes.go lines 6-718: 143 functions, in source order. *)
Definition svg_attribute_functions : list (string * fkind) := [
  ("Accumulate", KPlain "accumulate");
  ("Additive", KPlain "additive");
  ("AlignmentBaseline", KPlain "alignment-baseline");
  ("AttributeName", KPlain "attributeName");
  ("AttributeType", KPlain "attributeType");
  ("BaselineShift", KPlain "baseline-shift");
  ("Begin", KPlain "begin");
  ("By", KPlain "by");
  ("CalcMode", KPlain "calcMode");
  ("Class", KPlain "class");
  ("Clip", KPlain "clip");
  ("ClipPathAttr", KPlain "clip-path");
  ("ClipRule", KPlain "clip-rule");
  ("Color", KPlain "color");
  ("ColorInterpolation", KPlain "color-interpolation");
  ("ColorInterpolationFilters", KPlain "color-interpolation-filters");
  ("ColorProfile", KPlain "color-profile");
  ("ColorRendering", KPlain "color-rendering");
  ("Cursor", KPlain "cursor");
  ("Cx", KPlain "cx");
  ("Cy", KPlain "cy");
  ("D", KPlain "d");
  ("Direction", KPlain "direction");
  ("Display", KPlain "display");
  ("DominantBaseline", KPlain "dominant-baseline");
  ("Dur", KPlain "dur");
  ("Dx", KPlain "dx");
  ("Dy", KPlain "dy");
  ("EnableBackground", KPlain "enable-background");
  ("End", KPlain "end");
  ("ExternalResourcesRequired", KPlain "externalResourcesRequired");
  ("Fill", KPlain "fill");
  ("FillOpacity", KPlain "fill-opacity");
  ("FillRule", KPlain "fill-rule");
  ("FilterAttr", KPlain "filter");
  ("FilterUnits", KPlain "filterUnits");
  ("FloodColor", KPlain "flood-color");
  ("FloodOpacity", KPlain "flood-opacity");
  ("FontFamily", KPlain "font-family");
  ("FontSize", KPlain "font-size");
  ("FontSizeAdjust", KPlain "font-size-adjust");
  ("FontStretch", KPlain "font-stretch");
  ("FontStyle", KPlain "font-style");
  ("FontVariant", KPlain "font-variant");
  ("FontWeight", KPlain "font-weight");
  ("From", KPlain "from");
  ("Fx", KPlain "fx");
  ("Fy", KPlain "fy");
  ("GlyphOrientationHorizontal", KPlain "glyph-orientation-horizontal");
  ("GlyphOrientationVertical", KPlain "glyph-orientation-vertical");
  ("GradientTransform", KPlain "gradientTransform");
  ("GradientUnits", KPlain "gradientUnits");
  ("Height", KPlain "height");
  ("Href", KPlain "href");
  ("Id", KPlain "id");
  ("ImageRendering", KPlain "image-rendering");
  ("Kerning", KPlain "kerning");
  ("KeyPoints", KPlain "keyPoints");
  ("KeySplines", KPlain "keySplines");
  ("KeyTimes", KPlain "keyTimes");
  ("LengthAdjust", KPlain "lengthAdjust");
  ("LetterSpacing", KPlain "letter-spacing");
  ("LightingColor", KPlain "lighting-color");
  ("MarkerEnd", KPlain "marker-end");
  ("MarkerMid", KPlain "marker-mid");
  ("MarkerStart", KPlain "marker-start");
  ("MarkerHeight", KPlain "markerHeight");
  ("MarkerUnits", KPlain "markerUnits");
  ("MarkerWidth", KPlain "markerWidth");
  ("MaskAttr", KPlain "mask");
  ("OnBlur", KPlain "onblur");
  ("OnClick", KPlain "onclick");
  ("OnFocus", KPlain "onfocus");
  ("OnLoad", KPlain "onload");
  ("OnMouseDown", KPlain "onmousedown");
  ("OnMouseMove", KPlain "onmousemove");
  ("OnMouseOut", KPlain "onmouseout");
  ("OnMouseOver", KPlain "onmouseover");
  ("OnMouseUp", KPlain "onmouseup");
  ("OnUnload", KPlain "onunload");
  ("Opacity", KPlain "opacity");
  ("Orient", KPlain "orient");
  ("PathAttr", KPlain "path");
  ("PathLength", KPlain "pathLength");
  ("PatternContentUnits", KPlain "patternContentUnits");
  ("PatternTransform", KPlain "patternTransform");
  ("PatternUnits", KPlain "patternUnits");
  ("PointerEvents", KPlain "pointer-events");
  ("Points", KPlain "points");
  ("PreserveAspectRatio", KPlain "preserveAspectRatio");
  ("PrimitiveUnits", KPlain "primitiveUnits");
  ("R", KPlain "r");
  ("RefX", KPlain "refX");
  ("RefY", KPlain "refY");
  ("RepeatCount", KPlain "repeatCount");
  ("RepeatDur", KPlain "repeatDur");
  ("RequiredExtensions", KPlain "requiredExtensions");
  ("RequiredFeatures", KPlain "requiredFeatures");
  ("Rotate", KPlain "rotate");
  ("Rx", KPlain "rx");
  ("Ry", KPlain "ry");
  ("ShapeRendering", KPlain "shape-rendering");
  ("SpreadMethod", KPlain "spreadMethod");
  ("StopColor", KPlain "stop-color");
  ("StopOpacity", KPlain "stop-opacity");
  ("Stroke", KPlain "stroke");
  ("StrokeDashArray", KPlain "stroke-dasharray");
  ("StrokeDashOffset", KPlain "stroke-dashoffset");
  ("StrokeLineCap", KPlain "stroke-linecap");
  ("StrokeLineJoin", KPlain "stroke-linejoin");
  ("StrokeMiterLimit", KPlain "stroke-miterlimit");
  ("StrokeOpacity", KPlain "stroke-opacity");
  ("StrokeWidth", KPlain "stroke-width");
  ("Style", KDelim "style" "; ");
  ("SystemLanguage", KPlain "systemLanguage");
  ("TabIndex", KPlain "tabindex");
  ("TextAnchor", KPlain "text-anchor");
  ("TextDecoration", KPlain "text-decoration");
  ("TextRendering", KPlain "text-rendering");
  ("TextLength", KPlain "textLength");
  ("To", KPlain "to");
  ("Type", KPlain "type");
  ("UnicodeBidi", KPlain "unicode-bidi");
  ("Values", KPlain "values");
  ("Visibility", KPlain "visibility");
  ("Width", KPlain "width");
  ("WordSpacing", KPlain "word-spacing");
  ("WritingMode", KPlain "writing-mode");
  ("X", KPlain "x");
  ("X1", KPlain "x1");
  ("X2", KPlain "x2");
  ("XlinkActuate", KPlain "xlink:actuate");
  ("XlinkArcrole", KPlain "xlink:arcrole");
  ("XlinkHref", KPlain "xlink:href");
  ("XlinkRole", KPlain "xlink:role");
  ("XlinkShow", KPlain "xlink:show");
  ("XlinkTitle", KPlain "xlink:title");
  ("XmlBase", KPlain "xml:base");
  ("XmlLang", KPlain "xml:lang");
  ("XmlSpace", KPlain "xml:space");
  ("Y", KPlain "y");
  ("Y1", KPlain "y1");
  ("Y2", KPlain "y2")
]%string.

(** css/properties.go lines 6-666: 133 functions, in source order. *)
Definition css_property_functions : list (string * fkind) := [
  ("Display", KStyle "display:");
  ("Position", KStyle "position:");
  ("Top", KStyle "top:");
  ("Right", KStyle "right:");
  ("Bottom", KStyle "bottom:");
  ("Left", KStyle "left:");
  ("ZIndex", KStyle "z-index:");
  ("Float", KStyle "float:");
  ("Clear", KStyle "clear:");
  ("Flex", KStyle "flex:");
  ("FlexGrow", KStyle "flex-grow:");
  ("FlexShrink", KStyle "flex-shrink:");
  ("FlexBasis", KStyle "flex-basis:");
  ("JustifyContent", KStyle "justify-content:");
  ("AlignItems", KStyle "align-items:");
  ("AlignContent", KStyle "align-content:");
  ("AlignSelf", KStyle "align-self:");
  ("Gap", KStyle "gap:");
  ("RowGap", KStyle "row-gap:");
  ("ColumnGap", KStyle "column-gap:");
  ("Width", KStyle "width:");
  ("Height", KStyle "height:");
  ("MinWidth", KStyle "min-width:");
  ("MaxWidth", KStyle "max-width:");
  ("MinHeight", KStyle "min-height:");
  ("MaxHeight", KStyle "max-height:");
  ("Margin", KStyle "margin:");
  ("MarginTop", KStyle "margin-top:");
  ("MarginRight", KStyle "margin-right:");
  ("MarginBottom", KStyle "margin-bottom:");
  ("MarginLeft", KStyle "margin-left:");
  ("Padding", KStyle "padding:");
  ("PaddingTop", KStyle "padding-top:");
  ("PaddingRight", KStyle "padding-right:");
  ("PaddingBottom", KStyle "padding-bottom:");
  ("PaddingLeft", KStyle "padding-left:");
  ("Border", KStyle "border:");
  ("BorderWidth", KStyle "border-width:");
  ("BorderColor", KStyle "border-color:");
  ("BorderStyle", KStyle "border-style:");
  ("BorderRadius", KStyle "border-radius:");
  ("BorderTop", KStyle "border-top:");
  ("BorderBottom", KStyle "border-bottom:");
  ("BorderLeft", KStyle "border-left:");
  ("BorderRight", KStyle "border-right:");
  ("Background", KStyle "background:");
  ("BackgroundColor", KStyle "background-color:");
  ("BackgroundImage", KStyle "background-image:");
  ("BackgroundSize", KStyle "background-size:");
  ("BackgroundPosition", KStyle "background-position:");
  ("BackgroundRepeat", KStyle "background-repeat:");
  ("Color", KStyle "color:");
  ("FontSize", KStyle "font-size:");
  ("FontWeight", KStyle "font-weight:");
  ("FontFamily", KStyle "font-family:");
  ("LineHeight", KStyle "line-height:");
  ("LetterSpacing", KStyle "letter-spacing:");
  ("TextAlign", KStyle "text-align:");
  ("TextTransform", KStyle "text-transform:");
  ("TextDecoration", KStyle "text-decoration:");
  ("WhiteSpace", KStyle "white-space:");
  ("WordBreak", KStyle "word-break:");
  ("Opacity", KStyle "opacity:");
  ("BoxShadow", KStyle "box-shadow:");
  ("Visibility", KStyle "visibility:");
  ("Overflow", KStyle "overflow:");
  ("OverflowX", KStyle "overflow-x:");
  ("OverflowY", KStyle "overflow-y:");
  ("Cursor", KStyle "cursor:");
  ("Transition", KStyle "transition:");
  ("TransitionDuration", KStyle "transition-duration:");
  ("TransitionTimingFunction", KStyle "transition-timing-function:");
  ("Transform", KStyle "transform:");
  ("Animation", KStyle "animation:");
  ("UserSelect", KStyle "user-select:");
  ("PointerEvents", KStyle "pointer-events:");
  ("Isolation", KStyle "isolation:");
  ("ObjectFit", KStyle "object-fit:");
  ("ObjectPosition", KStyle "object-position:");
  ("BoxSizing", KStyle "box-sizing:");
  ("AspectRatio", KStyle "aspect-ratio:");
  ("Contain", KStyle "contain:");
  ("ContentVisibility", KStyle "content-visibility:");
  ("Resize", KStyle "resize:");
  ("GridTemplateColumns", KStyle "grid-template-columns:");
  ("GridTemplateRows", KStyle "grid-template-rows:");
  ("GridColumn", KStyle "grid-column:");
  ("GridRow", KStyle "grid-row:");
  ("GridArea", KStyle "grid-area:");
  ("GridAutoFlow", KStyle "grid-auto-flow:");
  ("PlaceItems", KStyle "place-items:");
  ("PlaceContent", KStyle "place-content:");
  ("PlaceSelf", KStyle "place-self:");
  ("FontStyle", KStyle "font-style:");
  ("FontVariant", KStyle "font-variant:");
  ("FontStretch", KStyle "font-stretch:");
  ("Direction", KStyle "direction:");
  ("TabSize", KStyle "tab-size:");
  ("ListStyle", KStyle "list-style:");
  ("ListStyleType", KStyle "list-style-type:");
  ("ListStylePosition", KStyle "list-style-position:");
  ("ListStyleImage", KStyle "list-style-image:");
  ("BorderCollapse", KStyle "border-collapse:");
  ("BorderSpacing", KStyle "border-spacing:");
  ("TableLayout", KStyle "table-layout:");
  ("EmptyCells", KStyle "empty-cells:");
  ("Filter", KStyle "filter:");
  ("BackdropFilter", KStyle "backdrop-filter:");
  ("MixBlendMode", KStyle "mix-blend-mode:");
  ("BoxDecorationBreak", KStyle "box-decoration-break:");
  ("ScrollBehavior", KStyle "scroll-behavior:");
  ("ScrollSnapType", KStyle "scroll-snap-type:");
  ("ScrollSnapAlign", KStyle "scroll-snap-align:");
  ("ScrollMargin", KStyle "scroll-margin:");
  ("ScrollPadding", KStyle "scroll-padding:");
  ("AnimationName", KStyle "animation-name:");
  ("AnimationDuration", KStyle "animation-duration:");
  ("AnimationTimingFunction", KStyle "animation-timing-function:");
  ("AnimationDelay", KStyle "animation-delay:");
  ("AnimationIterationCount", KStyle "animation-iteration-count:");
  ("AnimationDirection", KStyle "animation-direction:");
  ("AnimationFillMode", KStyle "animation-fill-mode:");
  ("AnimationPlayState", KStyle "animation-play-state:");
  ("TransitionProperty", KStyle "transition-property:");
  ("TransitionDelay", KStyle "transition-delay:");
  ("TouchAction", KStyle "touch-action:");
  ("WillChange", KStyle "will-change:");
  ("CaretColor", KStyle "caret-color:");
  ("ScrollSnapStop", KStyle "scroll-snap-stop:");
  ("Speak", KStyle "speak:");
  ("PageBreakBefore", KStyle "page-break-before:");
  ("PageBreakAfter", KStyle "page-break-after:");
  ("PageBreakInside", KStyle "page-break-inside:")
]%string.

(** css/units.go lines 24-94: 15 functions, in source order. *)
Definition css_unit_functions : list (string * fkind) := [
  ("Px", KUnit "px");
  ("Pt", KUnit "pt");
  ("Pc", KUnit "pc");
  ("In", KUnit "in");
  ("Cm", KUnit "cm");
  ("Mm", KUnit "mm");
  ("Em", KUnit "em");
  ("Rem", KUnit "rem");
  ("Percent", KUnit "%");
  ("Vw", KUnit "vw");
  ("Vh", KUnit "vh");
  ("VMin", KUnit "vmin");
  ("VMax", KUnit "vmax");
  ("Ch", KUnit "ch");
  ("Ex", KUnit "ex")
]%string.

(** htmx/attributes.go lines 12-379: 38 functions, in source order. *)
Definition htmx_attribute_functions : list (string * fkind) := [
  ("Get", KPlain "hx-get");
  ("Post", KPlain "hx-post");
  ("Put", KPlain "hx-put");
  ("Delete", KPlain "hx-delete");
  ("Patch", KPlain "hx-patch");
  ("Target", KPlain "hx-target");
  ("Swap", KPlain "hx-swap");
  ("SwapOob", KPlain "hx-swap-oob");
  ("Trigger", KDelim "hx-trigger" " ");
  ("Include", KPlain "hx-include");
  ("Select", KPlain "hx-select");
  ("Params", KDelim "hx-params" " ");
  ("PushURL", KPlain "hx-push-url");
  ("ReplaceURL", KPlain "hx-replace-url");
  ("OnBeforeRequest", KPlain "hx-on:before-request");
  ("OnSend", KPlain "hx-on:send");
  ("OnAfterRequest", KPlain "hx-on:after-request");
  ("OnBeforeSwap", KPlain "hx-on:before-swap");
  ("OnAfterSwap", KPlain "hx-on:after-swap");
  ("OnResponseError", KPlain "hx-on:response-error");
  ("OnSendError", KPlain "hx-on:send-error");
  ("Confirm", KPlain "hx-confirm");
  ("Disable", KPlain "hx-disable");
  ("DisabledElt", KPlain "hx-disabled-elt");
  ("Boost", KPlain "hx-boost");
  ("Ext", KPlain "hx-ext");
  ("Encoding", KPlain "hx-encoding");
  ("HistoryElt", KPlain "hx-history-elt");
  ("Indicator", KPlain "hx-indicator");
  ("Request", KPlain "hx-request");
  ("Vals", KPlain "hx-vals");
  ("Vars", KDelim "hx-vars" ", ");
  ("Inherit", KDelim "hx-inherit" " ");
  ("Disinherit", KDelim "hx-disinherit" " ");
  ("Sync", KPlain "hx-sync");
  ("Preserve", KPlain "hx-preserve");
  ("Prompt", KPlain "hx-prompt");
  ("Validate", KPlain "hx-validate")
]%string.

(** html/generator.go lines 141-246: [elems], key and function name. *)
Definition html_generator_elements : list (string * string) := [
  ("a", "A");
  ("abbr", "Abbr");
  ("address", "Address");
  ("area", "Area");
  ("article", "Article");
  ("aside", "Aside");
  ("audio", "Audio");
  ("b", "B");
  ("base", "Base");
  ("blockquote", "BlockQuote");
  ("body", "Body");
  ("br", "Br");
  ("button", "Button");
  ("canvas", "Canvas");
  ("caption", "Caption");
  ("cite", "Cite");
  ("code", "Code");
  ("col", "Col");
  ("colgroup", "ColGroup");
  ("data", "DataElement");
  ("datalist", "DataList");
  ("dd", "Dd");
  ("del", "Del");
  ("details", "Details");
  ("dfn", "Dfn");
  ("dialog", "Dialog");
  ("div", "Div");
  ("dl", "Dl");
  ("dt", "Dt");
  ("em", "Em");
  ("embed", "Embed");
  ("fieldset", "FieldSet");
  ("figcaption", "FigCaption");
  ("figure", "Figure");
  ("footer", "Footer");
  ("form", "Form");
  ("h1", "H1");
  ("h2", "H2");
  ("h3", "H3");
  ("h4", "H4");
  ("h5", "H5");
  ("h6", "H6");
  ("head", "Head");
  ("header", "Header");
  ("hgroup", "HGroup");
  ("hr", "Hr");
  ("html", "Html");
  ("i", "I");
  ("iframe", "IFrame");
  ("img", "Img");
  ("input", "Input");
  ("ins", "Ins");
  ("kbd", "Kbd");
  ("label", "Label");
  ("legend", "Legend");
  ("li", "Li");
  ("link", "Link");
  ("main", "Main");
  ("mark", "Mark");
  ("menu", "Menu");
  ("meta", "Meta");
  ("meter", "Meter");
  ("nav", "Nav");
  ("noscript", "NoScript");
  ("object", "Object");
  ("ol", "Ol");
  ("optgroup", "OptGroup");
  ("option", "Option");
  ("p", "P");
  ("param", "Param");
  ("picture", "Picture");
  ("pre", "Pre");
  ("progress", "Progress");
  ("q", "Q");
  ("s", "S");
  ("samp", "Samp");
  ("script", "Script");
  ("section", "Section");
  ("select", "Select");
  ("slot", "Slot");
  ("small", "Small");
  ("source", "Source");
  ("span", "Span");
  ("strong", "Strong");
  ("style", "StyleElement");
  ("sub", "Sub");
  ("summary", "Summary");
  ("sup", "Sup");
  ("table", "Table");
  ("tbody", "TBody");
  ("td", "Td");
  ("template", "Template");
  ("textarea", "Textarea");
  ("tfoot", "TFoot");
  ("th", "Th");
  ("thead", "THead");
  ("time", "Time");
  ("title", "TitleElement");
  ("tr", "Tr");
  ("u", "U");
  ("ul", "Ul");
  ("var", "Var");
  ("video", "Video");
  ("wbr", "Wbr")
]%string.

(** html/generator.go lines 247-420: [attrs], key and function name. *)
Definition html_generator_attributes : list (string * string) := [
  ("accept", "Accept");
  ("action", "Action");
  ("allowfullscreen", "AllowFullScreen");
  ("alt", "Alt");
  ("aria-", "Aria");
  ("aria-atomic", "AriaAtomic");
  ("aria-busy", "AriaBusy");
  ("aria-checked", "AriaChecked");
  ("aria-controls", "AriaControls");
  ("aria-describedby", "AriaDescribedBy");
  ("aria-disabled", "AriaDisabled");
  ("aria-expanded", "AriaExpanded");
  ("aria-flowto", "AriaFlowTo");
  ("aria-hidden", "AriaHidden");
  ("aria-invalid", "AriaInvalid");
  ("aria-label", "AriaLabel");
  ("aria-labelledby", "AriaLabelledBy");
  ("aria-live", "AriaLive");
  ("aria-owns", "AriaOwns");
  ("aria-placeholder", "AriaPlaceholder");
  ("aria-posinset", "AriaPosInSet");
  ("aria-pressed", "AriaPressed");
  ("aria-readonly", "AriaReadonly");
  ("aria-relevant", "AriaRelevant");
  ("aria-required", "AriaRequired");
  ("aria-selected", "AriaSelected");
  ("aria-setsize", "AriaSetSize");
  ("aria-valuemax", "AriaValueMax");
  ("aria-valuemin", "AriaValueMin");
  ("aria-valuenow", "AriaValueNow");
  ("aria-valuetext", "AriaValueText");
  ("as", "As");
  ("async", "Async");
  ("autocomplete", "AutoComplete");
  ("autofocus", "AutoFocus");
  ("autoplay", "AutoPlay");
  ("charset", "Charset");
  ("checked", "Checked");
  ("cite", "CiteAttr");
  ("class", "Class");
  ("cols", "Cols");
  ("colspan", "ColSpan");
  ("content", "Content");
  ("contenteditable", "ContentEditable");
  ("controls", "Controls");
  ("crossorigin", "CrossOrigin");
  ("data-", "Data");
  ("datetime", "DateTime");
  ("default", "Default");
  ("defer", "Defer");
  ("dir", "Dir");
  ("disabled", "Disabled");
  ("download", "Download");
  ("draggable", "Draggable");
  ("enctype", "EncType");
  ("for", "For");
  ("form", "FormAttr");
  ("formnovalidate", "FormNoValidate");
  ("height", "Height");
  ("hidden", "Hidden");
  ("href", "Href");
  ("id", "Id");
  ("inert", "Inert");
  ("integrity", "Integrity");
  ("ismap", "IsMap");
  ("itemscope", "ItemScope");
  ("lang", "Lang");
  ("list", "List");
  ("loading", "Loading");
  ("loop", "Loop");
  ("max", "Max");
  ("maxlength", "MaxLength");
  ("method", "Method");
  ("min", "Min");
  ("minlength", "MinLength");
  ("multiple", "Multiple");
  ("muted", "Muted");
  ("name", "Name");
  ("nomodule", "NoModule");
  ("novalidate", "NoValidate");
  ("onabort", "OnAbort");
  ("onbeforeunload", "OnBeforeUnload");
  ("onblur", "OnBlur");
  ("oncanplay", "OnCanPlay");
  ("oncanplaythrough", "OnCanPlayThrough");
  ("onchange", "OnChange");
  ("onclick", "OnClick");
  ("oncontextmenu", "OnContextMenu");
  ("oncopy", "OnCopy");
  ("oncut", "OnCut");
  ("ondblclick", "OnDblClick");
  ("ondrag", "OnDrag");
  ("ondragend", "OnDragEnd");
  ("ondragenter", "OnDragEnter");
  ("ondragleave", "OnDragLeave");
  ("ondragover", "OnDragOver");
  ("ondragstart", "OnDragStart");
  ("ondrop", "OnDrop");
  ("ondurationchange", "OnDurationChange");
  ("onended", "OnEnded");
  ("onerror", "OnError");
  ("onfocus", "OnFocus");
  ("onhashchange", "OnHashChange");
  ("oninput", "OnInput");
  ("oninvalid", "OnInvalid");
  ("onkeydown", "OnKeyDown");
  ("onkeypress", "OnKeyPress");
  ("onkeyup", "OnKeyUp");
  ("onload", "OnLoad");
  ("onloadeddata", "OnLoadedData");
  ("onloadedmetadata", "OnLoadedMetadata");
  ("onmousedown", "OnMouseDown");
  ("onmouseenter", "OnMouseEnter");
  ("onmouseleave", "OnMouseLeave");
  ("onmousemove", "OnMouseMove");
  ("onmouseout", "OnMouseOut");
  ("onmouseover", "OnMouseOver");
  ("onmouseup", "OnMouseUp");
  ("onpagehide", "OnPageHide");
  ("onpageshow", "OnPageShow");
  ("onpaste", "OnPaste");
  ("onpause", "OnPause");
  ("onplay", "OnPlay");
  ("onplaying", "OnPlaying");
  ("onpopstate", "OnPopState");
  ("onprogress", "OnProgress");
  ("onratechange", "OnRateChange");
  ("onreset", "OnReset");
  ("onresize", "OnResize");
  ("onscroll", "OnScroll");
  ("onseeked", "OnSeeked");
  ("onseeking", "OnSeeking");
  ("onselect", "OnSelect");
  ("onstalled", "OnStalled");
  ("onsubmit", "OnSubmit");
  ("onsuspend", "OnSuspend");
  ("ontimeupdate", "OnTimeUpdate");
  ("ontoggle", "OnToggle");
  ("onunload", "OnUnload");
  ("onvolumechange", "OnVolumeChange");
  ("onwaiting", "OnWaiting");
  ("open", "Open");
  ("pattern", "Pattern");
  ("placeholder", "Placeholder");
  ("playsinline", "PlaysInline");
  ("popover", "PopOver");
  ("popovertarget", "PopOverTarget");
  ("popovertargetaction", "PopOverTargetAction");
  ("poster", "Poster");
  ("preload", "Preload");
  ("readonly", "ReadOnly");
  ("referrerpolicy", "ReferrerPolicy");
  ("rel", "Rel");
  ("required", "Required");
  ("reversed", "Reversed");
  ("role", "Role");
  ("rows", "Rows");
  ("rowspan", "RowSpan");
  ("selected", "Selected");
  ("slot", "SlotAttr");
  ("spellcheck", "Spellcheck");
  ("src", "Src");
  ("srcset", "SrcSet");
  ("step", "Step");
  ("style", "Style");
  ("tabindex", "TabIndex");
  ("target", "Target");
  ("title", "Title");
  ("translate", "Translate");
  ("type", "Type");
  ("value", "Value");
  ("width", "Width")
]%string.

(** html/generator.go lines 421-449: the keys of [boolAttrs] (every value is true). *)
Definition html_generator_booleans : list string := [
  "allowfullscreen";
  "async";
  "autofocus";
  "autoplay";
  "checked";
  "controls";
  "default";
  "defer";
  "disabled";
  "formnovalidate";
  "hidden";
  "inert";
  "ismap";
  "itemscope";
  "loop";
  "multiple";
  "muted";
  "nomodule";
  "novalidate";
  "open";
  "playsinline";
  "readonly";
  "required";
  "reversed";
  "selected";
  "spellcheck";
  "translate"
]%string.

(** svg/generator.go lines 133-198: [elems], key and function name. *)
Definition svg_generator_elements : list (string * string) := [
  ("altGlyph", "AltGlyph");
  ("animate", "Animate");
  ("animateMotion", "AnimateMotion");
  ("animateTransform", "AnimateTransform");
  ("circle", "Circle");
  ("clipPath", "ClipPath");
  ("defs", "Defs");
  ("desc", "Desc");
  ("discard", "Discard");
  ("ellipse", "Ellipse");
  ("feBlend", "FeBlend");
  ("feColorMatrix", "FeColorMatrix");
  ("feComponentTransfer", "FeComponentTransfer");
  ("feComposite", "FeComposite");
  ("feConvolveMatrix", "FeConvolveMatrix");
  ("feDiffuseLighting", "FeDiffuseLighting");
  ("feDisplacementMap", "FeDisplacementMap");
  ("feDistantLight", "FeDistantLight");
  ("feDropShadow", "FeDropShadow");
  ("feFlood", "FeFlood");
  ("feFuncA", "FeFuncA");
  ("feFuncB", "FeFuncB");
  ("feFuncG", "FeFuncG");
  ("feFuncR", "FeFuncR");
  ("feGaussianBlur", "FeGaussianBlur");
  ("feImage", "FeImage");
  ("feMerge", "FeMerge");
  ("feMergeNode", "FeMergeNode");
  ("feMorphology", "FeMorphology");
  ("feOffset", "FeOffset");
  ("fePointLight", "FePointLight");
  ("feSpecularLighting", "FeSpecularLighting");
  ("feSpotLight", "FeSpotLight");
  ("feTile", "FeTile");
  ("feTurbulence", "FeTurbulence");
  ("filter", "Filter");
  ("foreignObject", "ForeignObject");
  ("g", "G");
  ("glyph", "Glyph");
  ("line", "Line");
  ("linearGradient", "LinearGradient");
  ("marker", "Marker");
  ("mask", "Mask");
  ("metadata", "Metadata");
  ("mpath", "Mpath");
  ("path", "Path");
  ("pattern", "Pattern");
  ("polygon", "Polygon");
  ("polyline", "Polyline");
  ("radialGradient", "RadialGradient");
  ("rect", "Rect");
  ("script", "Script");
  ("set", "Set");
  ("solidcolor", "SolidColor");
  ("stop", "Stop");
  ("style", "StyleElement");
  ("svg", "Svg");
  ("symbol", "Symbol");
  ("text", "TextElement");
  ("textPath", "TextPath");
  ("title", "Title");
  ("tref", "TRef");
  ("tspan", "TSpan");
  ("use", "Use")
]%string.

(** svg/generator.go lines 199-343: [attrs], key and function name. *)
Definition svg_generator_attributes : list (string * string) := [
  ("accumulate", "Accumulate");
  ("additive", "Additive");
  ("alignment-baseline", "AlignmentBaseline");
  ("attributeName", "AttributeName");
  ("attributeType", "AttributeType");
  ("baseline-shift", "BaselineShift");
  ("begin", "Begin");
  ("by", "By");
  ("calcMode", "CalcMode");
  ("class", "Class");
  ("clip", "Clip");
  ("clip-path", "ClipPathAttr");
  ("clip-rule", "ClipRule");
  ("color", "Color");
  ("color-interpolation", "ColorInterpolation");
  ("color-interpolation-filters", "ColorInterpolationFilters");
  ("color-profile", "ColorProfile");
  ("color-rendering", "ColorRendering");
  ("cursor", "Cursor");
  ("cx", "Cx");
  ("cy", "Cy");
  ("d", "D");
  ("direction", "Direction");
  ("display", "Display");
  ("dominant-baseline", "DominantBaseline");
  ("dur", "Dur");
  ("dx", "Dx");
  ("dy", "Dy");
  ("enable-background", "EnableBackground");
  ("end", "End");
  ("externalResourcesRequired", "ExternalResourcesRequired");
  ("fill", "Fill");
  ("fill-opacity", "FillOpacity");
  ("fill-rule", "FillRule");
  ("filter", "FilterAttr");
  ("filterUnits", "FilterUnits");
  ("flood-color", "FloodColor");
  ("flood-opacity", "FloodOpacity");
  ("font-family", "FontFamily");
  ("font-size", "FontSize");
  ("font-size-adjust", "FontSizeAdjust");
  ("font-stretch", "FontStretch");
  ("font-style", "FontStyle");
  ("font-variant", "FontVariant");
  ("font-weight", "FontWeight");
  ("from", "From");
  ("fx", "Fx");
  ("fy", "Fy");
  ("glyph-orientation-horizontal", "GlyphOrientationHorizontal");
  ("glyph-orientation-vertical", "GlyphOrientationVertical");
  ("gradientTransform", "GradientTransform");
  ("gradientUnits", "GradientUnits");
  ("height", "Height");
  ("href", "Href");
  ("id", "Id");
  ("image-rendering", "ImageRendering");
  ("kerning", "Kerning");
  ("keyPoints", "KeyPoints");
  ("keySplines", "KeySplines");
  ("keyTimes", "KeyTimes");
  ("lengthAdjust", "LengthAdjust");
  ("letter-spacing", "LetterSpacing");
  ("lighting-color", "LightingColor");
  ("marker-end", "MarkerEnd");
  ("marker-mid", "MarkerMid");
  ("marker-start", "MarkerStart");
  ("markerHeight", "MarkerHeight");
  ("markerUnits", "MarkerUnits");
  ("markerWidth", "MarkerWidth");
  ("mask", "MaskAttr");
  ("onblur", "OnBlur");
  ("onclick", "OnClick");
  ("onfocus", "OnFocus");
  ("onload", "OnLoad");
  ("onmousedown", "OnMouseDown");
  ("onmousemove", "OnMouseMove");
  ("onmouseout", "OnMouseOut");
  ("onmouseover", "OnMouseOver");
  ("onmouseup", "OnMouseUp");
  ("onunload", "OnUnload");
  ("opacity", "Opacity");
  ("orient", "Orient");
  ("path", "PathAttr");
  ("pathLength", "PathLength");
  ("patternContentUnits", "PatternContentUnits");
  ("patternTransform", "PatternTransform");
  ("patternUnits", "PatternUnits");
  ("pointer-events", "PointerEvents");
  ("points", "Points");
  ("preserveAspectRatio", "PreserveAspectRatio");
  ("primitiveUnits", "PrimitiveUnits");
  ("r", "R");
  ("refX", "RefX");
  ("refY", "RefY");
  ("repeatCount", "RepeatCount");
  ("repeatDur", "RepeatDur");
  ("requiredExtensions", "RequiredExtensions");
  ("requiredFeatures", "RequiredFeatures");
  ("rotate", "Rotate");
  ("rx", "Rx");
  ("ry", "Ry");
  ("shape-rendering", "ShapeRendering");
  ("spreadMethod", "SpreadMethod");
  ("stop-color", "StopColor");
  ("stop-opacity", "StopOpacity");
  ("stroke", "Stroke");
  ("stroke-dasharray", "StrokeDashArray");
  ("stroke-dashoffset", "StrokeDashOffset");
  ("stroke-linecap", "StrokeLineCap");
  ("stroke-linejoin", "StrokeLineJoin");
  ("stroke-miterlimit", "StrokeMiterLimit");
  ("stroke-opacity", "StrokeOpacity");
  ("stroke-width", "StrokeWidth");
  ("style", "Style");
  ("systemLanguage", "SystemLanguage");
  ("tabindex", "TabIndex");
  ("text-anchor", "TextAnchor");
  ("text-decoration", "TextDecoration");
  ("text-rendering", "TextRendering");
  ("textLength", "TextLength");
  ("to", "To");
  ("type", "Type");
  ("unicode-bidi", "UnicodeBidi");
  ("values", "Values");
  ("visibility", "Visibility");
  ("width", "Width");
  ("word-spacing", "WordSpacing");
  ("writing-mode", "WritingMode");
  ("x", "X");
  ("x1", "X1");
  ("x2", "X2");
  ("xlink:actuate", "XlinkActuate");
  ("xlink:arcrole", "XlinkArcrole");
  ("xlink:href", "XlinkHref");
  ("xlink:role", "XlinkRole");
  ("xlink:show", "XlinkShow");
  ("xlink:title", "XlinkTitle");
  ("xml:base", "XmlBase");
  ("xml:lang", "XmlLang");
  ("xml:space", "XmlSpace");
  ("y", "Y");
  ("y1", "Y1");
  ("y2", "Y2")
]%string.

(** css/constants.go: the 55 string constants, in source order. *)
Definition css_constants : list (string * string) := [
  ("Important", " !important");
  ("DisplayBlock", "block");
  ("DisplayInline", "inline");
  ("DisplayInlineBlock", "inline-block");
  ("DisplayFlex", "flex");
  ("DisplayGrid", "grid");
  ("DisplayNone", "none");
  ("PositionStatic", "static");
  ("PositionRelative", "relative");
  ("PositionAbsolute", "absolute");
  ("PositionFixed", "fixed");
  ("PositionSticky", "sticky");
  ("TextLeft", "left");
  ("TextCenter", "center");
  ("TextRight", "right");
  ("TextJustify", "justify");
  ("BorderNone", "none");
  ("BorderSolid", "solid");
  ("BorderDashed", "dashed");
  ("BorderDotted", "dotted");
  ("BorderDouble", "double");
  ("BorderGroove", "groove");
  ("BorderRidge", "ridge");
  ("BorderInset", "inset");
  ("BorderOutset", "outset");
  ("FontWeightNormal", "normal");
  ("FontWeightBold", "bold");
  ("FontWeightLight", "lighter");
  ("FontWeightBolder", "bolder");
  ("JustifyStart", "flex-start");
  ("JustifyCenter", "center");
  ("JustifyEnd", "flex-end");
  ("JustifyBetween", "space-between");
  ("JustifyAround", "space-around");
  ("AlignStart", "start");
  ("AlignCenter", "center");
  ("AlignEnd", "end");
  ("AlignStretch", "stretch");
  ("AlignBaseline", "baseline");
  ("OverflowVisible", "visible");
  ("OverflowHidden", "hidden");
  ("OverflowScroll", "scroll");
  ("OverflowAuto", "auto");
  ("VisibilityVisible", "visible");
  ("VisibilityHidden", "hidden");
  ("VisibilityCollapse", "collapse");
  ("TextTransformNone", "none");
  ("TextTransformCapitalize", "capitalize");
  ("TextTransformUppercase", "uppercase");
  ("TextTransformLowercase", "lowercase");
  ("WhiteSpaceNormal", "normal");
  ("WhiteSpaceNowrap", "nowrap");
  ("WhiteSpacePre", "pre");
  ("WhiteSpacePreWrap", "pre-wrap");
  ("WhiteSpacePreLine", "pre-line")
]%string.

(** htmx/constants.go: the 63 string constants, in source order. *)
Definition htmx_constants : list (string * string) := [
  ("SwapOuterHTML", "outerHTML");
  ("SwapInnerHTML", "innerHTML");
  ("SwapTextContent", "textContent");
  ("SwapNone", "none");
  ("SwapDelete", "delete");
  ("SwapBeforeBegin", "beforebegin");
  ("SwapAfterBegin", "afterbegin");
  ("SwapBeforeEnd", "beforeend");
  ("SwapAfterEnd", "afterend");
  ("TriggerClick", "click");
  ("TriggerChange", "change");
  ("TriggerSubmit", "submit");
  ("TriggerLoad", "load");
  ("TriggerEvery", "every");
  ("TriggerRevealed", "revealed");
  ("TriggerIntersect", "intersect");
  ("EventBeforeRequest", "before-request");
  ("EventSend", "send");
  ("EventAfterRequest", "after-request");
  ("EventBeforeSwap", "before-swap");
  ("EventAfterSwap", "after-swap");
  ("EventResponseError", "response-error");
  ("EventSendError", "send-error");
  ("SyncAbort", "abort");
  ("SyncDrop", "drop");
  ("SyncReplace", "replace");
  ("SyncQueue", "queue");
  ("SyncQueueFirst", "queue first");
  ("SyncQueueLast", "queue last");
  ("SyncQueueAll", "queue all");
  ("AttrGet", "hx-get");
  ("AttrPost", "hx-post");
  ("AttrPut", "hx-put");
  ("AttrDelete", "hx-delete");
  ("AttrPatch", "hx-patch");
  ("AttrTarget", "hx-target");
  ("AttrSwap", "hx-swap");
  ("AttrSwapOob", "hx-swap-oob");
  ("AttrTrigger", "hx-trigger");
  ("AttrInclude", "hx-include");
  ("AttrSelect", "hx-select");
  ("AttrParams", "hx-params");
  ("AttrPushURL", "hx-push-url");
  ("AttrReplaceURL", "hx-replace-url");
  ("AttrConfirm", "hx-confirm");
  ("AttrDisable", "hx-disable");
  ("AttrDisabledElt", "hx-disabled-elt");
  ("AttrBoost", "hx-boost");
  ("AttrExt", "hx-ext");
  ("AttrEncoding", "hx-encoding");
  ("AttrHistoryElt", "hx-history-elt");
  ("AttrIndicator", "hx-indicator");
  ("AttrRequest", "hx-request");
  ("AttrOn", "hx-on");
  ("AttrVals", "hx-vals");
  ("AttrVars", "hx-vars");
  ("AttrHeaders", "hx-headers");
  ("AttrInherit", "hx-inherit");
  ("AttrDisinherit", "hx-disinherit");
  ("AttrPreserve", "hx-preserve");
  ("AttrPrompt", "hx-prompt");
  ("AttrSync", "hx-sync");
  ("AttrValidate", "hx-validate")
]%string.

