(** Expectations of the repository's unit tests, read off the Go source by
    tools/gen_testtable.py; do not edit by hand. *)
From Coq Require Import String List.
Import ListNotations.

(** Arguments that occur in these tests: a string literal, Id(n), Text("s"),
    and css unit calls such as Px(10). *)
Inductive targ := TStr (s : string) | TId (n : nat) | TText (s : string) | TUnit (f : string) (n : nat).

(** Function, arguments, expected Name() if the test checks it, expected
    output. *)
Definition expectation := (string * list targ * option string * string)%type.

(** html/elements_test.go: 114 of 114 test functions. *)
Definition html_element_tests : list expectation := [
  ("A", [TId 1; TText "foo"], Some "a", "<a id=""1"">foo</a>");
  ("Abbr", [TId 1; TText "foo"], Some "abbr", "<abbr id=""1"">foo</abbr>");
  ("B", [TId 1; TText "foo"], Some "b", "<b id=""1"">foo</b>");
  ("Caption", [TId 1; TText "foo"], Some "caption", "<caption id=""1"">foo</caption>");
  ("Dd", [TId 1; TText "foo"], Some "dd", "<dd id=""1"">foo</dd>");
  ("Del", [TId 1; TText "foo"], Some "del", "<del id=""1"">foo</del>");
  ("Dfn", [TId 1; TText "foo"], Some "dfn", "<dfn id=""1"">foo</dfn>");
  ("Dt", [TId 1; TText "foo"], Some "dt", "<dt id=""1"">foo</dt>");
  ("Em", [TId 1; TText "foo"], Some "em", "<em id=""1"">foo</em>");
  ("FigCaption", [TId 1; TText "foo"], Some "figcaption", "<figcaption id=""1"">foo</figcaption>");
  ("H1", [TId 1; TText "foo"], Some "h1", "<h1 id=""1"">foo</h1>");
  ("H2", [TId 1; TText "foo"], Some "h2", "<h2 id=""1"">foo</h2>");
  ("H3", [TId 1; TText "foo"], Some "h3", "<h3 id=""1"">foo</h3>");
  ("H4", [TId 1; TText "foo"], Some "h4", "<h4 id=""1"">foo</h4>");
  ("H5", [TId 1; TText "foo"], Some "h5", "<h5 id=""1"">foo</h5>");
  ("H6", [TId 1; TText "foo"], Some "h6", "<h6 id=""1"">foo</h6>");
  ("I", [TId 1; TText "foo"], Some "i", "<i id=""1"">foo</i>");
  ("Ins", [TId 1; TText "foo"], Some "ins", "<ins id=""1"">foo</ins>");
  ("Kbd", [TId 1; TText "foo"], Some "kbd", "<kbd id=""1"">foo</kbd>");
  ("Address", [TId 1; TText "foo"], Some "address", "<address id=""1"">foo</address>");
  ("Area", [TId 1; TText "foo"], Some "area", "<area id=""1"">");
  ("Article", [TId 1; TText "foo"], Some "article", "<article id=""1"">foo</article>");
  ("Aside", [TId 1; TText "foo"], Some "aside", "<aside id=""1"">foo</aside>");
  ("Audio", [TId 1; TText "foo"], Some "audio", "<audio id=""1"">foo</audio>");
  ("Base", [TId 1; TText "foo"], Some "base", "<base id=""1"">");
  ("BlockQuote", [TId 1; TText "foo"], Some "blockquote", "<blockquote id=""1"">foo</blockquote>");
  ("Body", [TId 1; TText "foo"], Some "body", "<body id=""1"">foo</body>");
  ("Br", [TId 1; TText "foo"], Some "br", "<br id=""1"">");
  ("Button", [TId 1; TText "foo"], Some "button", "<button id=""1"">foo</button>");
  ("Canvas", [TId 1; TText "foo"], Some "canvas", "<canvas id=""1"">foo</canvas>");
  ("Cite", [TId 1; TText "foo"], Some "cite", "<cite id=""1"">foo</cite>");
  ("Code", [TId 1; TText "foo"], Some "code", "<code id=""1"">foo</code>");
  ("Col", [TId 1; TText "foo"], Some "col", "<col id=""1"">");
  ("ColGroup", [TId 1; TText "foo"], Some "colgroup", "<colgroup id=""1"">foo</colgroup>");
  ("DataElement", [TId 1; TText "foo"], Some "data", "<data id=""1"">foo</data>");
  ("DataList", [TId 1; TText "foo"], Some "datalist", "<datalist id=""1"">foo</datalist>");
  ("Details", [TId 1; TText "foo"], Some "details", "<details id=""1"">foo</details>");
  ("Dialog", [TId 1; TText "foo"], Some "dialog", "<dialog id=""1"">foo</dialog>");
  ("Div", [TId 1; TText "foo"], Some "div", "<div id=""1"">foo</div>");
  ("Dl", [TId 1; TText "foo"], Some "dl", "<dl id=""1"">foo</dl>");
  ("Embed", [TId 1; TText "foo"], Some "embed", "<embed id=""1"">");
  ("Form", [TId 1; TText "foo"], Some "form", "<form id=""1"">foo</form>");
  ("FieldSet", [TId 1; TText "foo"], Some "fieldset", "<fieldset id=""1"">foo</fieldset>");
  ("Figure", [TId 1; TText "foo"], Some "figure", "<figure id=""1"">foo</figure>");
  ("Footer", [TId 1; TText "foo"], Some "footer", "<footer id=""1"">foo</footer>");
  ("Head", [TId 1; TText "foo"], Some "head", "<head id=""1"">foo</head>");
  ("Header", [TId 1; TText "foo"], Some "header", "<header id=""1"">foo</header>");
  ("HGroup", [TId 1; TText "foo"], Some "hgroup", "<hgroup id=""1"">foo</hgroup>");
  ("Hr", [TId 1; TText "foo"], Some "hr", "<hr id=""1"">");
  ("Html", [TId 1; TText "foo"], Some "html", "<html id=""1"">foo</html>");
  ("IFrame", [TId 1; TText "foo"], Some "iframe", "<iframe id=""1"">foo</iframe>");
  ("Img", [TId 1; TText "foo"], Some "img", "<img id=""1"">");
  ("Input", [TId 1; TText "foo"], Some "input", "<input id=""1"">");
  ("Label", [TId 1; TText "foo"], Some "label", "<label id=""1"">foo</label>");
  ("Legend", [TId 1; TText "foo"], Some "legend", "<legend id=""1"">foo</legend>");
  ("Li", [TId 1; TText "foo"], Some "li", "<li id=""1"">foo</li>");
  ("Link", [TId 1; TText "foo"], Some "link", "<link id=""1"">");
  ("Main", [TId 1; TText "foo"], Some "main", "<main id=""1"">foo</main>");
  ("Mark", [TId 1; TText "foo"], Some "mark", "<mark id=""1"">foo</mark>");
  ("Menu", [TId 1; TText "foo"], Some "menu", "<menu id=""1"">foo</menu>");
  ("Meta", [TId 1; TText "foo"], Some "meta", "<meta id=""1"">");
  ("Meter", [TId 1; TText "foo"], Some "meter", "<meter id=""1"">foo</meter>");
  ("Nav", [TId 1; TText "foo"], Some "nav", "<nav id=""1"">foo</nav>");
  ("NoScript", [TId 1; TText "foo"], Some "noscript", "<noscript id=""1"">foo</noscript>");
  ("Object", [TId 1; TText "foo"], Some "object", "<object id=""1"">foo</object>");
  ("Ol", [TId 1; TText "foo"], Some "ol", "<ol id=""1"">foo</ol>");
  ("OptGroup", [TId 1; TText "foo"], Some "optgroup", "<optgroup id=""1"">foo</optgroup>");
  ("Option", [TId 1; TText "foo"], Some "option", "<option id=""1"">foo</option>");
  ("P", [TId 1; TText "foo"], Some "p", "<p id=""1"">foo</p>");
  ("Para", [TId 1; TText "foo"], Some "p", "<p id=""1"">foo</p>");
  ("Param", [TId 1; TText "foo"], Some "param", "<param id=""1"">");
  ("Picture", [TId 1; TText "foo"], Some "picture", "<picture id=""1"">foo</picture>");
  ("Pre", [TId 1; TText "foo"], Some "pre", "<pre id=""1"">foo</pre>");
  ("Progress", [TId 1; TText "foo"], Some "progress", "<progress id=""1"">foo</progress>");
  ("Script", [TId 1; TText "foo"], Some "script", "<script id=""1"">foo</script>");
  ("Section", [TId 1; TText "foo"], Some "section", "<section id=""1"">foo</section>");
  ("Select", [TId 1; TText "foo"], Some "select", "<select id=""1"">foo</select>");
  ("Slot", [TId 1; TText "foo"], Some "slot", "<slot id=""1"">foo</slot>");
  ("Source", [TId 1; TText "foo"], Some "source", "<source id=""1"">");
  ("Span", [TId 1; TText "foo"], Some "span", "<span id=""1"">foo</span>");
  ("StyleElement", [TId 1; TText "foo"], Some "style", "<style id=""1"">foo</style>");
  ("Summary", [TId 1; TText "foo"], Some "summary", "<summary id=""1"">foo</summary>");
  ("Table", [TId 1; TText "foo"], Some "table", "<table id=""1"">foo</table>");
  ("TBody", [TId 1; TText "foo"], Some "tbody", "<tbody id=""1"">foo</tbody>");
  ("Td", [TId 1; TText "foo"], Some "td", "<td id=""1"">foo</td>");
  ("Template", [TId 1; TText "foo"], Some "template", "<template id=""1"">foo</template>");
  ("Textarea", [TId 1; TText "foo"], Some "textarea", "<textarea id=""1"">foo</textarea>");
  ("TFoot", [TId 1; TText "foo"], Some "tfoot", "<tfoot id=""1"">foo</tfoot>");
  ("Th", [TId 1; TText "foo"], Some "th", "<th id=""1"">foo</th>");
  ("THead", [TId 1; TText "foo"], Some "thead", "<thead id=""1"">foo</thead>");
  ("Tr", [TId 1; TText "foo"], Some "tr", "<tr id=""1"">foo</tr>");
  ("Ul", [TId 1; TText "foo"], Some "ul", "<ul id=""1"">foo</ul>");
  ("Wbr", [TId 1; TText "foo"], Some "wbr", "<wbr id=""1"">");
  ("Q", [TId 1; TText "foo"], Some "q", "<q id=""1"">foo</q>");
  ("S", [TId 1; TText "foo"], Some "s", "<s id=""1"">foo</s>");
  ("Samp", [TId 1; TText "foo"], Some "samp", "<samp id=""1"">foo</samp>");
  ("Small", [TId 1; TText "foo"], Some "small", "<small id=""1"">foo</small>");
  ("Strong", [TId 1; TText "foo"], Some "strong", "<strong id=""1"">foo</strong>");
  ("Sub", [TId 1; TText "foo"], Some "sub", "<sub id=""1"">foo</sub>");
  ("Sup", [TId 1; TText "foo"], Some "sup", "<sup id=""1"">foo</sup>");
  ("Time", [TId 1; TText "foo"], Some "time", "<time id=""1"">foo</time>");
  ("TitleElement", [TId 1; TText "foo"], Some "title", "<title id=""1"">foo</title>");
  ("U", [TId 1; TText "foo"], Some "u", "<u id=""1"">foo</u>");
  ("Var", [TId 1; TText "foo"], Some "var", "<var id=""1"">foo</var>");
  ("Video", [TId 1; TText "foo"], Some "video", "<video id=""1"">foo</video>");
  ("Bdi", [TId 1; TText "foo"], Some "bdi", "<bdi id=""1"">foo</bdi>");
  ("Bdo", [TId 1; TText "foo"], Some "bdo", "<bdo id=""1"">foo</bdo>");
  ("Map", [TId 1; TText "foo"], Some "map", "<map id=""1"">foo</map>");
  ("Output", [TId 1; TText "foo"], Some "output", "<output id=""1"">foo</output>");
  ("Rp", [TId 1; TText "foo"], Some "rp", "<rp id=""1"">foo</rp>");
  ("Rt", [TId 1; TText "foo"], Some "rt", "<rt id=""1"">foo</rt>");
  ("Ruby", [TId 1; TText "foo"], Some "ruby", "<ruby id=""1"">foo</ruby>");
  ("Search", [TId 1; TText "foo"], Some "search", "<search id=""1"">foo</search>");
  ("Track", [TId 1; TText "foo"], Some "track", "<track id=""1"">foo</track>")
]%string.

(** html/attributes_test.go: 200 of 205 test functions. *)
Definition html_attribute_tests : list expectation := [
  ("Async", [], Some "async", " async");
  ("AutoFocus", [], Some "autofocus", " autofocus");
  ("AutoPlay", [], Some "autoplay", " autoplay");
  ("Checked", [], Some "checked", " checked");
  ("Controls", [], Some "controls", " controls");
  ("CrossOrigin", [TStr "foo"], Some "crossorigin", " crossorigin=""foo""");
  ("DateTime", [TStr "foo"], Some "datetime", " datetime=""foo""");
  ("Defer", [], Some "defer", " defer");
  ("Disabled", [], Some "disabled", " disabled");
  ("Download", [TStr "foo"], Some "download", " download=""foo""");
  ("Draggable", [TStr "foo"], Some "draggable", " draggable=""foo""");
  ("Loop", [], Some "loop", " loop");
  ("Multiple", [], Some "multiple", " multiple");
  ("Muted", [], Some "muted", " muted");
  ("PlaysInline", [], Some "playsinline", " playsinline");
  ("ReadOnly", [], Some "readonly", " readonly");
  ("Required", [], Some "required", " required");
  ("Selected", [], Some "selected", " selected");
  ("Accept", [TStr "foo"], Some "accept", " accept=""foo""");
  ("Action", [TStr "foo"], Some "action", " action=""foo""");
  ("Alt", [TStr "foo"], Some "alt", " alt=""foo""");
  ("As", [TStr "foo"], Some "as", " as=""foo""");
  ("AutoComplete", [TStr "foo"], Some "autocomplete", " autocomplete=""foo""");
  ("Charset", [TStr "foo"], Some "charset", " charset=""foo""");
  ("CiteAttr", [TStr "foo"], Some "cite", " cite=""foo""");
  ("Cols", [TStr "foo"], Some "cols", " cols=""foo""");
  ("ColSpan", [TStr "foo"], Some "colspan", " colspan=""foo""");
  ("Content", [TStr "foo"], Some "content", " content=""foo""");
  ("Dir", [TStr "foo"], Some "dir", " dir=""foo""");
  ("EncType", [TStr "foo"], Some "enctype", " enctype=""foo""");
  ("For", [TStr "foo"], Some "for", " for=""foo""");
  ("FormAttr", [TStr "foo"], Some "form", " form=""foo""");
  ("NoValidate", [], Some "novalidate", " novalidate");
  ("FormNoValidate", [], Some "formnovalidate", " formnovalidate");
  ("Height", [TStr "foo"], Some "height", " height=""foo""");
  ("Hidden", [], Some "hidden", " hidden");
  ("Href", [TStr "foo"], Some "href", " href=""foo""");
  ("Id", [TStr "foo"], Some "id", " id=""foo""");
  ("Integrity", [TStr "foo"], Some "integrity", " integrity=""foo""");
  ("Lang", [TStr "foo"], Some "lang", " lang=""foo""");
  ("List", [TStr "foo"], Some "list", " list=""foo""");
  ("Loading", [TStr "foo"], Some "loading", " loading=""foo""");
  ("Max", [TStr "foo"], Some "max", " max=""foo""");
  ("MaxLength", [TStr "foo"], Some "maxlength", " maxlength=""foo""");
  ("Method", [TStr "foo"], Some "method", " method=""foo""");
  ("Min", [TStr "foo"], Some "min", " min=""foo""");
  ("MinLength", [TStr "foo"], Some "minlength", " minlength=""foo""");
  ("Name", [TStr "foo"], Some "name", " name=""foo""");
  ("Pattern", [TStr "foo"], Some "pattern", " pattern=""foo""");
  ("Placeholder", [TStr "foo"], Some "placeholder", " placeholder=""foo""");
  ("PopOver", [TStr "foo"], Some "popover", " popover=""foo""");
  ("PopOverTarget", [TStr "foo"], Some "popovertarget", " popovertarget=""foo""");
  ("PopOverTargetAction", [TStr "foo"], Some "popovertargetaction", " popovertargetaction=""foo""");
  ("Poster", [TStr "foo"], Some "poster", " poster=""foo""");
  ("Preload", [TStr "foo"], Some "preload", " preload=""foo""");
  ("ReferrerPolicy", [TStr "foo"], Some "referrerpolicy", " referrerpolicy=""foo""");
  ("Rel", [TStr "foo"], Some "rel", " rel=""foo""");
  ("Role", [TStr "foo"], Some "role", " role=""foo""");
  ("Rows", [TStr "foo"], Some "rows", " rows=""foo""");
  ("RowSpan", [TStr "foo"], Some "rowspan", " rowspan=""foo""");
  ("SlotAttr", [TStr "foo"], Some "slot", " slot=""foo""");
  ("Src", [TStr "foo"], Some "src", " src=""foo""");
  ("SrcSet", [TStr "foo"], Some "srcset", " srcset=""foo""");
  ("Step", [TStr "foo"], Some "step", " step=""foo""");
  ("TabIndex", [TStr "foo"], Some "tabindex", " tabindex=""foo""");
  ("Target", [TStr "foo"], Some "target", " target=""foo""");
  ("Title", [TStr "foo"], Some "title", " title=""foo""");
  ("Type", [TStr "foo"], Some "type", " type=""foo""");
  ("Value", [TStr "foo"], Some "value", " value=""foo""");
  ("Width", [TStr "foo"], Some "width", " width=""foo""");
  ("AllowFullScreen", [], Some "allowfullscreen", " allowfullscreen");
  ("Default", [], Some "default", " default");
  ("Inert", [], Some "inert", " inert");
  ("IsMap", [], Some "ismap", " ismap");
  ("ItemScope", [], Some "itemscope", " itemscope");
  ("NoModule", [], Some "nomodule", " nomodule");
  ("Open", [], Some "open", " open");
  ("Reversed", [], Some "reversed", " reversed");
  ("Spellcheck", [], Some "spellcheck", " spellcheck");
  ("Translate", [], Some "translate", " translate");
  ("AriaAtomic", [TStr "foo"], Some "aria-atomic", " aria-atomic=""foo""");
  ("AriaBusy", [TStr "foo"], Some "aria-busy", " aria-busy=""foo""");
  ("AriaChecked", [TStr "foo"], Some "aria-checked", " aria-checked=""foo""");
  ("AriaControls", [TStr "foo"], Some "aria-controls", " aria-controls=""foo""");
  ("AriaDescribedBy", [TStr "foo"], Some "aria-describedby", " aria-describedby=""foo""");
  ("AriaDisabled", [TStr "foo"], Some "aria-disabled", " aria-disabled=""foo""");
  ("AriaExpanded", [TStr "foo"], Some "aria-expanded", " aria-expanded=""foo""");
  ("AriaFlowTo", [TStr "foo"], Some "aria-flowto", " aria-flowto=""foo""");
  ("AriaHidden", [TStr "foo"], Some "aria-hidden", " aria-hidden=""foo""");
  ("AriaInvalid", [TStr "foo"], Some "aria-invalid", " aria-invalid=""foo""");
  ("AriaLabel", [TStr "foo"], Some "aria-label", " aria-label=""foo""");
  ("AriaLabelledBy", [TStr "foo"], Some "aria-labelledby", " aria-labelledby=""foo""");
  ("AriaLive", [TStr "foo"], Some "aria-live", " aria-live=""foo""");
  ("AriaOwns", [TStr "foo"], Some "aria-owns", " aria-owns=""foo""");
  ("AriaPlaceholder", [TStr "foo"], Some "aria-placeholder", " aria-placeholder=""foo""");
  ("AriaPosInSet", [TStr "foo"], Some "aria-posinset", " aria-posinset=""foo""");
  ("AriaPressed", [TStr "foo"], Some "aria-pressed", " aria-pressed=""foo""");
  ("AriaReadonly", [TStr "foo"], Some "aria-readonly", " aria-readonly=""foo""");
  ("AriaRelevant", [TStr "foo"], Some "aria-relevant", " aria-relevant=""foo""");
  ("AriaRequired", [TStr "foo"], Some "aria-required", " aria-required=""foo""");
  ("AriaSelected", [TStr "foo"], Some "aria-selected", " aria-selected=""foo""");
  ("AriaSetSize", [TStr "foo"], Some "aria-setsize", " aria-setsize=""foo""");
  ("AriaValueMax", [TStr "foo"], Some "aria-valuemax", " aria-valuemax=""foo""");
  ("AriaValueMin", [TStr "foo"], Some "aria-valuemin", " aria-valuemin=""foo""");
  ("AriaValueNow", [TStr "foo"], Some "aria-valuenow", " aria-valuenow=""foo""");
  ("AriaValueText", [TStr "foo"], Some "aria-valuetext", " aria-valuetext=""foo""");
  ("OnAbort", [TStr "foo"], Some "onabort", " onabort=""foo""");
  ("OnBeforeUnload", [TStr "foo"], Some "onbeforeunload", " onbeforeunload=""foo""");
  ("OnBlur", [TStr "foo"], Some "onblur", " onblur=""foo""");
  ("OnCanPlay", [TStr "foo"], Some "oncanplay", " oncanplay=""foo""");
  ("OnCanPlayThrough", [TStr "foo"], Some "oncanplaythrough", " oncanplaythrough=""foo""");
  ("OnChange", [TStr "foo"], Some "onchange", " onchange=""foo""");
  ("OnClick", [TStr "foo"], Some "onclick", " onclick=""foo""");
  ("OnContextMenu", [TStr "foo"], Some "oncontextmenu", " oncontextmenu=""foo""");
  ("OnCopy", [TStr "foo"], Some "oncopy", " oncopy=""foo""");
  ("OnCut", [TStr "foo"], Some "oncut", " oncut=""foo""");
  ("OnDblClick", [TStr "foo"], Some "ondblclick", " ondblclick=""foo""");
  ("OnDrag", [TStr "foo"], Some "ondrag", " ondrag=""foo""");
  ("OnDragEnd", [TStr "foo"], Some "ondragend", " ondragend=""foo""");
  ("OnDragEnter", [TStr "foo"], Some "ondragenter", " ondragenter=""foo""");
  ("OnDragLeave", [TStr "foo"], Some "ondragleave", " ondragleave=""foo""");
  ("OnDragOver", [TStr "foo"], Some "ondragover", " ondragover=""foo""");
  ("OnDragStart", [TStr "foo"], Some "ondragstart", " ondragstart=""foo""");
  ("OnDrop", [TStr "foo"], Some "ondrop", " ondrop=""foo""");
  ("OnDurationChange", [TStr "foo"], Some "ondurationchange", " ondurationchange=""foo""");
  ("OnEnded", [TStr "foo"], Some "onended", " onended=""foo""");
  ("OnError", [TStr "foo"], Some "onerror", " onerror=""foo""");
  ("OnFocus", [TStr "foo"], Some "onfocus", " onfocus=""foo""");
  ("OnHashChange", [TStr "foo"], Some "onhashchange", " onhashchange=""foo""");
  ("OnInput", [TStr "foo"], Some "oninput", " oninput=""foo""");
  ("OnInvalid", [TStr "foo"], Some "oninvalid", " oninvalid=""foo""");
  ("OnKeyDown", [TStr "foo"], Some "onkeydown", " onkeydown=""foo""");
  ("OnKeyPress", [TStr "foo"], Some "onkeypress", " onkeypress=""foo""");
  ("OnKeyUp", [TStr "foo"], Some "onkeyup", " onkeyup=""foo""");
  ("OnLoad", [TStr "foo"], Some "onload", " onload=""foo""");
  ("OnLoadedData", [TStr "foo"], Some "onloadeddata", " onloadeddata=""foo""");
  ("OnLoadedMetadata", [TStr "foo"], Some "onloadedmetadata", " onloadedmetadata=""foo""");
  ("OnMouseDown", [TStr "foo"], Some "onmousedown", " onmousedown=""foo""");
  ("OnMouseEnter", [TStr "foo"], Some "onmouseenter", " onmouseenter=""foo""");
  ("OnMouseLeave", [TStr "foo"], Some "onmouseleave", " onmouseleave=""foo""");
  ("OnMouseMove", [TStr "foo"], Some "onmousemove", " onmousemove=""foo""");
  ("OnMouseOut", [TStr "foo"], Some "onmouseout", " onmouseout=""foo""");
  ("OnMouseOver", [TStr "foo"], Some "onmouseover", " onmouseover=""foo""");
  ("OnMouseUp", [TStr "foo"], Some "onmouseup", " onmouseup=""foo""");
  ("OnPageHide", [TStr "foo"], Some "onpagehide", " onpagehide=""foo""");
  ("OnPageShow", [TStr "foo"], Some "onpageshow", " onpageshow=""foo""");
  ("OnPaste", [TStr "foo"], Some "onpaste", " onpaste=""foo""");
  ("OnPause", [TStr "foo"], Some "onpause", " onpause=""foo""");
  ("OnPlay", [TStr "foo"], Some "onplay", " onplay=""foo""");
  ("OnPlaying", [TStr "foo"], Some "onplaying", " onplaying=""foo""");
  ("OnPopState", [TStr "foo"], Some "onpopstate", " onpopstate=""foo""");
  ("OnProgress", [TStr "foo"], Some "onprogress", " onprogress=""foo""");
  ("OnRateChange", [TStr "foo"], Some "onratechange", " onratechange=""foo""");
  ("OnReset", [TStr "foo"], Some "onreset", " onreset=""foo""");
  ("OnResize", [TStr "foo"], Some "onresize", " onresize=""foo""");
  ("OnScroll", [TStr "foo"], Some "onscroll", " onscroll=""foo""");
  ("OnSeeked", [TStr "foo"], Some "onseeked", " onseeked=""foo""");
  ("OnSeeking", [TStr "foo"], Some "onseeking", " onseeking=""foo""");
  ("OnSelect", [TStr "foo"], Some "onselect", " onselect=""foo""");
  ("OnStalled", [TStr "foo"], Some "onstalled", " onstalled=""foo""");
  ("OnSubmit", [TStr "foo"], Some "onsubmit", " onsubmit=""foo""");
  ("OnSuspend", [TStr "foo"], Some "onsuspend", " onsuspend=""foo""");
  ("OnTimeUpdate", [TStr "foo"], Some "ontimeupdate", " ontimeupdate=""foo""");
  ("OnToggle", [TStr "foo"], Some "ontoggle", " ontoggle=""foo""");
  ("OnUnload", [TStr "foo"], Some "onunload", " onunload=""foo""");
  ("OnVolumeChange", [TStr "foo"], Some "onvolumechange", " onvolumechange=""foo""");
  ("OnWaiting", [TStr "foo"], Some "onwaiting", " onwaiting=""foo""");
  ("OnPointerDown", [TStr "foo"], Some "onpointerdown", " onpointerdown=""foo""");
  ("OnPointerUp", [TStr "foo"], Some "onpointerup", " onpointerup=""foo""");
  ("OnPointerMove", [TStr "foo"], Some "onpointermove", " onpointermove=""foo""");
  ("OnPointerEnter", [TStr "foo"], Some "onpointerenter", " onpointerenter=""foo""");
  ("OnPointerLeave", [TStr "foo"], Some "onpointerleave", " onpointerleave=""foo""");
  ("OnPointerOver", [TStr "foo"], Some "onpointerover", " onpointerover=""foo""");
  ("OnPointerOut", [TStr "foo"], Some "onpointerout", " onpointerout=""foo""");
  ("OnPointerCancel", [TStr "foo"], Some "onpointercancel", " onpointercancel=""foo""");
  ("OnTouchStart", [TStr "foo"], Some "ontouchstart", " ontouchstart=""foo""");
  ("OnTouchMove", [TStr "foo"], Some "ontouchmove", " ontouchmove=""foo""");
  ("OnTouchEnd", [TStr "foo"], Some "ontouchend", " ontouchend=""foo""");
  ("OnTouchCancel", [TStr "foo"], Some "ontouchcancel", " ontouchcancel=""foo""");
  ("OnAnimationStart", [TStr "foo"], Some "onanimationstart", " onanimationstart=""foo""");
  ("OnAnimationEnd", [TStr "foo"], Some "onanimationend", " onanimationend=""foo""");
  ("OnAnimationIteration", [TStr "foo"], Some "onanimationiteration", " onanimationiteration=""foo""");
  ("OnTransitionEnd", [TStr "foo"], Some "ontransitionend", " ontransitionend=""foo""");
  ("OnBeforeInput", [TStr "foo"], Some "onbeforeinput", " onbeforeinput=""foo""");
  ("OnSlotChange", [TStr "foo"], Some "onslotchange", " onslotchange=""foo""");
  ("OnFormData", [TStr "foo"], Some "onformdata", " onformdata=""foo""");
  ("AccessKey", [TStr "foo"], Some "accesskey", " accesskey=""foo""");
  ("AutoCapitalize", [TStr "foo"], Some "autocapitalize", " autocapitalize=""foo""");
  ("AutoCorrect", [TStr "foo"], Some "autocorrect", " autocorrect=""foo""");
  ("EnterKeyHint", [TStr "foo"], Some "enterkeyhint", " enterkeyhint=""foo""");
  ("ExportParts", [TStr "foo"], Some "exportparts", " exportparts=""foo""");
  ("InputMode", [TStr "foo"], Some "inputmode", " inputmode=""foo""");
  ("Is", [TStr "foo"], Some "is", " is=""foo""");
  ("ItemId", [TStr "foo"], Some "itemid", " itemid=""foo""");
  ("ItemProp", [TStr "foo"], Some "itemprop", " itemprop=""foo""");
  ("ItemRef", [TStr "foo"], Some "itemref", " itemref=""foo""");
  ("ItemType", [TStr "foo"], Some "itemtype", " itemtype=""foo""");
  ("Nonce", [TStr "foo"], Some "nonce", " nonce=""foo""");
  ("Part", [TStr "foo"], Some "part", " part=""foo""");
  ("WritingSuggestions", [TStr "foo"], Some "writingsuggestions", " writingsuggestions=""foo""")
]%string.

(** svg/elements_test.go: 66 of 66 test functions. *)
Definition svg_element_tests : list expectation := [
  ("Svg", [TText "foo"], Some "svg", "<svg>foo</svg>");
  ("AltGlyph", [TText "foo"], Some "altGlyph", "<altGlyph>foo</altGlyph>");
  ("Animate", [TText "foo"], Some "animate", "<animate>foo</animate>");
  ("AnimateMotion", [TText "foo"], Some "animateMotion", "<animateMotion>foo</animateMotion>");
  ("AnimateTransform", [TText "foo"], Some "animateTransform", "<animateTransform>foo</animateTransform>");
  ("Circle", [TText "foo"], Some "circle", "<circle>foo</circle>");
  ("ClipPath", [TText "foo"], Some "clipPath", "<clipPath>foo</clipPath>");
  ("Defs", [TText "foo"], Some "defs", "<defs>foo</defs>");
  ("Desc", [TText "foo"], Some "desc", "<desc>foo</desc>");
  ("Discard", [TText "foo"], Some "discard", "<discard>foo</discard>");
  ("Ellipse", [TText "foo"], Some "ellipse", "<ellipse>foo</ellipse>");
  ("FeBlend", [TText "foo"], Some "feBlend", "<feBlend>foo</feBlend>");
  ("FeColorMatrix", [TText "foo"], Some "feColorMatrix", "<feColorMatrix>foo</feColorMatrix>");
  ("FeComponentTransfer", [TText "foo"], Some "feComponentTransfer", "<feComponentTransfer>foo</feComponentTransfer>");
  ("FeComposite", [TText "foo"], Some "feComposite", "<feComposite>foo</feComposite>");
  ("FeConvolveMatrix", [TText "foo"], Some "feConvolveMatrix", "<feConvolveMatrix>foo</feConvolveMatrix>");
  ("FeDiffuseLighting", [TText "foo"], Some "feDiffuseLighting", "<feDiffuseLighting>foo</feDiffuseLighting>");
  ("FeDisplacementMap", [TText "foo"], Some "feDisplacementMap", "<feDisplacementMap>foo</feDisplacementMap>");
  ("FeDistantLight", [TText "foo"], Some "feDistantLight", "<feDistantLight>foo</feDistantLight>");
  ("FeDropShadow", [TText "foo"], Some "feDropShadow", "<feDropShadow>foo</feDropShadow>");
  ("FeFlood", [TText "foo"], Some "feFlood", "<feFlood>foo</feFlood>");
  ("FeFuncA", [TText "foo"], Some "feFuncA", "<feFuncA>foo</feFuncA>");
  ("FeFuncB", [TText "foo"], Some "feFuncB", "<feFuncB>foo</feFuncB>");
  ("FeFuncG", [TText "foo"], Some "feFuncG", "<feFuncG>foo</feFuncG>");
  ("FeFuncR", [TText "foo"], Some "feFuncR", "<feFuncR>foo</feFuncR>");
  ("FeGaussianBlur", [TText "foo"], Some "feGaussianBlur", "<feGaussianBlur>foo</feGaussianBlur>");
  ("FeImage", [TText "foo"], Some "feImage", "<feImage>foo</feImage>");
  ("FeMerge", [TText "foo"], Some "feMerge", "<feMerge>foo</feMerge>");
  ("FeMergeNode", [TText "foo"], Some "feMergeNode", "<feMergeNode>foo</feMergeNode>");
  ("FeMorphology", [TText "foo"], Some "feMorphology", "<feMorphology>foo</feMorphology>");
  ("FeOffset", [TText "foo"], Some "feOffset", "<feOffset>foo</feOffset>");
  ("FePointLight", [TText "foo"], Some "fePointLight", "<fePointLight>foo</fePointLight>");
  ("FeSpecularLighting", [TText "foo"], Some "feSpecularLighting", "<feSpecularLighting>foo</feSpecularLighting>");
  ("FeSpotLight", [TText "foo"], Some "feSpotLight", "<feSpotLight>foo</feSpotLight>");
  ("FeTile", [TText "foo"], Some "feTile", "<feTile>foo</feTile>");
  ("FeTurbulence", [TText "foo"], Some "feTurbulence", "<feTurbulence>foo</feTurbulence>");
  ("Filter", [TText "foo"], Some "filter", "<filter>foo</filter>");
  ("ForeignObject", [TText "foo"], Some "foreignObject", "<foreignObject>foo</foreignObject>");
  ("G", [TText "foo"], Some "g", "<g>foo</g>");
  ("Glyph", [TText "foo"], Some "glyph", "<glyph>foo</glyph>");
  ("Line", [TText "foo"], Some "line", "<line>foo</line>");
  ("LinearGradient", [TText "foo"], Some "linearGradient", "<linearGradient>foo</linearGradient>");
  ("Marker", [TText "foo"], Some "marker", "<marker>foo</marker>");
  ("Mask", [TText "foo"], Some "mask", "<mask>foo</mask>");
  ("Metadata", [TText "foo"], Some "metadata", "<metadata>foo</metadata>");
  ("Mpath", [TText "foo"], Some "mpath", "<mpath>foo</mpath>");
  ("Path", [TText "foo"], Some "path", "<path>foo</path>");
  ("Pattern", [TText "foo"], Some "pattern", "<pattern>foo</pattern>");
  ("Polygon", [TText "foo"], Some "polygon", "<polygon>foo</polygon>");
  ("Polyline", [TText "foo"], Some "polyline", "<polyline>foo</polyline>");
  ("RadialGradient", [TText "foo"], Some "radialGradient", "<radialGradient>foo</radialGradient>");
  ("Rect", [TText "foo"], Some "rect", "<rect>foo</rect>");
  ("Script", [TText "foo"], Some "script", "<script>foo</script>");
  ("Set", [TText "foo"], Some "set", "<set>foo</set>");
  ("SolidColor", [TText "foo"], Some "solidcolor", "<solidcolor>foo</solidcolor>");
  ("Stop", [TText "foo"], Some "stop", "<stop>foo</stop>");
  ("StyleElement", [TText "foo"], Some "style", "<style>foo</style>");
  ("Symbol", [TText "foo"], Some "symbol", "<symbol>foo</symbol>");
  ("TextElement", [TText "foo"], Some "text", "<text>foo</text>");
  ("TextPath", [TText "foo"], Some "textPath", "<textPath>foo</textPath>");
  ("Title", [TText "foo"], Some "title", "<title>foo</title>");
  ("TRef", [TText "foo"], Some "tref", "<tref>foo</tref>");
  ("TSpan", [TText "foo"], Some "tspan", "<tspan>foo</tspan>");
  ("Use", [TText "foo"], Some "use", "<use>foo</use>");
  ("Switch", [TText "foo"], Some "switch", "<switch>foo</switch>");
  ("View", [TText "foo"], Some "view", "<view>foo</view>")
]%string.

(** svg/attributes_test.go: 142 of 143 test functions. *)
Definition svg_attribute_tests : list expectation := [
  ("Accumulate", [TStr "foo"], Some "accumulate", " accumulate=""foo""");
  ("Additive", [TStr "foo"], Some "additive", " additive=""foo""");
  ("AlignmentBaseline", [TStr "foo"], Some "alignment-baseline", " alignment-baseline=""foo""");
  ("AttributeName", [TStr "foo"], Some "attributeName", " attributeName=""foo""");
  ("AttributeType", [TStr "foo"], Some "attributeType", " attributeType=""foo""");
  ("BaselineShift", [TStr "foo"], Some "baseline-shift", " baseline-shift=""foo""");
  ("Begin", [TStr "foo"], Some "begin", " begin=""foo""");
  ("By", [TStr "foo"], Some "by", " by=""foo""");
  ("CalcMode", [TStr "foo"], Some "calcMode", " calcMode=""foo""");
  ("Class", [TStr "foo"], Some "class", " class=""foo""");
  ("Clip", [TStr "foo"], Some "clip", " clip=""foo""");
  ("ClipPathAttr", [TStr "foo"], Some "clip-path", " clip-path=""foo""");
  ("ClipRule", [TStr "foo"], Some "clip-rule", " clip-rule=""foo""");
  ("Color", [TStr "foo"], Some "color", " color=""foo""");
  ("ColorInterpolation", [TStr "foo"], Some "color-interpolation", " color-interpolation=""foo""");
  ("ColorInterpolationFilters", [TStr "foo"], Some "color-interpolation-filters", " color-interpolation-filters=""foo""");
  ("ColorProfile", [TStr "foo"], Some "color-profile", " color-profile=""foo""");
  ("ColorRendering", [TStr "foo"], Some "color-rendering", " color-rendering=""foo""");
  ("Cursor", [TStr "foo"], Some "cursor", " cursor=""foo""");
  ("Cx", [TStr "foo"], Some "cx", " cx=""foo""");
  ("Cy", [TStr "foo"], Some "cy", " cy=""foo""");
  ("D", [TStr "foo"], Some "d", " d=""foo""");
  ("Direction", [TStr "foo"], Some "direction", " direction=""foo""");
  ("Display", [TStr "foo"], Some "display", " display=""foo""");
  ("DominantBaseline", [TStr "foo"], Some "dominant-baseline", " dominant-baseline=""foo""");
  ("Dur", [TStr "foo"], Some "dur", " dur=""foo""");
  ("Dx", [TStr "foo"], Some "dx", " dx=""foo""");
  ("Dy", [TStr "foo"], Some "dy", " dy=""foo""");
  ("EnableBackground", [TStr "foo"], Some "enable-background", " enable-background=""foo""");
  ("End", [TStr "foo"], Some "end", " end=""foo""");
  ("ExternalResourcesRequired", [TStr "foo"], Some "externalResourcesRequired", " externalResourcesRequired=""foo""");
  ("Fill", [TStr "foo"], Some "fill", " fill=""foo""");
  ("FillOpacity", [TStr "foo"], Some "fill-opacity", " fill-opacity=""foo""");
  ("FillRule", [TStr "foo"], Some "fill-rule", " fill-rule=""foo""");
  ("FilterAttr", [TStr "foo"], Some "filter", " filter=""foo""");
  ("FilterUnits", [TStr "foo"], Some "filterUnits", " filterUnits=""foo""");
  ("FloodColor", [TStr "foo"], Some "flood-color", " flood-color=""foo""");
  ("FloodOpacity", [TStr "foo"], Some "flood-opacity", " flood-opacity=""foo""");
  ("FontFamily", [TStr "foo"], Some "font-family", " font-family=""foo""");
  ("FontSize", [TStr "foo"], Some "font-size", " font-size=""foo""");
  ("FontSizeAdjust", [TStr "foo"], Some "font-size-adjust", " font-size-adjust=""foo""");
  ("FontStretch", [TStr "foo"], Some "font-stretch", " font-stretch=""foo""");
  ("FontStyle", [TStr "foo"], Some "font-style", " font-style=""foo""");
  ("FontVariant", [TStr "foo"], Some "font-variant", " font-variant=""foo""");
  ("FontWeight", [TStr "foo"], Some "font-weight", " font-weight=""foo""");
  ("From", [TStr "foo"], Some "from", " from=""foo""");
  ("Fx", [TStr "foo"], Some "fx", " fx=""foo""");
  ("Fy", [TStr "foo"], Some "fy", " fy=""foo""");
  ("GlyphOrientationHorizontal", [TStr "foo"], Some "glyph-orientation-horizontal", " glyph-orientation-horizontal=""foo""");
  ("GlyphOrientationVertical", [TStr "foo"], Some "glyph-orientation-vertical", " glyph-orientation-vertical=""foo""");
  ("GradientTransform", [TStr "foo"], Some "gradientTransform", " gradientTransform=""foo""");
  ("GradientUnits", [TStr "foo"], Some "gradientUnits", " gradientUnits=""foo""");
  ("Height", [TStr "foo"], Some "height", " height=""foo""");
  ("Href", [TStr "foo"], Some "href", " href=""foo""");
  ("Id", [TStr "foo"], Some "id", " id=""foo""");
  ("ImageRendering", [TStr "foo"], Some "image-rendering", " image-rendering=""foo""");
  ("Kerning", [TStr "foo"], Some "kerning", " kerning=""foo""");
  ("KeyPoints", [TStr "foo"], Some "keyPoints", " keyPoints=""foo""");
  ("KeySplines", [TStr "foo"], Some "keySplines", " keySplines=""foo""");
  ("KeyTimes", [TStr "foo"], Some "keyTimes", " keyTimes=""foo""");
  ("LengthAdjust", [TStr "foo"], Some "lengthAdjust", " lengthAdjust=""foo""");
  ("LetterSpacing", [TStr "foo"], Some "letter-spacing", " letter-spacing=""foo""");
  ("LightingColor", [TStr "foo"], Some "lighting-color", " lighting-color=""foo""");
  ("MarkerEnd", [TStr "foo"], Some "marker-end", " marker-end=""foo""");
  ("MarkerMid", [TStr "foo"], Some "marker-mid", " marker-mid=""foo""");
  ("MarkerStart", [TStr "foo"], Some "marker-start", " marker-start=""foo""");
  ("MarkerHeight", [TStr "foo"], Some "markerHeight", " markerHeight=""foo""");
  ("MarkerUnits", [TStr "foo"], Some "markerUnits", " markerUnits=""foo""");
  ("MarkerWidth", [TStr "foo"], Some "markerWidth", " markerWidth=""foo""");
  ("MaskAttr", [TStr "foo"], Some "mask", " mask=""foo""");
  ("OnBlur", [TStr "foo"], Some "onblur", " onblur=""foo""");
  ("OnClick", [TStr "foo"], Some "onclick", " onclick=""foo""");
  ("OnFocus", [TStr "foo"], Some "onfocus", " onfocus=""foo""");
  ("OnLoad", [TStr "foo"], Some "onload", " onload=""foo""");
  ("OnMouseDown", [TStr "foo"], Some "onmousedown", " onmousedown=""foo""");
  ("OnMouseMove", [TStr "foo"], Some "onmousemove", " onmousemove=""foo""");
  ("OnMouseOut", [TStr "foo"], Some "onmouseout", " onmouseout=""foo""");
  ("OnMouseOver", [TStr "foo"], Some "onmouseover", " onmouseover=""foo""");
  ("OnMouseUp", [TStr "foo"], Some "onmouseup", " onmouseup=""foo""");
  ("OnUnload", [TStr "foo"], Some "onunload", " onunload=""foo""");
  ("Opacity", [TStr "foo"], Some "opacity", " opacity=""foo""");
  ("Orient", [TStr "foo"], Some "orient", " orient=""foo""");
  ("PathAttr", [TStr "foo"], Some "path", " path=""foo""");
  ("PathLength", [TStr "foo"], Some "pathLength", " pathLength=""foo""");
  ("PatternContentUnits", [TStr "foo"], Some "patternContentUnits", " patternContentUnits=""foo""");
  ("PatternTransform", [TStr "foo"], Some "patternTransform", " patternTransform=""foo""");
  ("PatternUnits", [TStr "foo"], Some "patternUnits", " patternUnits=""foo""");
  ("PointerEvents", [TStr "foo"], Some "pointer-events", " pointer-events=""foo""");
  ("Points", [TStr "foo"], Some "points", " points=""foo""");
  ("PreserveAspectRatio", [TStr "foo"], Some "preserveAspectRatio", " preserveAspectRatio=""foo""");
  ("PrimitiveUnits", [TStr "foo"], Some "primitiveUnits", " primitiveUnits=""foo""");
  ("R", [TStr "foo"], Some "r", " r=""foo""");
  ("RefX", [TStr "foo"], Some "refX", " refX=""foo""");
  ("RefY", [TStr "foo"], Some "refY", " refY=""foo""");
  ("RepeatCount", [TStr "foo"], Some "repeatCount", " repeatCount=""foo""");
  ("RepeatDur", [TStr "foo"], Some "repeatDur", " repeatDur=""foo""");
  ("RequiredExtensions", [TStr "foo"], Some "requiredExtensions", " requiredExtensions=""foo""");
  ("RequiredFeatures", [TStr "foo"], Some "requiredFeatures", " requiredFeatures=""foo""");
  ("Rotate", [TStr "foo"], Some "rotate", " rotate=""foo""");
  ("Rx", [TStr "foo"], Some "rx", " rx=""foo""");
  ("Ry", [TStr "foo"], Some "ry", " ry=""foo""");
  ("ShapeRendering", [TStr "foo"], Some "shape-rendering", " shape-rendering=""foo""");
  ("SpreadMethod", [TStr "foo"], Some "spreadMethod", " spreadMethod=""foo""");
  ("StopColor", [TStr "foo"], Some "stop-color", " stop-color=""foo""");
  ("StopOpacity", [TStr "foo"], Some "stop-opacity", " stop-opacity=""foo""");
  ("Stroke", [TStr "foo"], Some "stroke", " stroke=""foo""");
  ("StrokeDashArray", [TStr "foo"], Some "stroke-dasharray", " stroke-dasharray=""foo""");
  ("StrokeDashOffset", [TStr "foo"], Some "stroke-dashoffset", " stroke-dashoffset=""foo""");
  ("StrokeLineCap", [TStr "foo"], Some "stroke-linecap", " stroke-linecap=""foo""");
  ("StrokeLineJoin", [TStr "foo"], Some "stroke-linejoin", " stroke-linejoin=""foo""");
  ("StrokeMiterLimit", [TStr "foo"], Some "stroke-miterlimit", " stroke-miterlimit=""foo""");
  ("StrokeOpacity", [TStr "foo"], Some "stroke-opacity", " stroke-opacity=""foo""");
  ("StrokeWidth", [TStr "foo"], Some "stroke-width", " stroke-width=""foo""");
  ("SystemLanguage", [TStr "foo"], Some "systemLanguage", " systemLanguage=""foo""");
  ("TabIndex", [TStr "foo"], Some "tabindex", " tabindex=""foo""");
  ("TextAnchor", [TStr "foo"], Some "text-anchor", " text-anchor=""foo""");
  ("TextDecoration", [TStr "foo"], Some "text-decoration", " text-decoration=""foo""");
  ("TextRendering", [TStr "foo"], Some "text-rendering", " text-rendering=""foo""");
  ("TextLength", [TStr "foo"], Some "textLength", " textLength=""foo""");
  ("To", [TStr "foo"], Some "to", " to=""foo""");
  ("Type", [TStr "foo"], Some "type", " type=""foo""");
  ("UnicodeBidi", [TStr "foo"], Some "unicode-bidi", " unicode-bidi=""foo""");
  ("Values", [TStr "foo"], Some "values", " values=""foo""");
  ("Visibility", [TStr "foo"], Some "visibility", " visibility=""foo""");
  ("Width", [TStr "foo"], Some "width", " width=""foo""");
  ("WordSpacing", [TStr "foo"], Some "word-spacing", " word-spacing=""foo""");
  ("WritingMode", [TStr "foo"], Some "writing-mode", " writing-mode=""foo""");
  ("X", [TStr "foo"], Some "x", " x=""foo""");
  ("X1", [TStr "foo"], Some "x1", " x1=""foo""");
  ("X2", [TStr "foo"], Some "x2", " x2=""foo""");
  ("XlinkActuate", [TStr "foo"], Some "xlink:actuate", " xlink:actuate=""foo""");
  ("XlinkArcrole", [TStr "foo"], Some "xlink:arcrole", " xlink:arcrole=""foo""");
  ("XlinkHref", [TStr "foo"], Some "xlink:href", " xlink:href=""foo""");
  ("XlinkRole", [TStr "foo"], Some "xlink:role", " xlink:role=""foo""");
  ("XlinkShow", [TStr "foo"], Some "xlink:show", " xlink:show=""foo""");
  ("XlinkTitle", [TStr "foo"], Some "xlink:title", " xlink:title=""foo""");
  ("XmlBase", [TStr "foo"], Some "xml:base", " xml:base=""foo""");
  ("XmlLang", [TStr "foo"], Some "xml:lang", " xml:lang=""foo""");
  ("XmlSpace", [TStr "foo"], Some "xml:space", " xml:space=""foo""");
  ("Y", [TStr "foo"], Some "y", " y=""foo""");
  ("Y1", [TStr "foo"], Some "y1", " y1=""foo""");
  ("Y2", [TStr "foo"], Some "y2", " y2=""foo""")
]%string.

(** css/properties_test.go: 133 of 133 test functions. *)
Definition css_property_tests : list expectation := [
  ("Display", [TStr "foo"], None, " style=""display:foo""");
  ("Position", [TStr "foo"], None, " style=""position:foo""");
  ("Top", [TStr "foo"], None, " style=""top:foo""");
  ("Right", [TStr "foo"], None, " style=""right:foo""");
  ("Bottom", [TStr "foo"], None, " style=""bottom:foo""");
  ("Left", [TStr "foo"], None, " style=""left:foo""");
  ("ZIndex", [TStr "foo"], None, " style=""z-index:foo""");
  ("Float", [TStr "foo"], None, " style=""float:foo""");
  ("Clear", [TStr "foo"], None, " style=""clear:foo""");
  ("Flex", [TStr "foo"], None, " style=""flex:foo""");
  ("FlexGrow", [TStr "foo"], None, " style=""flex-grow:foo""");
  ("FlexShrink", [TStr "foo"], None, " style=""flex-shrink:foo""");
  ("FlexBasis", [TStr "foo"], None, " style=""flex-basis:foo""");
  ("JustifyContent", [TStr "foo"], None, " style=""justify-content:foo""");
  ("AlignItems", [TStr "foo"], None, " style=""align-items:foo""");
  ("AlignContent", [TStr "foo"], None, " style=""align-content:foo""");
  ("AlignSelf", [TStr "foo"], None, " style=""align-self:foo""");
  ("Gap", [TStr "foo"], None, " style=""gap:foo""");
  ("RowGap", [TStr "foo"], None, " style=""row-gap:foo""");
  ("ColumnGap", [TStr "foo"], None, " style=""column-gap:foo""");
  ("Width", [TStr "foo"], None, " style=""width:foo""");
  ("Height", [TStr "foo"], None, " style=""height:foo""");
  ("MinWidth", [TStr "foo"], None, " style=""min-width:foo""");
  ("MaxWidth", [TStr "foo"], None, " style=""max-width:foo""");
  ("MinHeight", [TStr "foo"], None, " style=""min-height:foo""");
  ("MaxHeight", [TStr "foo"], None, " style=""max-height:foo""");
  ("Margin", [TStr "foo"], None, " style=""margin:foo""");
  ("MarginTop", [TStr "foo"], None, " style=""margin-top:foo""");
  ("MarginRight", [TStr "foo"], None, " style=""margin-right:foo""");
  ("MarginBottom", [TStr "foo"], None, " style=""margin-bottom:foo""");
  ("MarginLeft", [TStr "foo"], None, " style=""margin-left:foo""");
  ("Padding", [TStr "foo"], None, " style=""padding:foo""");
  ("PaddingTop", [TStr "foo"], None, " style=""padding-top:foo""");
  ("PaddingRight", [TStr "foo"], None, " style=""padding-right:foo""");
  ("PaddingBottom", [TStr "foo"], None, " style=""padding-bottom:foo""");
  ("PaddingLeft", [TStr "foo"], None, " style=""padding-left:foo""");
  ("Border", [TStr "foo"], None, " style=""border:foo""");
  ("BorderWidth", [TStr "foo"], None, " style=""border-width:foo""");
  ("BorderColor", [TStr "foo"], None, " style=""border-color:foo""");
  ("BorderStyle", [TStr "foo"], None, " style=""border-style:foo""");
  ("BorderRadius", [TStr "foo"], None, " style=""border-radius:foo""");
  ("BorderTop", [TStr "foo"], None, " style=""border-top:foo""");
  ("BorderBottom", [TStr "foo"], None, " style=""border-bottom:foo""");
  ("BorderLeft", [TStr "foo"], None, " style=""border-left:foo""");
  ("BorderRight", [TStr "foo"], None, " style=""border-right:foo""");
  ("Background", [TStr "foo"], None, " style=""background:foo""");
  ("BackgroundColor", [TStr "foo"], None, " style=""background-color:foo""");
  ("BackgroundImage", [TStr "foo"], None, " style=""background-image:foo""");
  ("BackgroundSize", [TStr "foo"], None, " style=""background-size:foo""");
  ("BackgroundPosition", [TStr "foo"], None, " style=""background-position:foo""");
  ("BackgroundRepeat", [TStr "foo"], None, " style=""background-repeat:foo""");
  ("Color", [TStr "foo"], None, " style=""color:foo""");
  ("FontSize", [TStr "foo"], None, " style=""font-size:foo""");
  ("FontWeight", [TStr "foo"], None, " style=""font-weight:foo""");
  ("FontFamily", [TStr "foo"], None, " style=""font-family:foo""");
  ("LineHeight", [TStr "foo"], None, " style=""line-height:foo""");
  ("LetterSpacing", [TStr "foo"], None, " style=""letter-spacing:foo""");
  ("TextAlign", [TStr "foo"], None, " style=""text-align:foo""");
  ("TextTransform", [TStr "foo"], None, " style=""text-transform:foo""");
  ("TextDecoration", [TStr "foo"], None, " style=""text-decoration:foo""");
  ("WhiteSpace", [TStr "foo"], None, " style=""white-space:foo""");
  ("WordBreak", [TStr "foo"], None, " style=""word-break:foo""");
  ("Opacity", [TStr "foo"], None, " style=""opacity:foo""");
  ("BoxShadow", [TStr "foo"], None, " style=""box-shadow:foo""");
  ("Visibility", [TStr "foo"], None, " style=""visibility:foo""");
  ("Overflow", [TStr "foo"], None, " style=""overflow:foo""");
  ("OverflowX", [TStr "foo"], None, " style=""overflow-x:foo""");
  ("OverflowY", [TStr "foo"], None, " style=""overflow-y:foo""");
  ("Cursor", [TStr "foo"], None, " style=""cursor:foo""");
  ("Transition", [TStr "foo"], None, " style=""transition:foo""");
  ("TransitionDuration", [TStr "foo"], None, " style=""transition-duration:foo""");
  ("TransitionTimingFunction", [TStr "foo"], None, " style=""transition-timing-function:foo""");
  ("Transform", [TStr "foo"], None, " style=""transform:foo""");
  ("Animation", [TStr "foo"], None, " style=""animation:foo""");
  ("UserSelect", [TStr "foo"], None, " style=""user-select:foo""");
  ("PointerEvents", [TStr "foo"], None, " style=""pointer-events:foo""");
  ("Isolation", [TStr "foo"], None, " style=""isolation:foo""");
  ("ObjectFit", [TStr "foo"], None, " style=""object-fit:foo""");
  ("ObjectPosition", [TStr "foo"], None, " style=""object-position:foo""");
  ("BoxSizing", [TStr "foo"], None, " style=""box-sizing:foo""");
  ("AspectRatio", [TStr "foo"], None, " style=""aspect-ratio:foo""");
  ("Contain", [TStr "foo"], None, " style=""contain:foo""");
  ("ContentVisibility", [TStr "foo"], None, " style=""content-visibility:foo""");
  ("Resize", [TStr "foo"], None, " style=""resize:foo""");
  ("GridTemplateColumns", [TStr "foo"], None, " style=""grid-template-columns:foo""");
  ("GridTemplateRows", [TStr "foo"], None, " style=""grid-template-rows:foo""");
  ("GridColumn", [TStr "foo"], None, " style=""grid-column:foo""");
  ("GridRow", [TStr "foo"], None, " style=""grid-row:foo""");
  ("GridArea", [TStr "foo"], None, " style=""grid-area:foo""");
  ("GridAutoFlow", [TStr "foo"], None, " style=""grid-auto-flow:foo""");
  ("PlaceItems", [TStr "foo"], None, " style=""place-items:foo""");
  ("PlaceContent", [TStr "foo"], None, " style=""place-content:foo""");
  ("PlaceSelf", [TStr "foo"], None, " style=""place-self:foo""");
  ("FontStyle", [TStr "foo"], None, " style=""font-style:foo""");
  ("FontVariant", [TStr "foo"], None, " style=""font-variant:foo""");
  ("FontStretch", [TStr "foo"], None, " style=""font-stretch:foo""");
  ("Direction", [TStr "foo"], None, " style=""direction:foo""");
  ("TabSize", [TStr "foo"], None, " style=""tab-size:foo""");
  ("ListStyle", [TStr "foo"], None, " style=""list-style:foo""");
  ("ListStyleType", [TStr "foo"], None, " style=""list-style-type:foo""");
  ("ListStylePosition", [TStr "foo"], None, " style=""list-style-position:foo""");
  ("ListStyleImage", [TStr "foo"], None, " style=""list-style-image:foo""");
  ("BorderCollapse", [TStr "foo"], None, " style=""border-collapse:foo""");
  ("BorderSpacing", [TStr "foo"], None, " style=""border-spacing:foo""");
  ("TableLayout", [TStr "foo"], None, " style=""table-layout:foo""");
  ("EmptyCells", [TStr "foo"], None, " style=""empty-cells:foo""");
  ("Filter", [TStr "foo"], None, " style=""filter:foo""");
  ("BackdropFilter", [TStr "foo"], None, " style=""backdrop-filter:foo""");
  ("MixBlendMode", [TStr "foo"], None, " style=""mix-blend-mode:foo""");
  ("BoxDecorationBreak", [TStr "foo"], None, " style=""box-decoration-break:foo""");
  ("ScrollBehavior", [TStr "foo"], None, " style=""scroll-behavior:foo""");
  ("ScrollSnapType", [TStr "foo"], None, " style=""scroll-snap-type:foo""");
  ("ScrollSnapAlign", [TStr "foo"], None, " style=""scroll-snap-align:foo""");
  ("ScrollMargin", [TStr "foo"], None, " style=""scroll-margin:foo""");
  ("ScrollPadding", [TStr "foo"], None, " style=""scroll-padding:foo""");
  ("AnimationName", [TStr "foo"], None, " style=""animation-name:foo""");
  ("AnimationDuration", [TStr "foo"], None, " style=""animation-duration:foo""");
  ("AnimationTimingFunction", [TStr "foo"], None, " style=""animation-timing-function:foo""");
  ("AnimationDelay", [TStr "foo"], None, " style=""animation-delay:foo""");
  ("AnimationIterationCount", [TStr "foo"], None, " style=""animation-iteration-count:foo""");
  ("AnimationDirection", [TStr "foo"], None, " style=""animation-direction:foo""");
  ("AnimationFillMode", [TStr "foo"], None, " style=""animation-fill-mode:foo""");
  ("AnimationPlayState", [TStr "foo"], None, " style=""animation-play-state:foo""");
  ("TransitionProperty", [TStr "foo"], None, " style=""transition-property:foo""");
  ("TransitionDelay", [TStr "foo"], None, " style=""transition-delay:foo""");
  ("TouchAction", [TStr "foo"], None, " style=""touch-action:foo""");
  ("WillChange", [TStr "foo"], None, " style=""will-change:foo""");
  ("CaretColor", [TStr "foo"], None, " style=""caret-color:foo""");
  ("ScrollSnapStop", [TStr "foo"], None, " style=""scroll-snap-stop:foo""");
  ("Speak", [TStr "foo"], None, " style=""speak:foo""");
  ("PageBreakBefore", [TStr "foo"], None, " style=""page-break-before:foo""");
  ("PageBreakAfter", [TStr "foo"], None, " style=""page-break-after:foo""");
  ("PageBreakInside", [TStr "foo"], None, " style=""page-break-inside:foo""")
]%string.

(** css/units_test.go: 15 of 15 test functions. *)
Definition css_unit_tests : list expectation := [
  ("Width", [TUnit "Px" 10], None, " style=""width:10px""");
  ("Width", [TUnit "Pt" 10], None, " style=""width:10pt""");
  ("Width", [TUnit "Pc" 10], None, " style=""width:10pc""");
  ("Width", [TUnit "In" 10], None, " style=""width:10in""");
  ("Width", [TUnit "Cm" 10], None, " style=""width:10cm""");
  ("Width", [TUnit "Mm" 10], None, " style=""width:10mm""");
  ("Width", [TUnit "Em" 10], None, " style=""width:10em""");
  ("Width", [TUnit "Rem" 10], None, " style=""width:10rem""");
  ("Width", [TUnit "Percent" 10], None, " style=""width:10%""");
  ("Width", [TUnit "Vw" 10], None, " style=""width:10vw""");
  ("Width", [TUnit "Vh" 10], None, " style=""width:10vh""");
  ("Width", [TUnit "VMin" 10], None, " style=""width:10vmin""");
  ("Width", [TUnit "VMax" 10], None, " style=""width:10vmax""");
  ("Width", [TUnit "Ch" 10], None, " style=""width:10ch""");
  ("Width", [TUnit "Ex" 10], None, " style=""width:10ex""")
]%string.

(** htmx/attributes_test.go: 39 of 47 test functions. *)
Definition htmx_attribute_tests : list expectation := [
  ("Get", [TStr "foo"], Some "hx-get", " hx-get=""foo""");
  ("Post", [TStr "foo"], Some "hx-post", " hx-post=""foo""");
  ("Put", [TStr "foo"], Some "hx-put", " hx-put=""foo""");
  ("Delete", [TStr "foo"], Some "hx-delete", " hx-delete=""foo""");
  ("Patch", [TStr "foo"], Some "hx-patch", " hx-patch=""foo""");
  ("Target", [TStr "foo"], Some "hx-target", " hx-target=""foo""");
  ("Swap", [TStr "foo"], Some "hx-swap", " hx-swap=""foo""");
  ("SwapOob", [TStr "foo"], Some "hx-swap-oob", " hx-swap-oob=""foo""");
  ("Trigger", [TStr "click"], Some "hx-trigger", " hx-trigger=""click""");
  ("Include", [TStr "foo"], Some "hx-include", " hx-include=""foo""");
  ("Select", [TStr "foo"], Some "hx-select", " hx-select=""foo""");
  ("Params", [TStr "foo"], Some "hx-params", " hx-params=""foo""");
  ("PushURL", [TStr "foo"], Some "hx-push-url", " hx-push-url=""foo""");
  ("ReplaceURL", [TStr "foo"], Some "hx-replace-url", " hx-replace-url=""foo""");
  ("Confirm", [TStr "foo"], Some "hx-confirm", " hx-confirm=""foo""");
  ("Disable", [TStr "foo"], Some "hx-disable", " hx-disable=""foo""");
  ("DisabledElt", [TStr "foo"], Some "hx-disabled-elt", " hx-disabled-elt=""foo""");
  ("Boost", [TStr "foo"], Some "hx-boost", " hx-boost=""foo""");
  ("Ext", [TStr "foo"], Some "hx-ext", " hx-ext=""foo""");
  ("Encoding", [TStr "foo"], Some "hx-encoding", " hx-encoding=""foo""");
  ("HistoryElt", [TStr "foo"], Some "hx-history-elt", " hx-history-elt=""foo""");
  ("Indicator", [TStr "foo"], Some "hx-indicator", " hx-indicator=""foo""");
  ("Request", [TStr "foo"], Some "hx-request", " hx-request=""foo""");
  ("OnBeforeRequest", [TStr "foo"], Some "hx-on:before-request", " hx-on:before-request=""foo""");
  ("OnSend", [TStr "foo"], Some "hx-on:send", " hx-on:send=""foo""");
  ("OnAfterRequest", [TStr "foo"], Some "hx-on:after-request", " hx-on:after-request=""foo""");
  ("OnBeforeSwap", [TStr "foo"], Some "hx-on:before-swap", " hx-on:before-swap=""foo""");
  ("OnAfterSwap", [TStr "foo"], Some "hx-on:after-swap", " hx-on:after-swap=""foo""");
  ("OnResponseError", [TStr "foo"], Some "hx-on:response-error", " hx-on:response-error=""foo""");
  ("OnSendError", [TStr "foo"], Some "hx-on:send-error", " hx-on:send-error=""foo""");
  ("Vals", [TStr "foo"], Some "hx-vals", " hx-vals=""foo""");
  ("Vars", [TStr "foo"], Some "hx-vars", " hx-vars=""foo""");
  ("Headers", [TStr "foo"], Some "hx-headers", " hx-headers=""foo""");
  ("Inherit", [TStr "foo"], Some "hx-inherit", " hx-inherit=""foo""");
  ("Disinherit", [TStr "foo"], Some "hx-disinherit", " hx-disinherit=""foo""");
  ("Sync", [TStr "foo"], Some "hx-sync", " hx-sync=""foo""");
  ("Preserve", [TStr "foo"], Some "hx-preserve", " hx-preserve=""foo""");
  ("Prompt", [TStr "foo"], Some "hx-prompt", " hx-prompt=""foo""");
  ("Validate", [TStr "foo"], Some "hx-validate", " hx-validate=""foo""")
]%string.

