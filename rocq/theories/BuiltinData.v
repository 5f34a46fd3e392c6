(** * BuiltinData: /repo/src/language_facts/web_custom_data.rs
    Generated by tools/gen_builtin.py. The built-in table HTML_DATA as serde_json reads it:
    tags with their attributes and void flags, global attributes and value sets, in order.
    Simplified: the descriptions and references of the entries are left out (None). *)
From Verif Require Import Base DataManager.

Definition V_ (x : str) : value_data := mkValue x None None.
Definition A_ (x : str) (vs : option str) : attr_data := mkAttr x None vs None None.
Definition T_ (x : str) (void : option bool) (l : list attr_data) : tag_data := mkTag x None l None void.

Definition builtin_tags : list tag_data := Eval vm_compute in
  [T_ (bs "html") (None)
    [A_ (bs "manifest") (None);
     A_ (bs "version") (None);
     A_ (bs "xmlns") (None)];
   T_ (bs "head") (None)
    [A_ (bs "profile") (None)];
   T_ (bs "title") (None)
    [];
   T_ (bs "base") (Some true)
    [A_ (bs "href") (None);
     A_ (bs "target") (Some (bs "target"))];
   T_ (bs "link") (Some true)
    [A_ (bs "href") (None);
     A_ (bs "crossorigin") (Some (bs "xo"));
     A_ (bs "rel") (None);
     A_ (bs "media") (None);
     A_ (bs "hreflang") (None);
     A_ (bs "type") (None);
     A_ (bs "sizes") (None);
     A_ (bs "as") (None);
     A_ (bs "importance") (None);
     A_ (bs "importance") (None);
     A_ (bs "integrity") (None);
     A_ (bs "referrerpolicy") (None);
     A_ (bs "title") (None)];
   T_ (bs "meta") (Some true)
    [A_ (bs "name") (None);
     A_ (bs "http-equiv") (None);
     A_ (bs "content") (None);
     A_ (bs "charset") (None);
     A_ (bs "scheme") (None)];
   T_ (bs "style") (None)
    [A_ (bs "media") (None);
     A_ (bs "nonce") (None);
     A_ (bs "type") (None);
     A_ (bs "scoped") (Some (bs "v"));
     A_ (bs "title") (None)];
   T_ (bs "body") (None)
    [A_ (bs "onafterprint") (None);
     A_ (bs "onbeforeprint") (None);
     A_ (bs "onbeforeunload") (None);
     A_ (bs "onhashchange") (None);
     A_ (bs "onlanguagechange") (None);
     A_ (bs "onmessage") (None);
     A_ (bs "onoffline") (None);
     A_ (bs "ononline") (None);
     A_ (bs "onpagehide") (None);
     A_ (bs "onpageshow") (None);
     A_ (bs "onpopstate") (None);
     A_ (bs "onstorage") (None);
     A_ (bs "onunload") (None);
     A_ (bs "alink") (None);
     A_ (bs "background") (None);
     A_ (bs "bgcolor") (None);
     A_ (bs "bottommargin") (None);
     A_ (bs "leftmargin") (None);
     A_ (bs "link") (None);
     A_ (bs "onblur") (None);
     A_ (bs "onerror") (None);
     A_ (bs "onfocus") (None);
     A_ (bs "onload") (None);
     A_ (bs "onredo") (None);
     A_ (bs "onresize") (None);
     A_ (bs "onundo") (None);
     A_ (bs "rightmargin") (None);
     A_ (bs "text") (None);
     A_ (bs "topmargin") (None);
     A_ (bs "vlink") (None)];
   T_ (bs "article") (None)
    [];
   T_ (bs "section") (None)
    [];
   T_ (bs "nav") (None)
    [];
   T_ (bs "aside") (None)
    [];
   T_ (bs "h1") (None)
    [];
   T_ (bs "h2") (None)
    [];
   T_ (bs "h3") (None)
    [];
   T_ (bs "h4") (None)
    [];
   T_ (bs "h5") (None)
    [];
   T_ (bs "h6") (None)
    [];
   T_ (bs "header") (None)
    [];
   T_ (bs "footer") (None)
    [];
   T_ (bs "address") (None)
    [];
   T_ (bs "p") (None)
    [];
   T_ (bs "hr") (Some true)
    [A_ (bs "align") (None);
     A_ (bs "color") (None);
     A_ (bs "noshade") (None);
     A_ (bs "size") (None);
     A_ (bs "width") (None)];
   T_ (bs "pre") (None)
    [A_ (bs "cols") (None);
     A_ (bs "width") (None);
     A_ (bs "wrap") (None)];
   T_ (bs "blockquote") (None)
    [A_ (bs "cite") (None)];
   T_ (bs "ol") (None)
    [A_ (bs "reversed") (Some (bs "v"));
     A_ (bs "start") (None);
     A_ (bs "type") (Some (bs "lt"));
     A_ (bs "compact") (None)];
   T_ (bs "ul") (None)
    [A_ (bs "compact") (None)];
   T_ (bs "li") (None)
    [A_ (bs "value") (None);
     A_ (bs "type") (None)];
   T_ (bs "dl") (None)
    [];
   T_ (bs "dt") (None)
    [];
   T_ (bs "dd") (None)
    [A_ (bs "nowrap") (None)];
   T_ (bs "figure") (None)
    [];
   T_ (bs "figcaption") (None)
    [];
   T_ (bs "main") (None)
    [];
   T_ (bs "div") (None)
    [];
   T_ (bs "a") (None)
    [A_ (bs "href") (None);
     A_ (bs "target") (Some (bs "target"));
     A_ (bs "download") (None);
     A_ (bs "ping") (None);
     A_ (bs "rel") (None);
     A_ (bs "hreflang") (None);
     A_ (bs "type") (None);
     A_ (bs "referrerpolicy") (None)];
   T_ (bs "em") (None)
    [];
   T_ (bs "strong") (None)
    [];
   T_ (bs "small") (None)
    [];
   T_ (bs "s") (None)
    [];
   T_ (bs "cite") (None)
    [];
   T_ (bs "q") (None)
    [A_ (bs "cite") (None)];
   T_ (bs "dfn") (None)
    [];
   T_ (bs "abbr") (None)
    [];
   T_ (bs "ruby") (None)
    [];
   T_ (bs "rb") (None)
    [];
   T_ (bs "rt") (None)
    [];
   T_ (bs "rp") (None)
    [];
   T_ (bs "time") (None)
    [A_ (bs "datetime") (None)];
   T_ (bs "code") (None)
    [];
   T_ (bs "var") (None)
    [];
   T_ (bs "samp") (None)
    [];
   T_ (bs "kbd") (None)
    [];
   T_ (bs "sub") (None)
    [];
   T_ (bs "sup") (None)
    [];
   T_ (bs "i") (None)
    [];
   T_ (bs "b") (None)
    [];
   T_ (bs "u") (None)
    [];
   T_ (bs "mark") (None)
    [];
   T_ (bs "bdi") (None)
    [];
   T_ (bs "bdo") (None)
    [A_ (bs "dir") (None)];
   T_ (bs "span") (None)
    [];
   T_ (bs "br") (Some true)
    [A_ (bs "clear") (None)];
   T_ (bs "wbr") (Some true)
    [];
   T_ (bs "ins") (None)
    [A_ (bs "cite") (None);
     A_ (bs "datetime") (None)];
   T_ (bs "del") (None)
    [A_ (bs "cite") (None);
     A_ (bs "datetime") (None)];
   T_ (bs "picture") (None)
    [];
   T_ (bs "img") (Some true)
    [A_ (bs "alt") (None);
     A_ (bs "src") (None);
     A_ (bs "srcset") (None);
     A_ (bs "crossorigin") (Some (bs "xo"));
     A_ (bs "usemap") (None);
     A_ (bs "ismap") (Some (bs "v"));
     A_ (bs "width") (None);
     A_ (bs "height") (None);
     A_ (bs "decoding") (Some (bs "decoding"));
     A_ (bs "loading") (Some (bs "loading"));
     A_ (bs "referrerpolicy") (Some (bs "referrerpolicy"));
     A_ (bs "sizes") (None);
     A_ (bs "importance") (None);
     A_ (bs "importance") (None);
     A_ (bs "intrinsicsize") (None)];
   T_ (bs "iframe") (None)
    [A_ (bs "src") (None);
     A_ (bs "srcdoc") (None);
     A_ (bs "name") (None);
     A_ (bs "sandbox") (Some (bs "sb"));
     A_ (bs "seamless") (Some (bs "v"));
     A_ (bs "allowfullscreen") (Some (bs "v"));
     A_ (bs "width") (None);
     A_ (bs "height") (None);
     A_ (bs "allow") (None);
     A_ (bs "allowpaymentrequest") (None);
     A_ (bs "allowpaymentrequest") (None);
     A_ (bs "csp") (None);
     A_ (bs "importance") (None);
     A_ (bs "referrerpolicy") (None)];
   T_ (bs "embed") (Some true)
    [A_ (bs "src") (None);
     A_ (bs "type") (None);
     A_ (bs "width") (None);
     A_ (bs "height") (None)];
   T_ (bs "object") (None)
    [A_ (bs "data") (None);
     A_ (bs "type") (None);
     A_ (bs "typemustmatch") (Some (bs "v"));
     A_ (bs "name") (None);
     A_ (bs "usemap") (None);
     A_ (bs "form") (None);
     A_ (bs "width") (None);
     A_ (bs "height") (None);
     A_ (bs "archive") (None);
     A_ (bs "border") (None);
     A_ (bs "classid") (None);
     A_ (bs "codebase") (None);
     A_ (bs "codetype") (None);
     A_ (bs "declare") (None);
     A_ (bs "standby") (None);
     A_ (bs "tabindex") (None)];
   T_ (bs "param") (Some true)
    [A_ (bs "name") (None);
     A_ (bs "value") (None);
     A_ (bs "type") (None);
     A_ (bs "valuetype") (None)];
   T_ (bs "video") (None)
    [A_ (bs "src") (None);
     A_ (bs "crossorigin") (Some (bs "xo"));
     A_ (bs "poster") (None);
     A_ (bs "preload") (Some (bs "pl"));
     A_ (bs "autoplay") (Some (bs "v"));
     A_ (bs "mediagroup") (None);
     A_ (bs "loop") (Some (bs "v"));
     A_ (bs "muted") (Some (bs "v"));
     A_ (bs "controls") (Some (bs "v"));
     A_ (bs "width") (None);
     A_ (bs "height") (None)];
   T_ (bs "audio") (None)
    [A_ (bs "src") (None);
     A_ (bs "crossorigin") (Some (bs "xo"));
     A_ (bs "preload") (Some (bs "pl"));
     A_ (bs "autoplay") (Some (bs "v"));
     A_ (bs "mediagroup") (None);
     A_ (bs "loop") (Some (bs "v"));
     A_ (bs "muted") (Some (bs "v"));
     A_ (bs "controls") (Some (bs "v"))];
   T_ (bs "source") (Some true)
    [A_ (bs "src") (None);
     A_ (bs "type") (None);
     A_ (bs "sizes") (None);
     A_ (bs "srcset") (None);
     A_ (bs "media") (None)];
   T_ (bs "track") (Some true)
    [A_ (bs "default") (Some (bs "v"));
     A_ (bs "kind") (Some (bs "tk"));
     A_ (bs "label") (None);
     A_ (bs "src") (None);
     A_ (bs "srclang") (None)];
   T_ (bs "map") (None)
    [A_ (bs "name") (None)];
   T_ (bs "area") (Some true)
    [A_ (bs "alt") (None);
     A_ (bs "coords") (None);
     A_ (bs "shape") (Some (bs "sh"));
     A_ (bs "href") (None);
     A_ (bs "target") (Some (bs "target"));
     A_ (bs "download") (None);
     A_ (bs "ping") (None);
     A_ (bs "rel") (None);
     A_ (bs "hreflang") (None);
     A_ (bs "type") (None);
     A_ (bs "accesskey") (None)];
   T_ (bs "table") (None)
    [A_ (bs "border") (None);
     A_ (bs "align") (None)];
   T_ (bs "caption") (None)
    [A_ (bs "align") (None)];
   T_ (bs "colgroup") (None)
    [A_ (bs "span") (None);
     A_ (bs "align") (None)];
   T_ (bs "col") (Some true)
    [A_ (bs "span") (None);
     A_ (bs "align") (None)];
   T_ (bs "tbody") (None)
    [A_ (bs "align") (None)];
   T_ (bs "thead") (None)
    [A_ (bs "align") (None)];
   T_ (bs "tfoot") (None)
    [A_ (bs "align") (None)];
   T_ (bs "tr") (None)
    [A_ (bs "align") (None)];
   T_ (bs "td") (None)
    [A_ (bs "colspan") (None);
     A_ (bs "rowspan") (None);
     A_ (bs "headers") (None);
     A_ (bs "abbr") (None);
     A_ (bs "align") (None);
     A_ (bs "axis") (None);
     A_ (bs "bgcolor") (None)];
   T_ (bs "th") (None)
    [A_ (bs "colspan") (None);
     A_ (bs "rowspan") (None);
     A_ (bs "headers") (None);
     A_ (bs "scope") (Some (bs "s"));
     A_ (bs "sorted") (None);
     A_ (bs "abbr") (None);
     A_ (bs "align") (None);
     A_ (bs "axis") (None);
     A_ (bs "bgcolor") (None)];
   T_ (bs "form") (None)
    [A_ (bs "accept-charset") (None);
     A_ (bs "action") (None);
     A_ (bs "autocomplete") (Some (bs "o"));
     A_ (bs "enctype") (Some (bs "et"));
     A_ (bs "method") (Some (bs "m"));
     A_ (bs "name") (None);
     A_ (bs "novalidate") (Some (bs "v"));
     A_ (bs "target") (Some (bs "target"));
     A_ (bs "accept") (None);
     A_ (bs "autocapitalize") (None)];
   T_ (bs "label") (None)
    [A_ (bs "form") (None);
     A_ (bs "for") (None)];
   T_ (bs "input") (Some true)
    [A_ (bs "accept") (None);
     A_ (bs "alt") (None);
     A_ (bs "autocomplete") (Some (bs "inputautocomplete"));
     A_ (bs "autofocus") (Some (bs "v"));
     A_ (bs "checked") (Some (bs "v"));
     A_ (bs "dirname") (None);
     A_ (bs "disabled") (Some (bs "v"));
     A_ (bs "form") (None);
     A_ (bs "formaction") (None);
     A_ (bs "formenctype") (Some (bs "et"));
     A_ (bs "formmethod") (Some (bs "fm"));
     A_ (bs "formnovalidate") (Some (bs "v"));
     A_ (bs "formtarget") (None);
     A_ (bs "height") (None);
     A_ (bs "inputmode") (Some (bs "im"));
     A_ (bs "list") (None);
     A_ (bs "max") (None);
     A_ (bs "maxlength") (None);
     A_ (bs "min") (None);
     A_ (bs "minlength") (None);
     A_ (bs "multiple") (Some (bs "v"));
     A_ (bs "name") (None);
     A_ (bs "pattern") (None);
     A_ (bs "placeholder") (None);
     A_ (bs "readonly") (Some (bs "v"));
     A_ (bs "required") (Some (bs "v"));
     A_ (bs "size") (None);
     A_ (bs "src") (None);
     A_ (bs "step") (None);
     A_ (bs "type") (Some (bs "t"));
     A_ (bs "value") (None);
     A_ (bs "width") (None)];
   T_ (bs "button") (None)
    [A_ (bs "autofocus") (Some (bs "v"));
     A_ (bs "disabled") (Some (bs "v"));
     A_ (bs "form") (None);
     A_ (bs "formaction") (None);
     A_ (bs "formenctype") (Some (bs "et"));
     A_ (bs "formmethod") (Some (bs "fm"));
     A_ (bs "formnovalidate") (Some (bs "v"));
     A_ (bs "formtarget") (None);
     A_ (bs "name") (None);
     A_ (bs "type") (Some (bs "bt"));
     A_ (bs "value") (None);
     A_ (bs "autocomplete") (None)];
   T_ (bs "select") (None)
    [A_ (bs "autocomplete") (Some (bs "inputautocomplete"));
     A_ (bs "autofocus") (Some (bs "v"));
     A_ (bs "disabled") (Some (bs "v"));
     A_ (bs "form") (None);
     A_ (bs "multiple") (Some (bs "v"));
     A_ (bs "name") (None);
     A_ (bs "required") (Some (bs "v"));
     A_ (bs "size") (None)];
   T_ (bs "datalist") (None)
    [];
   T_ (bs "optgroup") (None)
    [A_ (bs "disabled") (Some (bs "v"));
     A_ (bs "label") (None)];
   T_ (bs "option") (None)
    [A_ (bs "disabled") (Some (bs "v"));
     A_ (bs "label") (None);
     A_ (bs "selected") (Some (bs "v"));
     A_ (bs "value") (None)];
   T_ (bs "textarea") (None)
    [A_ (bs "autocomplete") (Some (bs "inputautocomplete"));
     A_ (bs "autofocus") (Some (bs "v"));
     A_ (bs "cols") (None);
     A_ (bs "dirname") (None);
     A_ (bs "disabled") (Some (bs "v"));
     A_ (bs "form") (None);
     A_ (bs "inputmode") (Some (bs "im"));
     A_ (bs "maxlength") (None);
     A_ (bs "minlength") (None);
     A_ (bs "name") (None);
     A_ (bs "placeholder") (None);
     A_ (bs "readonly") (Some (bs "v"));
     A_ (bs "required") (Some (bs "v"));
     A_ (bs "rows") (None);
     A_ (bs "wrap") (Some (bs "w"));
     A_ (bs "autocapitalize") (None);
     A_ (bs "spellcheck") (None)];
   T_ (bs "output") (None)
    [A_ (bs "for") (None);
     A_ (bs "form") (None);
     A_ (bs "name") (None)];
   T_ (bs "progress") (None)
    [A_ (bs "value") (None);
     A_ (bs "max") (None)];
   T_ (bs "meter") (None)
    [A_ (bs "value") (None);
     A_ (bs "min") (None);
     A_ (bs "max") (None);
     A_ (bs "low") (None);
     A_ (bs "high") (None);
     A_ (bs "optimum") (None);
     A_ (bs "form") (None)];
   T_ (bs "fieldset") (None)
    [A_ (bs "disabled") (Some (bs "v"));
     A_ (bs "form") (None);
     A_ (bs "name") (None)];
   T_ (bs "legend") (None)
    [];
   T_ (bs "details") (None)
    [A_ (bs "open") (Some (bs "v"))];
   T_ (bs "summary") (None)
    [];
   T_ (bs "dialog") (None)
    [A_ (bs "open") (None)];
   T_ (bs "script") (None)
    [A_ (bs "src") (None);
     A_ (bs "type") (None);
     A_ (bs "charset") (None);
     A_ (bs "async") (Some (bs "v"));
     A_ (bs "defer") (Some (bs "v"));
     A_ (bs "crossorigin") (Some (bs "xo"));
     A_ (bs "nonce") (None);
     A_ (bs "integrity") (None);
     A_ (bs "nomodule") (None);
     A_ (bs "referrerpolicy") (None);
     A_ (bs "text") (None)];
   T_ (bs "noscript") (None)
    [];
   T_ (bs "template") (None)
    [];
   T_ (bs "canvas") (None)
    [A_ (bs "width") (None);
     A_ (bs "height") (None);
     A_ (bs "moz-opaque") (None)];
   T_ (bs "slot") (None)
    [A_ (bs "name") (None)];
   T_ (bs "data") (None)
    [A_ (bs "value") (None)];
   T_ (bs "hgroup") (None)
    [];
   T_ (bs "menu") (None)
    []].

Definition builtin_globals : list attr_data := Eval vm_compute in
  [A_ (bs "accesskey") (None);
   A_ (bs "autocapitalize") (None);
   A_ (bs "class") (None);
   A_ (bs "contenteditable") (None);
   A_ (bs "contextmenu") (None);
   A_ (bs "dir") (Some (bs "d"));
   A_ (bs "draggable") (Some (bs "b"));
   A_ (bs "dropzone") (None);
   A_ (bs "exportparts") (None);
   A_ (bs "hidden") (Some (bs "v"));
   A_ (bs "id") (None);
   A_ (bs "inputmode") (None);
   A_ (bs "is") (None);
   A_ (bs "itemid") (None);
   A_ (bs "itemprop") (None);
   A_ (bs "itemref") (None);
   A_ (bs "itemscope") (Some (bs "v"));
   A_ (bs "itemtype") (None);
   A_ (bs "lang") (None);
   A_ (bs "part") (None);
   A_ (bs "role") (Some (bs "roles"));
   A_ (bs "slot") (None);
   A_ (bs "spellcheck") (Some (bs "b"));
   A_ (bs "style") (None);
   A_ (bs "tabindex") (None);
   A_ (bs "title") (None);
   A_ (bs "translate") (Some (bs "y"));
   A_ (bs "onabort") (None);
   A_ (bs "onblur") (None);
   A_ (bs "oncanplay") (None);
   A_ (bs "oncanplaythrough") (None);
   A_ (bs "onchange") (None);
   A_ (bs "onclick") (None);
   A_ (bs "oncontextmenu") (None);
   A_ (bs "ondblclick") (None);
   A_ (bs "ondrag") (None);
   A_ (bs "ondragend") (None);
   A_ (bs "ondragenter") (None);
   A_ (bs "ondragleave") (None);
   A_ (bs "ondragover") (None);
   A_ (bs "ondragstart") (None);
   A_ (bs "ondrop") (None);
   A_ (bs "ondurationchange") (None);
   A_ (bs "onemptied") (None);
   A_ (bs "onended") (None);
   A_ (bs "onerror") (None);
   A_ (bs "onfocus") (None);
   A_ (bs "onformchange") (None);
   A_ (bs "onforminput") (None);
   A_ (bs "oninput") (None);
   A_ (bs "oninvalid") (None);
   A_ (bs "onkeydown") (None);
   A_ (bs "onkeypress") (None);
   A_ (bs "onkeyup") (None);
   A_ (bs "onload") (None);
   A_ (bs "onloadeddata") (None);
   A_ (bs "onloadedmetadata") (None);
   A_ (bs "onloadstart") (None);
   A_ (bs "onmousedown") (None);
   A_ (bs "onmousemove") (None);
   A_ (bs "onmouseout") (None);
   A_ (bs "onmouseover") (None);
   A_ (bs "onmouseup") (None);
   A_ (bs "onmousewheel") (None);
   A_ (bs "onmouseenter") (None);
   A_ (bs "onmouseleave") (None);
   A_ (bs "onpause") (None);
   A_ (bs "onplay") (None);
   A_ (bs "onplaying") (None);
   A_ (bs "onprogress") (None);
   A_ (bs "onratechange") (None);
   A_ (bs "onreset") (None);
   A_ (bs "onresize") (None);
   A_ (bs "onreadystatechange") (None);
   A_ (bs "onscroll") (None);
   A_ (bs "onseeked") (None);
   A_ (bs "onseeking") (None);
   A_ (bs "onselect") (None);
   A_ (bs "onshow") (None);
   A_ (bs "onstalled") (None);
   A_ (bs "onsubmit") (None);
   A_ (bs "onsuspend") (None);
   A_ (bs "ontimeupdate") (None);
   A_ (bs "onvolumechange") (None);
   A_ (bs "onwaiting") (None);
   A_ (bs "onpointercancel") (None);
   A_ (bs "onpointerdown") (None);
   A_ (bs "onpointerenter") (None);
   A_ (bs "onpointerleave") (None);
   A_ (bs "onpointerlockchange") (None);
   A_ (bs "onpointerlockerror") (None);
   A_ (bs "onpointermove") (None);
   A_ (bs "onpointerout") (None);
   A_ (bs "onpointerover") (None);
   A_ (bs "onpointerup") (None);
   A_ (bs "aria-activedescendant") (None);
   A_ (bs "aria-atomic") (Some (bs "b"));
   A_ (bs "aria-autocomplete") (Some (bs "autocomplete"));
   A_ (bs "aria-busy") (Some (bs "b"));
   A_ (bs "aria-checked") (Some (bs "tristate"));
   A_ (bs "aria-colcount") (None);
   A_ (bs "aria-colindex") (None);
   A_ (bs "aria-colspan") (None);
   A_ (bs "aria-controls") (None);
   A_ (bs "aria-current") (Some (bs "current"));
   A_ (bs "aria-describedby") (None);
   A_ (bs "aria-disabled") (Some (bs "b"));
   A_ (bs "aria-dropeffect") (Some (bs "dropeffect"));
   A_ (bs "aria-errormessage") (None);
   A_ (bs "aria-expanded") (Some (bs "u"));
   A_ (bs "aria-flowto") (None);
   A_ (bs "aria-grabbed") (Some (bs "u"));
   A_ (bs "aria-haspopup") (Some (bs "haspopup"));
   A_ (bs "aria-hidden") (Some (bs "b"));
   A_ (bs "aria-invalid") (Some (bs "invalid"));
   A_ (bs "aria-label") (None);
   A_ (bs "aria-labelledby") (None);
   A_ (bs "aria-level") (None);
   A_ (bs "aria-live") (Some (bs "live"));
   A_ (bs "aria-modal") (Some (bs "b"));
   A_ (bs "aria-multiline") (Some (bs "b"));
   A_ (bs "aria-multiselectable") (Some (bs "b"));
   A_ (bs "aria-orientation") (Some (bs "orientation"));
   A_ (bs "aria-owns") (None);
   A_ (bs "aria-placeholder") (None);
   A_ (bs "aria-posinset") (None);
   A_ (bs "aria-pressed") (Some (bs "tristate"));
   A_ (bs "aria-readonly") (Some (bs "b"));
   A_ (bs "aria-relevant") (Some (bs "relevant"));
   A_ (bs "aria-required") (Some (bs "b"));
   A_ (bs "aria-roledescription") (None);
   A_ (bs "aria-rowcount") (None);
   A_ (bs "aria-rowindex") (None);
   A_ (bs "aria-rowspan") (None);
   A_ (bs "aria-selected") (Some (bs "u"));
   A_ (bs "aria-setsize") (None);
   A_ (bs "aria-sort") (Some (bs "sort"));
   A_ (bs "aria-valuemax") (None);
   A_ (bs "aria-valuemin") (None);
   A_ (bs "aria-valuenow") (None);
   A_ (bs "aria-valuetext") (None);
   A_ (bs "aria-details") (None);
   A_ (bs "aria-keyshortcuts") (None)].

Definition builtin_sets : list (str * list value_data) := Eval vm_compute in
  [(bs "b", [V_ (bs "true");
     V_ (bs "false")]);
   (bs "u", [V_ (bs "true");
     V_ (bs "false");
     V_ (bs "undefined")]);
   (bs "o", [V_ (bs "on");
     V_ (bs "off")]);
   (bs "y", [V_ (bs "yes");
     V_ (bs "no")]);
   (bs "w", [V_ (bs "soft");
     V_ (bs "hard")]);
   (bs "d", [V_ (bs "ltr");
     V_ (bs "rtl");
     V_ (bs "auto")]);
   (bs "m", [V_ (bs "get");
     V_ (bs "post");
     V_ (bs "dialog")]);
   (bs "fm", [V_ (bs "get");
     V_ (bs "post")]);
   (bs "s", [V_ (bs "row");
     V_ (bs "col");
     V_ (bs "rowgroup");
     V_ (bs "colgroup")]);
   (bs "t", [V_ (bs "hidden");
     V_ (bs "text");
     V_ (bs "search");
     V_ (bs "tel");
     V_ (bs "url");
     V_ (bs "email");
     V_ (bs "password");
     V_ (bs "datetime");
     V_ (bs "date");
     V_ (bs "month");
     V_ (bs "week");
     V_ (bs "time");
     V_ (bs "datetime-local");
     V_ (bs "number");
     V_ (bs "range");
     V_ (bs "color");
     V_ (bs "checkbox");
     V_ (bs "radio");
     V_ (bs "file");
     V_ (bs "submit");
     V_ (bs "image");
     V_ (bs "reset");
     V_ (bs "button")]);
   (bs "im", [V_ (bs "verbatim");
     V_ (bs "latin");
     V_ (bs "latin-name");
     V_ (bs "latin-prose");
     V_ (bs "full-width-latin");
     V_ (bs "kana");
     V_ (bs "kana-name");
     V_ (bs "katakana");
     V_ (bs "numeric");
     V_ (bs "tel");
     V_ (bs "email");
     V_ (bs "url")]);
   (bs "bt", [V_ (bs "button");
     V_ (bs "submit");
     V_ (bs "reset");
     V_ (bs "menu")]);
   (bs "lt", [V_ (bs "1");
     V_ (bs "a");
     V_ (bs "A");
     V_ (bs "i");
     V_ (bs "I")]);
   (bs "mt", [V_ (bs "context");
     V_ (bs "toolbar")]);
   (bs "mit", [V_ (bs "command");
     V_ (bs "checkbox");
     V_ (bs "radio")]);
   (bs "et", [V_ (bs "application/x-www-form-urlencoded");
     V_ (bs "multipart/form-data");
     V_ (bs "text/plain")]);
   (bs "tk", [V_ (bs "subtitles");
     V_ (bs "captions");
     V_ (bs "descriptions");
     V_ (bs "chapters");
     V_ (bs "metadata")]);
   (bs "pl", [V_ (bs "none");
     V_ (bs "metadata");
     V_ (bs "auto")]);
   (bs "sh", [V_ (bs "circle");
     V_ (bs "default");
     V_ (bs "poly");
     V_ (bs "rect")]);
   (bs "xo", [V_ (bs "anonymous");
     V_ (bs "use-credentials")]);
   (bs "target", [V_ (bs "_self");
     V_ (bs "_blank");
     V_ (bs "_parent");
     V_ (bs "_top")]);
   (bs "sb", [V_ (bs "allow-forms");
     V_ (bs "allow-modals");
     V_ (bs "allow-pointer-lock");
     V_ (bs "allow-popups");
     V_ (bs "allow-popups-to-escape-sandbox");
     V_ (bs "allow-same-origin");
     V_ (bs "allow-scripts");
     V_ (bs "allow-top-navigation")]);
   (bs "tristate", [V_ (bs "true");
     V_ (bs "false");
     V_ (bs "mixed");
     V_ (bs "undefined")]);
   (bs "inputautocomplete", [V_ (bs "additional-name");
     V_ (bs "address-level1");
     V_ (bs "address-level2");
     V_ (bs "address-level3");
     V_ (bs "address-level4");
     V_ (bs "address-line1");
     V_ (bs "address-line2");
     V_ (bs "address-line3");
     V_ (bs "bday");
     V_ (bs "bday-year");
     V_ (bs "bday-day");
     V_ (bs "bday-month");
     V_ (bs "billing");
     V_ (bs "cc-additional-name");
     V_ (bs "cc-csc");
     V_ (bs "cc-exp");
     V_ (bs "cc-exp-month");
     V_ (bs "cc-exp-year");
     V_ (bs "cc-family-name");
     V_ (bs "cc-given-name");
     V_ (bs "cc-name");
     V_ (bs "cc-number");
     V_ (bs "cc-type");
     V_ (bs "country");
     V_ (bs "country-name");
     V_ (bs "current-password");
     V_ (bs "email");
     V_ (bs "family-name");
     V_ (bs "fax");
     V_ (bs "given-name");
     V_ (bs "home");
     V_ (bs "honorific-prefix");
     V_ (bs "honorific-suffix");
     V_ (bs "impp");
     V_ (bs "language");
     V_ (bs "mobile");
     V_ (bs "name");
     V_ (bs "new-password");
     V_ (bs "nickname");
     V_ (bs "off");
     V_ (bs "on");
     V_ (bs "organization");
     V_ (bs "organization-title");
     V_ (bs "pager");
     V_ (bs "photo");
     V_ (bs "postal-code");
     V_ (bs "sex");
     V_ (bs "shipping");
     V_ (bs "street-address");
     V_ (bs "tel-area-code");
     V_ (bs "tel");
     V_ (bs "tel-country-code");
     V_ (bs "tel-extension");
     V_ (bs "tel-local");
     V_ (bs "tel-local-prefix");
     V_ (bs "tel-local-suffix");
     V_ (bs "tel-national");
     V_ (bs "transaction-amount");
     V_ (bs "transaction-currency");
     V_ (bs "url");
     V_ (bs "username");
     V_ (bs "work")]);
   (bs "autocomplete", [V_ (bs "inline");
     V_ (bs "list");
     V_ (bs "both");
     V_ (bs "none")]);
   (bs "current", [V_ (bs "page");
     V_ (bs "step");
     V_ (bs "location");
     V_ (bs "date");
     V_ (bs "time");
     V_ (bs "true");
     V_ (bs "false")]);
   (bs "dropeffect", [V_ (bs "copy");
     V_ (bs "move");
     V_ (bs "link");
     V_ (bs "execute");
     V_ (bs "popup");
     V_ (bs "none")]);
   (bs "invalid", [V_ (bs "grammar");
     V_ (bs "false");
     V_ (bs "spelling");
     V_ (bs "true")]);
   (bs "live", [V_ (bs "off");
     V_ (bs "polite");
     V_ (bs "assertive")]);
   (bs "orientation", [V_ (bs "vertical");
     V_ (bs "horizontal");
     V_ (bs "undefined")]);
   (bs "relevant", [V_ (bs "additions");
     V_ (bs "removals");
     V_ (bs "text");
     V_ (bs "all");
     V_ (bs "additions text")]);
   (bs "sort", [V_ (bs "ascending");
     V_ (bs "descending");
     V_ (bs "none");
     V_ (bs "other")]);
   (bs "roles", [V_ (bs "alert");
     V_ (bs "alertdialog");
     V_ (bs "button");
     V_ (bs "checkbox");
     V_ (bs "dialog");
     V_ (bs "gridcell");
     V_ (bs "link");
     V_ (bs "log");
     V_ (bs "marquee");
     V_ (bs "menuitem");
     V_ (bs "menuitemcheckbox");
     V_ (bs "menuitemradio");
     V_ (bs "option");
     V_ (bs "progressbar");
     V_ (bs "radio");
     V_ (bs "scrollbar");
     V_ (bs "searchbox");
     V_ (bs "slider");
     V_ (bs "spinbutton");
     V_ (bs "status");
     V_ (bs "switch");
     V_ (bs "tab");
     V_ (bs "tabpanel");
     V_ (bs "textbox");
     V_ (bs "timer");
     V_ (bs "tooltip");
     V_ (bs "treeitem");
     V_ (bs "combobox");
     V_ (bs "grid");
     V_ (bs "listbox");
     V_ (bs "menu");
     V_ (bs "menubar");
     V_ (bs "radiogroup");
     V_ (bs "tablist");
     V_ (bs "tree");
     V_ (bs "treegrid");
     V_ (bs "application");
     V_ (bs "article");
     V_ (bs "cell");
     V_ (bs "columnheader");
     V_ (bs "definition");
     V_ (bs "directory");
     V_ (bs "document");
     V_ (bs "feed");
     V_ (bs "figure");
     V_ (bs "group");
     V_ (bs "heading");
     V_ (bs "img");
     V_ (bs "list");
     V_ (bs "listitem");
     V_ (bs "math");
     V_ (bs "none");
     V_ (bs "note");
     V_ (bs "presentation");
     V_ (bs "region");
     V_ (bs "row");
     V_ (bs "rowgroup");
     V_ (bs "rowheader");
     V_ (bs "separator");
     V_ (bs "table");
     V_ (bs "term");
     V_ (bs "text");
     V_ (bs "toolbar");
     V_ (bs "banner");
     V_ (bs "complementary");
     V_ (bs "contentinfo");
     V_ (bs "form");
     V_ (bs "main");
     V_ (bs "navigation");
     V_ (bs "region");
     V_ (bs "search");
     V_ (bs "doc-abstract");
     V_ (bs "doc-acknowledgments");
     V_ (bs "doc-afterword");
     V_ (bs "doc-appendix");
     V_ (bs "doc-backlink");
     V_ (bs "doc-biblioentry");
     V_ (bs "doc-bibliography");
     V_ (bs "doc-biblioref");
     V_ (bs "doc-chapter");
     V_ (bs "doc-colophon");
     V_ (bs "doc-conclusion");
     V_ (bs "doc-cover");
     V_ (bs "doc-credit");
     V_ (bs "doc-credits");
     V_ (bs "doc-dedication");
     V_ (bs "doc-endnote");
     V_ (bs "doc-endnotes");
     V_ (bs "doc-epigraph");
     V_ (bs "doc-epilogue");
     V_ (bs "doc-errata");
     V_ (bs "doc-example");
     V_ (bs "doc-footnote");
     V_ (bs "doc-foreword");
     V_ (bs "doc-glossary");
     V_ (bs "doc-glossref");
     V_ (bs "doc-index");
     V_ (bs "doc-introduction");
     V_ (bs "doc-noteref");
     V_ (bs "doc-notice");
     V_ (bs "doc-pagebreak");
     V_ (bs "doc-pagelist");
     V_ (bs "doc-part");
     V_ (bs "doc-preface");
     V_ (bs "doc-prologue");
     V_ (bs "doc-pullquote");
     V_ (bs "doc-qna");
     V_ (bs "doc-subtitle");
     V_ (bs "doc-tip");
     V_ (bs "doc-toc")]);
   (bs "metanames", [V_ (bs "application-name");
     V_ (bs "author");
     V_ (bs "description");
     V_ (bs "format-detection");
     V_ (bs "generator");
     V_ (bs "keywords");
     V_ (bs "publisher");
     V_ (bs "referrer");
     V_ (bs "robots");
     V_ (bs "theme-color");
     V_ (bs "viewport")]);
   (bs "haspopup", [V_ (bs "false");
     V_ (bs "true");
     V_ (bs "menu");
     V_ (bs "listbox");
     V_ (bs "tree");
     V_ (bs "grid");
     V_ (bs "dialog")]);
   (bs "decoding", [V_ (bs "sync");
     V_ (bs "async");
     V_ (bs "auto")]);
   (bs "loading", [V_ (bs "eager");
     V_ (bs "lazy")]);
   (bs "referrerpolicy", [V_ (bs "no-referrer");
     V_ (bs "no-referrer-when-downgrade");
     V_ (bs "origin");
     V_ (bs "origin-when-cross-origin");
     V_ (bs "same-origin");
     V_ (bs "strict-origin");
     V_ (bs "strict-origin-when-cross-origin");
     V_ (bs "unsafe-url")])].

(** HTML_DATA_INSTANCE, web_custom_data.rs:5-7 *)
Definition builtin_data : html_data := mkData (Some builtin_tags) (Some builtin_globals) (Some builtin_sets).
