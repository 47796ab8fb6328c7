(** SpecAttr.v -- specification vocabulary for attribute maps. *)
From Verif Require Import Base Strings Links SpecLinks.

(** The documented safe attributes, in lower case. *)
Definition safe_names : list str :=
  map lit ["accept"; "align"; "alt"; "autocapitalize"; "autoplay"; "background"; "bgcolor"; "border";
    "buffered"; "checked"; "cite"; "class"; "cols"; "colspan"; "contenteditable"; "controls";
    "coords"; "datetime"; "decoding"; "default"; "dir"; "dirname"; "disabled"; "download";
    "draggable"; "for"; "form"; "headers"; "height"; "hidden"; "high"; "href"; "hreflang"; "id";
    "inputmode"; "ismap"; "itemprop"; "kind"; "label"; "lang"; "list"; "loop"; "low"; "max";
    "maxlength"; "min"; "minlength"; "multiple"; "muted"; "name"; "optimum"; "pattern";
    "placeholder"; "poster"; "preload"; "readonly"; "required"; "reversed"; "role"; "rows";
    "rowspan"; "scope"; "selected"; "shape"; "size"; "sizes"; "span"; "spellcheck"; "src";
    "srclang"; "srcset"; "start"; "step"; "style"; "tabindex"; "target"; "title"; "translate";
    "type"; "usemap"; "value"; "width"; "wrap"]%string.
(** The boolean attributes of HTML that are on the safe list. *)
Definition boolean_names : list str :=
  map lit ["autoplay"; "checked"; "controls"; "default"; "disabled"; "hidden"; "ismap"; "loop";
    "multiple"; "muted"; "readonly"; "required"; "reversed"; "selected"]%string.
Definition url_names : list str := map lit ["href"; "src"]%string.
(** Names accepted by prefix (as the code does it; what follows the prefix is not checked). *)
Definition prefixed_name (k : str) : Prop := exists r, k = lit "aria-" ++ r \/ k = lit "data-" ++ r.

(** What an accepted argument [k = v] becomes: nothing, or a value. *)
Inductive attr_result (href : str -> option str) : str -> str -> option str -> Prop :=
| ar_true k v : In (slower k) boolean_names -> parse_boolean v = Some true -> attr_result href k v (Some [])
| ar_false k v : In (slower k) boolean_names -> parse_boolean v = Some false -> attr_result href k v None
| ar_url k v w : In (slower k) url_names -> href v = Some w -> attr_result href k v (Some w)
| ar_plain k v : ~ In (slower k) url_names ->
    (In (slower k) boolean_names -> parse_boolean v = None) -> attr_result href k v (Some v).
