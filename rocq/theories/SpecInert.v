(** SpecInert.v -- what the HTML of a page without double brackets can contain (C72). *)
From Verif Require Import Base Strings SpecRender.

(** Tags of text, headings, lists, tables, definitions and rules; and links. *)
Definition inert_tags : list str := map lit
  ["wj-body"; "p"; "strong"; "em"; "u"; "sup"; "sub"; "s"; "code"; "span"; "div"; "blockquote"; "h1"; "h2"; "h3"; "h4"; "h5"; "h6"; "a";
   "table"; "tbody"; "tr"; "th"; "td"; "ul"; "ol"; "li"; "dl"; "dt"; "dd"; "br"; "hr"]%string.
(** Attributes that only say how something looks or what it is called. *)
Definition inert_names : list str := map lit ["class"; "id"; "colspan"; "target"; "data-link-type"]%string.
(** ... the address of a link, which is safe or does nothing, and the style of coloured text. *)
Definition inert_attr (tag k v : str) : Prop :=
  In k inert_names \/
  (tag = lit "a" /\ k = lit "href" /\ (safe_url v \/ v = lit "javascript:;")) \/
  (tag = lit "span" /\ k = lit "style" /\ exists color, v = lit "color: " ++ color ++ lit ";").
