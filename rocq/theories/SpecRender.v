(** SpecRender.v -- vocabulary for statements about rendered pages. *)
From Verif Require Import Base Strings Links SpecLinks Attr Html SpecHtml Tree Text Toc PState Parse SpecParse SpecPage Render SpecReader.

(** The lists of elements stored elsewhere in the tree that showing an element can require. *)
Definition entries (t : tree) : list (list element) := flat_map (map snd) (tr_bibs t).
Definition referenced (t : tree) (x : element) : list (list element) :=
  match x with
  | ETableOfContents _ _ => [tr_toc t]
  | EFootnote => tr_footnotes t
  | EFootnoteBlock _ hide => if hide then [] else tr_footnotes t
  | EBibliographyCite label _ =>
      match bibs_get (tr_bibs t) label with Some (_, es) => [es] | None => [] end
  | EBibliographyBlock i _ hide =>
      if hide then [] else match nth_error (tr_bibs t) i with Some b => map snd b | None => [] end
  | _ => []
  end.
(** One list needs another to be shown. *)
Definition needs (t : tree) (a b : list element) : Prop := exists x, occurs_in x a /\ In b (referenced t x).
(** The panics an element can cause by itself. *)
Definition own_panic (R : renv) (t : tree) (x : element) (w : rpanic) : Prop :=
  match w with
  | RPartialElement => exists p, x = EPartial p
  | RPageLabel => exists ty u ex tg, x = ELink ty (LUrl u) ex LabelPage tg
  | RBibliography => exists i ti h, x = EBibliographyBlock i ti h /\ nth_error (tr_bibs t) i = None
  | RCss => exists s, x = EStyle s /\ re_css R s = CssParseError
  | RAttrKey => re_debug R = true /\ exists m kv, In m (attrs_of x) /\ In kv m /\ is_alphanumeric (fst kv) = false
  | _ => False
  end.

(** A page as a tree of tags with their attributes, in order; an attribute without a value has the
    empty one.  [DRaw] is text that is not escaped. *)
Inductive dom : Type :=
| DText (s : str)
| DRaw (s : str)
| DTag (tag : str) (attrs : list (str * str)) (kids : list dom).
(** As text: [single_text] is [ name="value"] or [ name], escaped. *)
Fixpoint dom_text (d : dom) : str :=
  match d with
  | DText s => escape s
  | DRaw s => s
  | DTag tag attrs kids =>
      [60%N] ++ tag ++ flat_map single_text attrs ++ [62%N] ++ flat_map dom_text kids ++
      (if smem tag void_tags then [] else lit "</" ++ tag ++ [62%N])
  end.
(** As a browser's tokens; NUL is written as a space. *)
Definition shown (s : str) : str := map (fun c => if ceqb c 0 then 32%N else c) s.
Fixpoint dom_tokens (d : dom) : list htoken :=
  match d with
  | DText s => chars (shown s)
  | DRaw s => html_tokens s
  | DTag tag attrs kids =>
      TkOpen tag (map (fun kv => (fst kv, shown (snd kv))) attrs) ::
      (if smem tag raw_tags then flat_map (fun d => match d with DRaw s => chars s | _ => [] end) kids
       else flat_map dom_tokens kids) ++
      (if smem tag void_tags then [] else [TkClose tag])
  end.
(** A page without trouble for the reader: proper names, raw text that is complete by itself, and
    nothing but one piece of raw text without [</] in style, script and iframe. *)
Definition proper_tag (tag : str) : Prop := tag_name tag /\ exists c r, tag = c :: r /\ is_alpha c = true.
Definition proper_attrs (attrs : list (str * str)) : Prop := Forall (fun kv => attr_name (fst kv) /\ ~ In 38%N (fst kv)) attrs.
Inductive readable : dom -> Prop :=
| rd_text s : readable (DText s)
| rd_raw s : complete s -> readable (DRaw s)
| rd_tag tag attrs kids : proper_tag tag -> ~ In tag raw_tags -> proper_attrs attrs -> Forall readable kids ->
    readable (DTag tag attrs kids)
| rd_rawtext tag attrs kids : In tag raw_tags -> proper_attrs attrs ->
    kids = [] \/ (exists s, kids = [DRaw s] /\ ~ substr (lit "</") s) -> readable (DTag tag attrs kids).

(** *** What a browser makes of the page *)
(** Tags that close in the order they were opened. *)
Inductive nested : list htoken -> Prop :=
| ne_nil : nested []
| ne_char c ts : nested ts -> nested (TkChar c :: ts)
| ne_void tag attrs ts : In tag void_tags -> nested ts -> nested (TkOpen tag attrs :: ts)
| ne_pair tag attrs inner ts : ~ In tag void_tags -> nested inner -> nested ts ->
    nested (TkOpen tag attrs :: inner ++ TkClose tag :: ts).
(** Every tag of the page the author gave attributes has names an HTML reader takes as one name.
    (The safe list of C26 has only such names; what follows data- and aria- is not checked.) *)
Definition proper_names (t : tree) : Prop :=
  forall x m k v, on_page t x -> In m (attrs_of x) -> In (k, v) m -> attr_name k /\ ~ In 38%N k.
(** Style sheets come out of the CSS library without [</]. *)
Definition css_contained (R : renv) (t : tree) : Prop :=
  forall src out, on_page t (EStyle src) -> re_css R src = CssOut out -> ~ substr (lit "</") out.
(** The LaTeX converter writes complete markup. *)
Definition mathml_output (R : renv) (out : str) : Prop := exists f b src, re_mathml R = Some f /\ f b src = inl out.
Definition mathml_contained (R : renv) : Prop := forall out, mathml_output R out -> complete out /\ nested (html_tokens out).
(** A URL that begins with a scheme of the safe list, with # or with /. *)
Definition safe_url (v : str) : Prop :=
  (exists sc r, In sc safe_schemes /\ v = sc ++ r) \/ (exists r, v = 35%N :: r) \/ (exists r, v = 47%N :: r).

(** The tags the renderer writes (besides script, style and wj-math-ml). *)
Definition our_tags : list str := map lit
  ["wj-body"; "svg"; "use"; "strong"; "em"; "u"; "sup"; "sub"; "s"; "code"; "span"; "div"; "mark"; "blockquote"; "ins"; "del";
   "ruby"; "rt"; "rp"; "p"; "h1"; "h2"; "h3"; "h4"; "h5"; "h6"; "iframe"; "img"; "a"; "input"; "wj-equation-ref-marker";
   "wj-code"; "wj-code-copy"; "pre"; "dl"; "dt"; "dd"; "details"; "summary"; "wj-collapsible-button-bottom";
   "th"; "td"; "tr"; "table"; "tbody"; "li"; "ol"; "ul"; "wj-tabs-button"; "wj-tabs"; "wj-footnote-ref-marker";
   "wj-footnote-list-item-marker"; "wj-bibliography-ref-marker"; "wj-bibliography-item-marker"; "br"; "hr"]%string.
(** Attribute names the renderer writes by itself: with values that say nothing dangerous ... *)
Definition plain_names : list str := map lit
  ["class"; "viewBox"; "data-timestamp"; "data-delta"; "frameborder"; "allow"; "allowfullscreen"; "crossorigin"; "name"; "type";
   "checked"; "target"; "data-link-type"; "data-name"; "aria-hidden"; "title"; "data-karma"; "open"; "data-show-top";
   "data-show-bottom"; "colspan"; "role"; "aria-label"; "aria-selected"; "aria-controls"; "tabindex"; "aria-labelledby";
   "hidden"; "data-id"]%string.
(** ... and with values a browser acts on. *)
Definition active_names : list str := map lit ["href"; "src"; "onclick"; "style"; "id"]%string.
Definition fold_toc : str := lit "WIKIJUMP.page.listeners.foldToc(event)".

Section Own.
Variable R : renv.
Variable t : tree.
(** An element of the page or of its table of contents. *)
Definition here (x : element) : Prop := on_page t x \/ occurs_in x (tr_toc t).

Inductive own_href : str -> str -> Prop :=
| oh_toc : own_href (lit "a") (lit "javascript:;")
| oh_sprite id : In id (map lit ["wj-karma"; "wj-clipboard"; "wj-clipboard-success"]%string) ->
    own_href (lit "use") (lit "/files--static/media/ui.svg#" ++ id)
| oh_user name av : here (EUser name av) -> own_href (lit "a") (lit "/user:info/" ++ name)
| oh_link ty link extra label tg u : here (ELink ty link extra label tg) -> link_href R link = Some u ->
    own_href (lit "a") (u ++ or_else extra [])
| oh_image s link al a u : here (EImage s (Some link) al a) -> link_href R link = Some u -> own_href (lit "a") u.
Definition embed_src (e : embed) : str :=
  match e with
  | EmYoutube v => lit "https://www.youtube.com/embed/" ++ v
  | EmVimeo v => lit "https://player.vimeo.com/video/" ++ v
  | EmGithubGist u h => lit "https://gist.github.com/" ++ u ++ lit "/" ++ h ++ lit ".js"
  | EmGitlabSnippet i => lit "https://gitlab.com/-/snippets/" ++ i ++ lit ".js"
  end.
Definition embed_tag (e : embed) : str := match e with EmYoutube _ | EmVimeo _ => lit "iframe" | _ => lit "script" end.
Inductive own_src : str -> str -> Prop :=
| os_embed e : here (EEmbed e) -> own_src (embed_tag e) (embed_src e)
| os_html s : here (EHtml s) -> own_src (lit "iframe") (lit "https://example.com/")
| os_iframe a url : here (EIframe a url) -> own_src (lit "iframe") url
| os_image s link al a u : here (EImage s link al a) -> get_image_link R s = Some u -> own_src (lit "img") u
| os_avatar : own_src (lit "img") dummy_avatar.
(** The ids the page gives out itself: the table of contents, its headings, the items of a
    bibliography and random ones (headings without true ids, tabs). *)
Inductive page_id : str -> Prop :=
| pi_toc s : In s (map lit ["wj-toc"; "wj-toc-action-bar"; "wj-toc-list"]%string) -> page_id s
| pi_heading n : page_id (lit "toc" ++ dec n)
| pi_bibitem n m : page_id (lit "wj-bibliography-item-" ++ dec n ++ lit "-" ++ dec m)
| pi_bibitem2 n m : page_id (lit "bibitem-" ++ dec n ++ lit "-" ++ dec m)
| pi_random n : page_id (re_random R n).
Inductive own_id : str -> Prop :=
| oi_page ws : Forall page_id ws -> own_id (join [32%N] ws)
| oi_anchor id : here (EAnchorName id) -> own_id id.
(** One attribute the renderer writes by itself. *)
Inductive own_attr (tag : str) : str -> str -> Prop :=
| oa_plain k v : In k plain_names -> own_attr tag k v
| oa_href v : own_href tag v -> own_attr tag (lit "href") v
| oa_src v : own_src tag v -> own_attr tag (lit "src") v
| oa_id v : own_id v -> own_attr tag (lit "id") v
| oa_click : tag = lit "a" -> own_attr tag (lit "onclick") fold_toc
| oa_style color es : tag = lit "span" -> here (EColor color es) -> own_attr tag (lit "style") (lit "color: " ++ color ++ lit ";").
(** One attribute of a tag: the renderer's own, one the author gave, or (never for href) both: the renderer's
    value, a space, the author's. *)
Inductive attr_source (tag k : str) : str -> Prop :=
| as_own v : own_attr tag k v -> attr_source tag k v
| as_user x m v : on_page t x -> In m (attrs_of x) -> In (k, v) m -> attr_source tag k v
| as_both x m o u : own_attr tag k o -> on_page t x -> In m (attrs_of x) -> In (k, u) m -> k <> lit "href" ->
    attr_source tag k (o ++ [32%N] ++ u).
(** A start tag as a browser reads it. *)
Inductive known_tag : str -> list (str * str) -> Prop :=
| kt_tag tag attrs : In tag our_tags -> NoDup (map fst attrs) ->
    Forall (fun kv => exists v, attr_source tag (fst kv) v /\ snd kv = shown v) attrs -> known_tag tag attrs
| kt_script e : on_page t (EEmbed e) -> embed_tag e = lit "script" -> known_tag (lit "script") [(lit "src", shown (embed_src e))]
| kt_style src : on_page t (EStyle src) -> known_tag (lit "style") []
| kt_math : re_mathml R <> None -> known_tag (lit "wj-math-ml") [(lit "class", lit "wj-math-ml")]
| kt_mathml out tag attrs : mathml_output R out -> In (TkOpen tag attrs) (html_tokens out) -> known_tag tag attrs.
End Own.
