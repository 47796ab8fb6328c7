(** SpecBlocks.v -- pages made of paragraphs and of blocks in double brackets: how such a page is
    written in wikitext, and how it should look in HTML. *)
From Coq Require Import DecimalString.
From Verif Require Import Base Strings SpecStrings.
(** HTML, with apostrophes standing for quotation marks. *)
Definition html (s : String.string) : str := map (fun c => if ceqb c 39 then 34%N else c) (lit s).

(** The blocks around text: the HTML element each one becomes. *)
Inductive box : Type :=
| Strong | Emphasis | Underlined | Struck | Lowered | Raised | Mono | Marked | Inserted | Deleted | Span | Hidden | Invisible | Anchored (tab : bool).
Definition box_names (k : box) : list str :=
  map lit match k with
  | Strong => ["b"; "bold"; "strong"] | Emphasis => ["i"; "italics"; "em"; "emphasis"] | Underlined => ["u"; "underline"]
  | Struck => ["s"; "strikethrough"] | Lowered => ["sub"; "subscript"] | Raised => ["sup"; "super"; "superscript"]
  | Mono => ["tt"; "mono"; "monospace"] | Marked => ["mark"; "highlight"] | Inserted => ["ins"; "insertion"]
  | Deleted => ["del"; "deletion"] | Span => ["span"] | Hidden => ["hidden"] | Invisible => ["invisible"]
  | Anchored _ => ["a"; "anchor"]
  end%string.
(** An anchor that opens a new tab is written with a star. *)
Definition starred (k : box) : bool := match k with Anchored tab => tab | _ => false end.
Definition box_element (k : box) : str * list (str * str) :=
  match k with
  | Strong => (lit "strong", []) | Emphasis => (lit "em", []) | Underlined => (lit "u", []) | Struck => (lit "s", [])
  | Lowered => (lit "sub", []) | Raised => (lit "sup", []) | Mono => (lit "code", [(lit "class", lit "wj-monospace")])
  | Marked => (lit "mark", []) | Inserted => (lit "ins", []) | Deleted => (lit "del", []) | Span => (lit "span", [])
  | Hidden => (lit "span", [(lit "class", lit "wj-hidden")]) | Invisible => (lit "span", [(lit "class", lit "wj-invisible")])
  | Anchored tab => (lit "a", (lit "class", lit "wj-anchor") :: if tab then [(lit "target", lit "_blank")] else [])
  end.

(** What a paragraph is made of: text, what stands in it, and the ends of lines.  Attributes are pairs of a name and a value; [opening] and [closing]
    are the names the block is written with. *)
Notation attribute := (str * str)%type.
(** Links lead to a page, of this or of another site, maybe with more after its name; to an address
    outside or to a path on this site; or to a place of the same page (or to nowhere). *)
Record page : Type := Page { on_site : option str; category : option str; page_name : str; path : option str; spot : option str }.
Inductive caption : Type := Bare | Title | Caption (s : str).
(** Conditions: a tag that must be there, one that must not be there, and tags of which one must be there. *)
Inductive sign : Type := Must | MustNot | OneOf.
Inductive address : Type := Web (url : str) | Local (name : str) (more : option str).
Inductive inline : Type :=
| Text (s : str)
| Box (k : box) (opening : str) (a : list attribute) (inside : list inline) (closing : str)
| Size (size : str) (inside : list inline)
| User (avatar : bool) (name : str)
| Checkbox (checked : bool) (a : list attribute)
| Radio (checked : bool) (name : str) (a : list attribute)
| Ruby (base above : str)
| Character (entity : str)
| Equation (name : str)
| PageLink (tab : bool) (p : page) (c : caption)
| Link (tab : bool) (a : address) (c : str)
| Jump (place : option str) (c : str)
| When (by_category : bool) (conditions : list (sign * str)) (inside : list inline)
| Break.
Inductive alignment : Type := Centred | Justified | Leftwards | Rightwards.
(** A foldable block: its two labels, whether it starts open, where the button to hide it is. *)
Record folding : Type := Folding { show_label : option str; hide_label : option str; starts_folded : option bool; hide_at : option (bool * bool) }.
Inductive group : Type :=
| Div (a : list attribute)
| Aligned (w : alignment)
| Quoted (a : list attribute)
| Collapsible (f : folding) (a : list attribute).
Definition group_names (g : group) : list str :=
  map lit match g with
  | Div _ => ["div"] | Quoted _ => ["blockquote"; "quote"] | Collapsible _ _ => ["collapsible"]
  | Aligned Centred => ["="] | Aligned Justified => ["=="] | Aligned Leftwards => ["<"] | Aligned Rightwards => [">"]
  end%string.
(** Blocks with text that is not wikitext: a program, maybe in a known language, or an HTML document. *)
Inductive verbatim : Type := Program (language : option str) | Document.
Definition verbatim_names (v : verbatim) : list str := map lit match v with Program _ => ["code"] | Document => ["html"] end%string.
(** A cell of a table: whether it is a heading, how many columns wide it is. *)
Record cell : Type := Cell { heading : bool; wide : nat; cell_attributes : list attribute; contents : list inline }.
(** A cell of a table drawn with bars: whether it is a heading or set to one side, how many columns wide it is. *)
Inductive mark : Type := Usual | Head | ToLeft | ToMiddle | ToRight.
Record short : Type := Short { mark_of : mark; columns : nat; said : list inline }.
(** A page is a list of blocks; groups contain blocks.  Lists have items, tables have rows of cells.  A
    line across the page; the end of what floats on the left, on the right or on both sides. *)
Inductive block : Type :=
| Par (l : list inline)
| Group (g : group) (opening : str) (inside : list block) (closing : str)
| Verbatim (v : verbatim) (opening : str) (text : str) (closing : str)
| Items (numbered : bool) (a : list attribute) (items : list (list attribute * list inline))
| Grid (a : list attribute) (rows : list (list attribute * list cell))
| Bars (rows : list (list short))
| Divider (dashes : nat)
| Clear (left_only : option bool) (tildes : nat).

(** *** Written as wikitext. *)
Definition attribute_source (kv : attribute) : str := lit " " ++ fst kv ++ lit "=" ++ [34%N] ++ quote_inside (snd kv) ++ [34%N].
Definition attributes_source (a : list attribute) : str := flat_map attribute_source a.
Definition optional {A} (key : String.string) (value : A -> str) (o : option A) : list attribute :=
  match o with Some v => [(lit key, value v)] | None => [] end.
Definition folding_attributes (f : folding) : list attribute :=
  optional "show" (fun s => s) (show_label f) ++ optional "hide" (fun s => s) (hide_label f) ++
  optional "folded" (fun b : bool => lit (if b then "yes" else "no")) (starts_folded f) ++
  optional "hideLocation" (fun w : bool * bool => lit match w with (true, true) => "both" | (true, false) => "top" | (false, true) => "bottom" | (false, false) => "neither" end) (hide_at f).
Definition group_attributes (g : group) : list attribute :=
  match g with Div a | Quoted a => a | Aligned _ => [] | Collapsible f a => folding_attributes f ++ a end.
Definition verbatim_attributes (v : verbatim) : list attribute := match v with Program language => optional "type" (fun s => s) language | Document => [] end.
Definition after (sign : String.string) (o : option str) : str := match o with Some s => lit sign ++ s | None => [] end.
Definition before_sign (o : option str) (sign : String.string) : str := match o with Some s => s ++ lit sign | None => [] end.
Definition full_name (p : page) : str := before_sign (category p) ":" ++ page_name p.
Definition more_of (p : page) : str := after "/" (path p) ++ after "#" (spot p).
Definition page_source (p : page) : str := match on_site p with Some s => lit ":" ++ s ++ lit ":" | None => [] end ++ full_name p ++ more_of p.
Definition caption_source (c : caption) : str := match c with Bare => [] | Title => lit "|" | Caption s => lit "|" ++ s end.
Definition address_source (a : address) : str := match a with Web url => url | Local name more => lit "/" ++ name ++ after "/" more end.
Definition condition_source (c : sign * str) : str := lit " " ++ match fst c with Must => lit "+" | MustNot => lit "-" | OneOf => [] end ++ snd c.
Definition when_name (by_category : bool) : str := lit (if by_category then "ifcategory" else "iftags").
Fixpoint inline_source (x : inline) : str :=
  match x with
  | Text s => s
  | Box k opening a inside closing => (if starred k then lit "[[*" else lit "[[") ++ opening ++ attributes_source a ++ lit "]]" ++ flat_map inline_source inside ++ lit "[[/" ++ closing ++ lit "]]"
  | Size size inside => lit "[[size " ++ size ++ lit "]]" ++ flat_map inline_source inside ++ lit "[[/size]]"
  | User avatar name => (if avatar then lit "[[*user " else lit "[[user ") ++ name ++ lit "]]"
  | Checkbox checked a => (if checked then lit "[[*checkbox" else lit "[[checkbox") ++ attributes_source a ++ lit "]]"
  | Radio checked name a => (if checked then lit "[[*radio " else lit "[[radio ") ++ name ++ attributes_source a ++ lit "]]"
  | Ruby base above => lit "[[rb " ++ base ++ lit "|" ++ above ++ lit "]]"
  | Character entity => lit "[[char " ++ entity ++ lit "]]"
  | Equation name => lit "[[eref " ++ name ++ lit "]]"
  | PageLink tab p c => (if tab then lit "[[[*" else lit "[[[") ++ page_source p ++ caption_source c ++ lit "]]]"
  | Link tab a c => (if tab then lit "[*" else lit "[") ++ address_source a ++ lit " " ++ c ++ lit "]"
  | Jump place c => lit "[#" ++ match place with Some s => s | None => [] end ++ lit " " ++ c ++ lit "]"
  | When by_category cs inside => lit "[[" ++ when_name by_category ++ flat_map condition_source cs ++ lit "]]" ++ flat_map inline_source inside ++ lit "[[/" ++ when_name by_category ++ lit "]]"
  | Break => [10%N]
  end.
(** Items, rows and cells are written in lines of their own. *)
Definition tagged (name : String.string) (a : list attribute) (inside : str) : str :=
  lit "[[" ++ lit name ++ attributes_source a ++ lit "]]" ++ inside ++ lit "[[/" ++ lit name ++ lit "]]".
Definition each_line {A} (f : A -> str) (l : list A) : str := [10%N] ++ flat_map (fun x => f x ++ [10%N]) l.
Definition digits (n : nat) : str := lit (NilZero.string_of_uint (Nat.to_uint n)).
Definition cell_source (c : cell) : str :=
  tagged (if heading c then "hcell" else "cell") (cell_attributes c ++ (if wide c =? 1 then [] else [(lit "colspan", digits (wide c))])) (flat_map inline_source (contents c)).
Definition mark_source (m : mark) : str := lit match m with Usual => "||" | Head => "||~" | ToLeft => "||<" | ToMiddle => "||=" | ToRight => "||>" end.
Definition short_source (c : short) : str :=
  concat (repeat (lit "||") (columns c - 1)) ++ mark_source (mark_of c) ++ lit " " ++ match said c with [] => [] | l => flat_map inline_source l ++ lit " " end.
Definition bars_source (r : list short) : str := flat_map short_source r ++ lit "||".
Definition list_name (numbered : bool) : String.string := if numbered then "ol" else "ul".
(** Blocks are separated by an empty line. *)
Fixpoint block_source (b : block) : str :=
  match b with
  | Par l => flat_map inline_source l
  | Group g opening inside closing =>
      lit "[[" ++ opening ++ attributes_source (group_attributes g) ++ lit "]]" ++ [10%N] ++
      match inside with
      | [] => []
      | b :: bs => block_source b ++ flat_map (fun b => [10; 10]%N ++ block_source b) bs ++ [10%N]
      end ++ lit "[[/" ++ closing ++ lit "]]"
  | Verbatim v opening text closing =>
      lit "[[" ++ opening ++ attributes_source (verbatim_attributes v) ++ lit "]]" ++ [10%N] ++ text ++ [10%N] ++ lit "[[/" ++ closing ++ lit "]]"
  | Items numbered a items => tagged (list_name numbered) a (each_line (fun i => tagged "li" (fst i) (flat_map inline_source (snd i))) items)
  | Grid a rows => tagged "table" a (each_line (fun r => tagged "row" (fst r) (each_line cell_source (snd r))) rows)
  | Bars rows => match rows with [] => [] | r :: rs => bars_source r ++ flat_map (fun r => [10%N] ++ bars_source r) rs end
  | Divider dashes => repeat 45%N dashes
  | Clear w tildes => repeat 126%N tildes ++ lit match w with Some true => "<" | Some false => ">" | None => "" end
  end.
Definition source (bs : list block) : str :=
  match bs with [] => [] | b :: bs => block_source b ++ flat_map (fun b => [10; 10]%N ++ block_source b) bs end.

(** *** As HTML. *)
(** Attributes that are kept, whatever they are on. *)
Definition common_attributes : list str :=
  map lit ["accept"; "align"; "alt"; "autocapitalize"; "background"; "bgcolor"; "border"; "cite"; "class"; "cols"; "colspan"; "coords"; "datetime";
    "decoding"; "dir"; "dirname"; "download"; "draggable"; "for"; "form"; "headers"; "height"; "high"; "hreflang"; "inputmode"; "itemprop"; "kind";
    "label"; "lang"; "list"; "low"; "max"; "maxlength"; "min"; "minlength"; "name"; "optimum"; "pattern"; "placeholder"; "poster"; "preload"; "role";
    "rows"; "rowspan"; "scope"; "shape"; "size"; "sizes"; "span"; "spellcheck"; "srclang"; "srcset"; "start"; "step"; "style"; "tabindex"; "target";
    "title"; "translate"; "type"; "usemap"; "value"; "width"; "wrap"]%string.
(** The attributes of an element: the user's in the order of their names, with the element's own
    value before the user's when both have the attribute. *)
Fixpoint before (a b : str) : bool :=
  match a, b with
  | _, [] => false
  | [], _ => true
  | x :: a', y :: b' => (x <? y)%N || (ceqb x y && before a' b')
  end.
Fixpoint put (kv : attribute) (l : list attribute) : list attribute :=
  match l with [] => [kv] | x :: l' => if before (fst kv) (fst x) then kv :: l else x :: put kv l' end.
(** Names of event handlers start with "on". *)
Definition is_handler (key : str) : bool := match slower key with c :: d :: _ => ceqb c 111 && ceqb d 110 | _ => false end.
Definition shown_attributes (a : list attribute) : list attribute :=
  fold_left (fun l kv => if is_handler (fst kv) then l else put (slower (fst kv), snd kv) l) a [].
Fixpoint find (key : str) (a : list attribute) : option str :=
  match a with [] => None | (k, v) :: a' => if seqb k key then Some v else find key a' end.
Definition missing (a : list attribute) (kv : attribute) : bool := match find (fst kv) a with Some _ => false | None => true end.
Definition merged (own user : list attribute) : list attribute :=
  flat_map (fun kv => match find (fst kv) user with Some v => [(fst kv, snd kv ++ lit " " ++ v)] | None => [] end) own ++
  filter (missing user) own ++ filter (missing own) user.
Definition attribute_html (kv : attribute) : str :=
  lit " " ++ fst kv ++ match snd kv with [] => [] | v => lit "=" ++ [34%N] ++ escape v ++ [34%N] end.
Definition open_tag (name : str) (own user : list attribute) : str :=
  lit "<" ++ name ++ flat_map attribute_html (merged own (shown_attributes user)) ++ lit ">".
Definition element (name : str) (own user : list attribute) (inside : str) : str :=
  open_tag name own user ++ inside ++ lit "</" ++ name ++ lit ">".
Definition classed (name class : String.string) (inside : str) : str := element (lit name) [(lit "class", lit class)] [] inside.
(** *** What is conditional. *)
(** All that must be there is there, nothing that must not be there is there, and of those of which one
    must be there (if there are any) one is there. *)
Definition is_one (c : sign * str) : bool := match fst c with OneOf => true | _ => false end.
Definition meets (present : list str) (cs : list (sign * str)) : bool :=
  forallb (fun c => match fst c with Must => smem (snd c) present | MustNot => negb (smem (snd c) present) | OneOf => true end) cs &&
  (negb (existsb is_one cs) || existsb (fun c => is_one c && smem (snd c) present) cs).
Section Conditions.
Variables (tags : list str) (own_category : str).
(** A page has one category, so that there a plus sign means no more than that it may be this one. *)
Definition holds (by_category : bool) (cs : list (sign * str)) : bool :=
  if by_category then meets [own_category] (map (fun c => (match fst c with Must => OneOf | s => s end, snd c)) cs) else meets tags cs.
(** Nothing is left of it. *)
Fixpoint vanishes (x : inline) : bool := match x with When b cs inside => negb (holds b cs) || forallb vanishes inside | _ => false end.
(** What is left of it; and of a paragraph, where line breaks before anything else are lost. *)
Fixpoint kept (x : inline) : list inline := match x with When b cs inside => if holds b cs then flat_map kept inside else [] | _ => [x] end.
Fixpoint skip_breaks (l : list inline) : list inline := match l with Break :: r => skip_breaks r | _ => l end.
Definition left_of (l : list inline) : list inline := skip_breaks (flat_map kept l).
End Conditions.
(** The message texts and the avatar are the ones built into the renderer. *)
Section Html.
Variables (tags : list str) (own_category : str).
Variables (entities : str -> option str) (avatar_image open_message hide_message : str).
(** How page names are normalised, which pages exist and what their titles are is up to the host. *)
Variables (normalize : str -> str) (this_site : str) (exists_page : str -> str -> bool) (title : str -> str -> str).
Definition site_of (p : page) : str := match on_site p with Some s => s | None => this_site end.
Definition page_href (p : page) : str :=
  match on_site p with Some s => lit "https://" ++ s ++ lit ".wikijump.com/" | None => lit "/" end ++ normalize (full_name p) ++ more_of p.
(** A link without a caption shows the name of the page, and what comes after it if there is a site or a
    category before it. *)
Definition bare_caption (p : page) : str :=
  page_name p ++ match on_site p, category p with None, None => [] | _, _ => more_of p end.
Definition page_caption (p : page) (c : caption) : str :=
  match c with Bare => bare_caption p | Title => title (site_of p) (full_name p) | Caption s => s end.
Definition link_html (href : str) (tab : bool) (class : str) (kind : String.string) (shown : str) : str :=
  element (lit "a") ([(lit "href", href)] ++ (if tab then [(lit "target", lit "_blank")] else []) ++ [(lit "class", lit "wj-link " ++ class); (lit "data-link-type", lit kind)]) [] (escape shown).
Fixpoint inline_html (x : inline) : str :=
  match x with
  | Text s => escape s
  | Box k _ a inside _ => element (fst (box_element k)) (snd (box_element k)) a (flat_map inline_html inside)
  | Size size inside => element (lit "span") [(lit "style", lit "font-size: " ++ size ++ lit ";")] [] (flat_map inline_html inside)
  | User avatar name =>
      classed "span" "wj-user-info"
        (element (lit "a") [(lit "class", lit "wj-user-info-link"); (lit "href", lit "/user:info/" ++ name)] []
          ((if avatar then
              element (lit "span") [(lit "class", lit "wj-karma"); (lit "data-karma", lit "5")] []
                (element (lit "svg") [(lit "class", lit "wj-sprite sprite-wj-karma"); (lit "viewBox", lit "0 0 64 114")] []
                  (element (lit "use") [(lit "href", lit "/files--static/media/ui.svg#wj-karma")] [] [])) ++
              open_tag (lit "img") [(lit "class", lit "wj-user-info-avatar"); (lit "src", avatar_image)] []
            else []) ++
           classed "span" "wj-user-info-name" (escape name)))
  | Checkbox checked a => open_tag (lit "input") ((lit "type", lit "checkbox") :: if checked then [(lit "checked", [])] else []) a
  | Radio checked name a => open_tag (lit "input") ((lit "name", name) :: (lit "type", lit "radio") :: if checked then [(lit "checked", [])] else []) a
  | Ruby base above => html "<ruby>" ++ escape base ++ html "<rp>(</rp><rt>" ++ escape above ++ html "</rt><rp>)</rp></ruby>"
  | Character entity => match entities entity with Some s => escape s | None => [] end
  | Equation name =>
      classed "span" "wj-equation-ref"
        (element (lit "wj-equation-ref-marker") [(lit "class", lit "wj-equation-ref-marker"); (lit "type", lit "button"); (lit "data-name", name)] [] (escape name) ++
         html "<span class='wj-equation-ref-tooltip' aria-hidden='true'></span>")
  | PageLink tab p c => link_html (page_href p) tab (lit (if exists_page (site_of p) (full_name p) then "wj-link-internal" else "wj-link-internal wj-link-missing")) "page" (page_caption p c)
  | Link tab (Web url) c => link_html url tab (lit "wj-link-external") "direct" c
  | Link tab (Local name more) c => link_html (lit "/" ++ normalize name ++ after "/" more) tab (lit "wj-link-internal") "direct" c
  | Jump place c => link_html match place with Some s => lit "#" ++ normalize s | None => lit "javascript:;" end false (lit "wj-link-anchor") "anchor" c
  | When b cs inside => if holds tags own_category b cs then flat_map inline_html inside else []
  | Break => html "<br>"
  end.
Definition align_name (w : alignment) : str :=
  lit match w with Centred => "wj-align-center" | Justified => "wj-align-justify" | Leftwards => "wj-align-left" | Rightwards => "wj-align-right" end.
Definition or_default (o : option str) (d : str) : str := match o with Some s => s | None => d end.
Definition foldable (f : folding) (a : list attribute) (inside : str) : str :=
  let (top, bottom) := match hide_at f with Some w => w | None => (true, false) end in
  let shown := escape (or_default (show_label f) open_message) in
  let hidden := escape (or_default (hide_label f) hide_message) in
  element (lit "details")
    ((lit "class", lit "wj-collapsible") ::
     (match starts_folded f with Some false => [(lit "open", [])] | _ => [] end) ++
     (if top then [(lit "data-show-top", [])] else []) ++ (if bottom then [(lit "data-show-bottom", [])] else [])) a
    (classed "summary" "wj-collapsible-button wj-collapsible-button-top"
       (classed "span" "wj-collapsible-show-text" shown ++ classed "span" "wj-collapsible-hide-text" hidden) ++
     classed "div" "wj-collapsible-content" inside ++
     (if bottom then classed "wj-collapsible-button-bottom" "wj-collapsible-button wj-collapsible-button-bottom" (classed "span" "wj-collapsible-hide-text" hidden) else [])).
Definition group_html (g : group) (inside : str) : str :=
  match g with
  | Div a => element (lit "div") [] a inside
  | Aligned w => element (lit "div") [(lit "class", align_name w)] [] inside
  | Quoted a => element (lit "blockquote") [] a inside
  | Collapsible f a => foldable f a inside
  end.
(** A program is shown letter for letter, below a button to copy it and the name of its language. *)
Definition sprite_html (id : String.string) : str :=
  element (lit "svg") [(lit "class", lit "wj-sprite sprite-" ++ lit id); (lit "viewBox", lit "0 0 24 24")] [] (element (lit "use") [(lit "href", lit "/files--static/media/ui.svg#" ++ lit id)] [] []).
Definition verbatim_html (v : verbatim) (text : str) : str :=
  match v with
  | Program language =>
      element (lit "wj-code") [(lit "class", lit "wj-code wj-language-" ++ slower (or_default language (lit "none")))] []
        (classed "div" "wj-code-panel"
           (element (lit "wj-code-copy") [(lit "type", lit "button"); (lit "class", lit "wj-code-copy"); (lit "title", lit "Copy to Clipboard")] []
              (sprite_html "wj-clipboard" ++ sprite_html "wj-clipboard-success") ++
            classed "span" "wj-code-language" (escape (slower (or_default language [])))) ++
         html "<pre><code>" ++ escape text ++ html "</code></pre>")
  (* (The address is a placeholder: documents are not stored yet.) *)
  | Document => html "<iframe src='https://example.com/' crossorigin></iframe>"
  end.
Definition cell_html (c : cell) : str :=
  element (lit (if heading c then "th" else "td")) (if 1 <? wide c then [(lit "colspan", digits (wide c))] else []) (cell_attributes c) (flat_map inline_html (contents c)).
Definition short_html (c : short) : str :=
  element (lit match mark_of c with Head => "th" | _ => "td" end)
    ((if 1 <? columns c then [(lit "colspan", digits (columns c))] else []) ++
     match mark_of c with ToLeft => [(lit "class", lit "wj-align-left")] | ToMiddle => [(lit "class", lit "wj-align-center")] | ToRight => [(lit "class", lit "wj-align-right")] | _ => [] end) []
    (flat_map inline_html (said c)).
Definition bars_html (r : list short) : str := element (lit "tr") [] [] (flat_map short_html r).
Fixpoint block_html (b : block) : str :=
  match b with
  | Par l => match left_of tags own_category l with [] => [] | l => html "<p>" ++ flat_map inline_html l ++ html "</p>" end
  | Group g _ inside _ => group_html g (flat_map block_html inside)
  | Verbatim v _ text _ => verbatim_html v text
  | Items numbered a items => element (lit (list_name numbered)) [] a (flat_map (fun i => element (lit "li") [] (fst i) (flat_map inline_html (snd i))) items)
  | Grid a rows => element (lit "table") [] a (html "<tbody>" ++ flat_map (fun r => element (lit "tr") [] (fst r) (flat_map cell_html (snd r))) rows ++ html "</tbody>")
  | Bars rows => classed "table" "wj-table" (html "<tbody>" ++ flat_map bars_html rows ++ html "</tbody>")
  | Divider _ => html "<hr>"
  | Clear w _ => classed "div" (match w with Some true => "wj-clear-float wj-clear-float-left" | Some false => "wj-clear-float wj-clear-float-right" | None => "wj-clear-float wj-clear-float-both" end) []
  end.
Definition page_html (bs : list block) : str := html "<wj-body class='wj-body'>" ++ flat_map block_html bs ++ html "</wj-body>".
(** *** What the page links to. *)
Inductive backlink : Type := Internal (site : option str) (name : str) | External (url : str).
(** (A jump within the page is listed like a link to a page whose name starts with a number sign.) *)
Fixpoint inline_links (x : inline) : list backlink :=
  match x with
  | Box _ _ _ inside _ | Size _ inside => flat_map inline_links inside
  | PageLink _ p _ => [Internal (on_site p) (full_name p)]
  | Link _ (Web url) _ => [External url]
  | Link _ (Local name more) _ => [Internal None (name ++ after "/" more)]
  | Jump (Some s) _ => [Internal None (lit "#" ++ normalize s)]
  | When b cs inside => if holds tags own_category b cs then flat_map inline_links inside else []
  | _ => []
  end.
Fixpoint block_links (b : block) : list backlink :=
  match b with
  | Par l => flat_map inline_links l
  | Group _ _ inside _ => flat_map block_links inside
  | Verbatim _ _ _ _ => []
  | Items _ _ items => flat_map (fun i => flat_map inline_links (snd i)) items
  | Grid _ rows => flat_map (fun r => flat_map (fun c => flat_map inline_links (contents c)) (snd r)) rows
  | Bars rows => flat_map (flat_map (fun c => flat_map inline_links (said c))) rows
  | Divider _ | Clear _ _ => []
  end.
Definition page_links (bs : list block) : list backlink := flat_map block_links bs.
Definition internal_links (l : list backlink) : list (option str * str) := flat_map (fun b => match b with Internal s n => [(s, n)] | External _ => [] end) l.
Definition external_links (l : list backlink) : list str := flat_map (fun b => match b with Internal _ _ => [] | External u => [u] end) l.
End Html.

(** *** As plain text. *)
(** Hidden text is left out, and each character of invisible text is a blank (except in a reference to an
    equation, which stays).  Paragraphs, divisions and quotations have lines of their own. *)
Section PlainText.
Variables (tags : list str) (own_category : str).
Variables (entities : str -> option str) (this_site : str) (title : str -> str -> str).
Definition veil (invisible : bool) (s : str) : str := if invisible then map (fun _ => 32%N) s else s.
Fixpoint inline_text (invisible : bool) (x : inline) : str :=
  match x with
  | Text s => veil invisible s
  | Box Hidden _ _ _ _ => []
  | Box Invisible _ _ inside _ => flat_map (inline_text true) inside
  | Box _ _ _ inside _ | Size _ inside => flat_map (inline_text invisible) inside
  | User _ name => veil invisible name
  | Checkbox _ _ | Radio _ _ _ => []
  | Ruby base above => veil invisible (base ++ lit "(" ++ above ++ lit ")")
  | Character entity => match entities entity with Some s => veil invisible s | None => [] end
  | Equation name => lit "[" ++ name ++ lit "]"
  | PageLink _ p c => veil invisible (page_caption this_site title p c)
  | Link _ _ c | Jump _ c => veil invisible c
  | When b cs inside => if holds tags own_category b cs then flat_map (inline_text invisible) inside else []
  | Break => [10%N]
  end.
Definition own_lines (s : str) : str := [10%N] ++ s ++ [10%N].
Fixpoint block_lines (b : block) : str :=
  match b with
  | Par l => match left_of tags own_category l with [] => [] | l => own_lines (flat_map (inline_text false) l) end
  | Group (Div _ | Quoted _) _ inside _ => own_lines (flat_map block_lines inside)
  | Group (Aligned _ | Collapsible _ _) _ inside _ => flat_map block_lines inside
  | Verbatim (Program _) _ text _ => own_lines text
  | Verbatim Document _ _ _ => []
  (* (Items of which nothing is left have no line.) *)
  | Items _ _ items => flat_map (fun i => if forallb (vanishes tags own_category) (snd i) then [] else flat_map (inline_text false) (snd i) ++ [10%N]) items
  (* (There is nothing between the cells of a row.) *)
  | Grid _ rows => flat_map (fun r => flat_map (fun c => flat_map (inline_text false) (contents c)) (snd r) ++ [10%N]) rows ++ [10%N]
  | Bars rows => flat_map (fun r => flat_map (fun c => flat_map (inline_text false) (said c)) r ++ [10%N]) rows ++ [10%N]
  | Divider _ | Clear _ _ => []
  end.
(** [s] without the empty lines at its ends. *)
Definition trims_to (s t : str) : Prop :=
  exists m n, s = repeat 10%N m ++ t ++ repeat 10%N n /\ (forall c r, t = c :: r \/ t = r ++ [c] -> c <> 10%N).
Definition page_lines (bs : list block) : str := flat_map block_lines bs.
End PlainText.

(** *** The programs and the documents of a page. *)
Fixpoint block_programs (b : block) : list str :=
  match b with Group _ _ inside _ => flat_map block_programs inside | Verbatim (Program _) _ text _ => [text] | _ => [] end.
Fixpoint block_documents (b : block) : list str :=
  match b with Group _ _ inside _ => flat_map block_documents inside | Verbatim Document _ text _ => [text] | _ => [] end.

(** *** What may be written. *)
(** Plain text: no characters with a meaning of their own, except some that stand alone. *)
Definition special : str := lit "[]{}<>@-~|*/_^,#()=:+$" ++ [34; 10; 13]%N.
Definition alone : str := lit "-,()/^".
Definition plain (s : str) : Prop :=
  s <> [] /\ forall pre c post, s = pre ++ c :: post -> ~ In c special \/ In c alone /\ exists d post', post = d :: post' /\ ~ In d special.
Definition visible (c : char) : Prop := (33 <= c <= 126)%N.
Definition value (s : str) : Prop := plain s /\ (forall c r, s = c :: r -> visible c) /\ (forall c r, s = r ++ [c] -> visible c).
Definition word (s : str) : Prop := value s /\ forall c, In c s -> ~ In c [32; 9]%N.
(** Names of attributes: a common one in any case, a data or aria one, or that of an event handler. *)
Definition letters (s : str) : Prop := s <> [] /\ forall c, In c s -> is_alnum c = true.
Definition good_key (key : str) : Prop :=
  In (slower key) common_attributes \/
  (exists r, letters r /\ slower r = r /\ (key = lit "data-" ++ r \/ key = lit "aria-" ++ r)) \/
  (is_handler key = true /\ letters key).
(** Pages: letters for sites and categories; no category that is the scheme of an address or of a script. *)
Definition schemes : list str := map lit ["blob"; "dns"; "feed"; "mailto"; "javascript"; "data"]%string.
Definition good_page_name (p : page) : Prop :=
  value (page_name p) /\ ~ In 47%N (page_name p) /\
  (forall s, on_site p = Some s -> letters s) /\ (forall c, category p = Some c -> letters c /\ (on_site p = None -> ~ In (slower c) schemes)) /\
  (on_site p = None -> category p = None -> forall r, page_name p <> 33%N :: r) /\
  (forall s, path p = Some s -> value (47%N :: s)) /\ (forall s, spot p = Some s -> value s).
Definition good_caption (c : caption) : Prop := match c with Caption s => value s | _ => True end.
(** Addresses outside: http, https and ftp. *)
Definition good_address (a : address) : Prop :=
  match a with
  | Web url => exists scheme r, In scheme (map lit ["http"; "https"; "ftp"]%string) /\ url = scheme ++ lit "://" ++ r /\ r <> [] /\ (forall c, In c r -> ~ In c ([10; 13; 32]%N ++ lit "[]|"))
  | Local name more => word (47%N :: name) /\ ~ In 47%N name /\ (forall s, more = Some s -> word (47%N :: s))
  end.
(** What leads somewhere: to an address outside, to a place of the same page, or, as an idiom, nowhere. *)
Definition absolute_starts : list str := map lit
  ["http://"; "https://"; "ftp://"; "sftp://"; "mailto:"; "git://"; "gopher://"; "irc://"; "ircs://"; "irc6://"; "feed:"; "dns:"; "rtmp://"; "file://"; "blob:"; "content://"; "resource://"; "chrome://"; "chrome-extension://"]%string.
Definition leads_away (v : str) : Prop :=
  (exists start r, In start absolute_starts /\ v = start ++ r) \/ (exists r, v = 35%N :: r) \/ v = lit "javascript:;".
Definition good_attribute (key v : str) : Prop := good_key key \/ In (slower key) (map lit ["href"; "src"]%string) /\ leads_away v.
Definition good_attributes (a : list attribute) : Prop :=
  NoDup (map (fun kv => slower (fst kv)) a) /\ forall k v, In (k, v) a -> good_attribute k v /\ ~ In 13%N v.
Definition named (names : list str) (name : str) : Prop := In (slower name) names.
(** Text that does not start with a blank. *)
Definition flush (s : str) : Prop := forall c r, s = c :: r -> ~ In c [32; 9]%N.
(** Two texts do not stand side by side, that is one text; the text after a checkbox or a radio button
    does not start with a blank, which would be lost; lines are not empty, and none starts with what is
    conditional, hidden or invisible: these blocks take the line break before them.  *)
Definition beside (x y : inline) : Prop :=
  match x, y with
  | Text _, Text _ | Break, Break | Break, When _ _ _ | Break, Box Hidden _ _ _ _ | Break, Box Invisible _ _ _ _ => False
  | (Checkbox _ _ | Radio _ _ _), Text t => flush t
  | _, _ => True
  end.
Definition apart (l : list inline) : Prop :=
  (forall front x y rest, l = front ++ x :: y :: rest -> beside x y) /\ forall r, l <> Break :: r /\ l <> r ++ [Break].
(** Nor does the text at the start of a block that has no attributes. *)
Definition starts_flush (l : list inline) : Prop := forall t rest, l = Text t :: rest -> flush t.
(** What the conditions are about: words that start with no character with a meaning of its own. *)
Definition good_condition (c : sign * str) : Prop := word (snd c) /\ forall d r, snd c = d :: r -> ~ In d special.
Fixpoint good_inline (entities : str -> option str) (x : inline) : Prop :=
  let fix all (l : list inline) : Prop := match l with [] => True | y :: l' => good_inline entities y /\ all l' end in
  match x with
  | Text s => plain s
  | Box k opening a inside closing => named (box_names k) opening /\ named (box_names k) closing /\ good_attributes a /\ (a = [] -> starts_flush inside) /\ apart inside /\ all inside
  | Size size inside => value size /\ apart inside /\ all inside
  | User _ name => value name
  | Checkbox _ a => good_attributes a
  | Radio _ name a => word name /\ good_attributes a
  | Ruby base above => value base /\ value above
  | Character entity => letters entity /\ entities entity <> None
  | Equation name => value name
  | PageLink _ p c => good_page_name p /\ good_caption c
  | Link _ a c => good_address a /\ value c
  | Jump place c => (forall s, place = Some s -> word s) /\ value c
  | When _ cs inside => cs <> [] /\ Forall good_condition cs /\ apart inside /\ all inside
  | Break => True
  end.
Fixpoint inline_height (x : inline) : nat :=
  let fix most (l : list inline) : nat := match l with [] => 0 | y :: l' => Nat.max (inline_height y) (most l') end in
  match x with Box _ _ _ inside _ | Size _ inside | When _ _ inside => S (most inside) | _ => 0 end.
Definition good_group (g : group) : Prop :=
  match g with
  | Div a | Quoted a => good_attributes a
  | Aligned _ => True
  | Collapsible f a => good_attributes a /\ (forall s, show_label f = Some s \/ hide_label f = Some s -> ~ In 13%N s)
  end.
(** Any text that neither starts nor ends with a line break and does not close the block: after each
    closing mark in it there is the name of another block. *)
Definition good_text (names : list str) (text : str) : Prop :=
  (exists c r, text = c :: r /\ ~ In c [10; 13]%N) /\ (exists c r, text = r ++ [c] /\ ~ In c [10; 13]%N) /\
  forall front back, text = front ++ lit "[[/" ++ back -> exists name rest, back = name ++ rest /\ letters name /\ (forall c r, rest = c :: r -> is_alnum c = false) /\ ~ named names name.
Definition good_verbatim (v : verbatim) : Prop := match v with Program (Some language) => ~ In 13%N language | _ => True end.
(** Blanks at the ends of a cell are lost: neither end is a blank, a character that may be one, or text
    that may not be there. *)
Definition firm (l : list inline) : Prop :=
  (forall x r, l = x :: r -> match x with Text t => forall c u, t = c :: u -> visible c | Character _ | When _ _ _ | Break => False | _ => True end) /\
  (forall x r, l = r ++ [x] -> match x with Text t => forall c u, t = u ++ [c] -> visible c | Character _ | When _ _ _ | Break => False | _ => True end).
Definition good_item (entities : str -> option str) (i : list attribute * list inline) : Prop :=
  good_attributes (fst i) /\ (fst i = [] -> starts_flush (snd i)) /\ apart (snd i) /\ Forall (good_inline entities) (snd i).
Definition good_cell (entities : str -> option str) (c : cell) : Prop :=
  good_attributes (cell_attributes c) /\ ~ In (lit "colspan") (map (fun kv => slower (fst kv)) (cell_attributes c)) /\
  1 <= wide c /\ (N.of_nat (wide c) < 4294967296)%N /\ firm (contents c) /\ apart (contents c) /\ Forall (good_inline entities) (contents c).
Definition good_row (entities : str -> option str) (r : list attribute * list cell) : Prop := good_attributes (fst r) /\ Forall (good_cell entities) (snd r).
(** (A checkbox or a radio button would take the blank after it; a line break would end the row.) *)
Definition good_short (entities : str -> option str) (c : short) : Prop :=
  1 <= columns c /\ firm (said c) /\ ~ In Break (said c) /\ (forall x r, said c = r ++ [x] -> match x with Checkbox _ _ | Radio _ _ _ => False | _ => True end) /\ apart (said c) /\ Forall (good_inline entities) (said c).
Fixpoint good_block (entities : str -> option str) (b : block) : Prop :=
  match b with
  | Par l => l <> [] /\ apart l /\ Forall (good_inline entities) l
  | Group g opening inside closing =>
      named (group_names g) opening /\ named (group_names g) closing /\ good_group g /\
      (fix all (l : list block) : Prop := match l with [] => True | y :: l' => good_block entities y /\ all l' end) inside
  | Verbatim v opening text closing =>
      named (verbatim_names v) opening /\ named (verbatim_names v) closing /\ good_verbatim v /\ good_text (verbatim_names v) text
  | Items _ a items => good_attributes a /\ items <> [] /\ Forall (good_item entities) items
  | Grid a rows => good_attributes a /\ Forall (good_row entities) rows
  | Bars rows => rows <> [] /\ Forall (fun r => r <> [] /\ Forall (good_short entities) r) rows
  | Divider n | Clear _ n => 3 <= n
  end.
Definition highest {A} (f : A -> nat) (l : list A) : nat := fold_right (fun x n => Nat.max (f x) n) 0 l.
Fixpoint block_height (b : block) : nat :=
  match b with
  | Par l => highest inline_height l
  | Group _ _ inside _ => S ((fix most (l : list block) : nat := match l with [] => 0 | y :: l' => Nat.max (block_height y) (most l') end) inside)
  | Verbatim _ _ _ _ => 0
  | Items _ _ items => S (S (highest (fun i => highest inline_height (snd i)) items))
  | Grid _ rows => S (S (S (highest (fun r => highest (fun c => highest inline_height (contents c)) (snd r)) rows)))
  | Bars rows => S (highest (highest (fun c => highest inline_height (said c))) rows)
  | Divider _ | Clear _ _ => 0
  end.
Definition good_page (entities : str -> option str) (bs : list block) : Prop :=
  forall b, In b bs -> good_block entities b /\ block_height b < 100.
