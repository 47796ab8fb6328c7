(** Tree.v -- model of src/tree: the syntax tree types.
    Borrowing ([Cow], lifetimes, to_owned) is not modelled: strings are values. *)
From Verif Require Import Base Strings Links Attr.

(** Alignment, FloatAlignment: src/tree/align.rs:24-31, 67-72. *)
Inductive alignment : Type := AlLeft | AlRight | AlCenter | AlJustify.
Record float_alignment : Type := FA { fa_align : alignment; fa_float : bool }.
(** ClearFloat, src/tree/clear_float.rs:21-27. *)
Inductive clear_float : Type := CFLeft | CFRight | CFBoth.
(** AnchorTarget, src/tree/anchor.rs:24-45. *)
Inductive anchor_target : Type := ATNewTab | ATParent | ATTop | ATSame.
(** Heading: src/tree/heading.rs:25-37; HeadingLevel (lines 74-83) is its number 1..6. *)
Record heading : Type := HD { hd_level : nat; hd_has_toc : bool }.
(** ContainerType, src/tree/container.rs:88-116. *)
Inductive container_type : Type :=
| CBold | CItalics | CUnderline | CSuperscript | CSubscript | CStrikethrough | CMonospace | CSpan
| CDiv | CMark | CBlockquote | CInsertion | CDeletion | CHidden | CInvisible | CSize | CRuby
| CRubyText | CParagraph | CAlign (a : alignment) | CHeader (h : heading).
(** Module, src/tree/module.rs:29-61. *)
Inductive module : Type :=
| MBacklinks (page : option str)
| MCategories (include_hidden : bool)
| MJoin (button_text : option str) (attributes : btmap)
| MPageTree (root : option str) (show_root : bool) (depth : option N)
| MRate.
(** ListType, src/tree/list.rs:68-90. *)
Inductive list_type : Type := LBullet | LNumbered | LGeneric.
(** LinkLabel, src/tree/link.rs:210-227. *)
Inductive link_label : Type := LabelText (s : str) | LabelUrl (s : option str) | LabelPage.
(** ImageSource, src/tree/image.rs:26-46. *)
Inductive image_source : Type :=
| ISUrl (u : str) | ISFile1 (file : str) | ISFile2 (page file : str) | ISFile3 (site page file : str).
(** Embed, src/tree/embed.rs:25-40. *)
Inductive embed : Type :=
| EmYoutube (video_id : str) | EmVimeo (video_id : str)
| EmGithubGist (username hash : str) | EmGitlabSnippet (snippet_id : str).
(** DateItem, src/tree/date.rs:25-31.  The [time] crate's values are kept as (kind, data): only
    the serialised value is represented. *)
Inductive date_item : Type := DIDate (d : str) | DIDateTime (d : str) | DIDateTimeTz (d : str).

(** Parametric parts, so that [element] can be one nested inductive type. *)
(** ListItem, src/tree/list.rs:26-45. *)
Inductive list_item_ (E : Type) : Type :=
| LIElements (attributes : btmap) (elements : list E)
| LISubList (element : E).
Arguments LIElements {E}. Arguments LISubList {E}.
(** TableCell, TableRow: src/tree/table.rs:43-69. *)
Record table_cell_ (E : Type) : Type := TC {
  tc_header : bool; tc_column_span : N; tc_align : option alignment;
  tc_attributes : btmap; tc_elements : list E }.
Arguments TC {E}. Arguments tc_header {E}. Arguments tc_column_span {E}. Arguments tc_align {E}.
Arguments tc_attributes {E}. Arguments tc_elements {E}.
Record table_row_ (E : Type) : Type := TR { tr_attributes : btmap; tr_cells : list (table_cell_ E) }.
Arguments TR {E}. Arguments tr_attributes {E}. Arguments tr_cells {E}.
(** Tab, src/tree/tab.rs:25-29. *)
Record tab_ (E : Type) : Type := TB { tab_label : str; tab_elements : list E }.
Arguments TB {E}. Arguments tab_label {E}. Arguments tab_elements {E}.
(** DefinitionListItem, src/tree/definition_list.rs:27-36. *)
Record def_item_ (E : Type) : Type := DF { df_key_string : str; df_key : list E; df_value : list E }.
Arguments DF {E}. Arguments df_key_string {E}. Arguments df_key {E}. Arguments df_value {E}.
(** PartialElement, src/tree/partial.rs:29-48 (RubyText is src/tree/ruby.rs:25-29). *)
Inductive partial_ (E : Type) : Type :=
| PListItem (i : list_item_ E)
| PTableRow (r : table_row_ E)
| PTableCell (c : table_cell_ E)
| PTab (t : tab_ E)
| PRubyText (attributes : btmap) (elements : list E).
Arguments PListItem {E}. Arguments PTableRow {E}. Arguments PTableCell {E}. Arguments PTab {E}. Arguments PRubyText {E}.

(** Element, src/tree/element/object.rs:34-312. *)
Inductive element : Type :=
| EContainer (ctype : container_type) (attributes : btmap) (elements : list element)
| EModule (m : module)
| EText (s : str)
| ERaw (s : str)
| EVariable (s : str)
| EEmail (s : str)
| ETable (attributes : btmap) (rows : list (table_row_ element))
| ETabView (tabs : list (tab_ element))
| EAnchor (target : option anchor_target) (attributes : btmap) (elements : list element)
| EAnchorName (s : str)
| ELink (ltype : link_type) (link : link_location) (extra : option str) (label : link_label)
        (target : option anchor_target)
| EImage (source : image_source) (link : option link_location) (alignment : option float_alignment)
         (attributes : btmap)
| EList (ltype : list_type) (attributes : btmap) (items : list (list_item_ element))
| EDefinitionList (items : list (def_item_ element))
| ERadioButton (name : str) (checked : bool) (attributes : btmap)
| ECheckBox (checked : bool) (attributes : btmap)
| ECollapsible (elements : list element) (attributes : btmap) (start_open : bool)
               (show_text hide_text : option str) (show_top show_bottom : bool)
| ETableOfContents (attributes : btmap) (align : option alignment)
| EFootnote
| EFootnoteBlock (title : option str) (hide : bool)
| EBibliographyCite (label : str) (brackets : bool)
| EBibliographyBlock (index : nat) (title : option str) (hide : bool)
| EUser (name : str) (show_avatar : bool)
| EDate (value : date_item) (format : option str) (hover : bool)
| EColor (color : str) (elements : list element)
| ECode (contents : str) (language : option str)
| EMath (name : option str) (latex_source : str)
| EMathInline (latex_source : str)
| EEquationReference (s : str)
| EEmbed (e : embed)
| EHtml (contents : str)
| EIframe (attributes : btmap) (url : str)
| EInclude (paragraph_safe : bool) (variables : list (str * str)) (location : page_ref)
           (elements : list element)
| EStyle (s : str)
| ELineBreak
| ELineBreaks (n : N)
| EClearFloat (c : clear_float)
| EHorizontalRule
| EPartial (p : partial_ element).

Notation list_item := (list_item_ element).
Notation table_cell := (table_cell_ element).
Notation table_row := (table_row_ element).
Notation tab := (tab_ element).
Notation def_item := (def_item_ element).
Notation partial := (partial_ element).

(** Element::is_whitespace, src/tree/element/object.rs:323-329. *)
Definition is_whitespace (e : element) : bool :=
  match e with
  | ELineBreak => true
  | EText s => forallb is_ws s
  | _ => false
  end.

(** ContainerType::paragraph_safe, src/tree/container.rs:156-180. *)
Definition ct_paragraph_safe (c : container_type) : bool :=
  match c with
  | CDiv | CBlockquote | CParagraph | CAlign _ | CHeader _ => false
  | _ => true
  end.
(** Element::paragraph_safe, src/tree/element/object.rs:387-433; [None] = the panic on partials. *)
Definition paragraph_safe (e : element) : option bool :=
  match e with
  | EContainer c _ _ => Some (ct_paragraph_safe c)
  | EModule _ => Some false
  | EText _ | ERaw _ | EVariable _ | EEmail _ => Some true
  | ETable _ _ | ETabView _ => Some false
  | EAnchor _ _ _ | EAnchorName _ | ELink _ _ _ _ _ => Some true
  | EImage _ _ _ _ => Some true
  | EList _ _ _ | EDefinitionList _ => Some false
  | ERadioButton _ _ _ | ECheckBox _ _ => Some true
  | ECollapsible _ _ _ _ _ _ _ => Some false
  | ETableOfContents _ _ => Some false
  | EFootnote => Some true
  | EFootnoteBlock _ _ => Some false
  | EBibliographyCite _ _ => Some true
  | EBibliographyBlock _ _ _ => Some false
  | EUser _ _ | EDate _ _ _ | EColor _ _ => Some true
  | ECode _ _ | EMath _ _ => Some false
  | EMathInline _ | EEquationReference _ => Some true
  | EEmbed _ | EHtml _ | EIframe _ _ => Some false
  | EInclude p _ _ _ => Some p
  | EStyle _ => Some false
  | ELineBreak | ELineBreaks _ => Some true
  | EClearFloat _ | EHorizontalRule => Some false
  | EPartial _ => None
  end.
(** [elements.iter().all(|e| e.paragraph_safe())]: stops at the first [false]. *)
Fixpoint all_paragraph_safe (es : list element) : option bool :=
  match es with
  | [] => Some true
  | e :: es' => match paragraph_safe e with
                | None => None
                | Some false => Some false
                | Some true => all_paragraph_safe es'
                end
  end.

(** [element == Element::LineBreak]. *)
Definition is_line_break (e : element) : bool := match e with ELineBreak => true | _ => false end.
(** [matches!(e, LineBreak | LineBreaks(_))], src/parsing/strip.rs:26, 35. *)
Definition is_newline (e : element) : bool :=
  match e with ELineBreak | ELineBreaks _ => true | _ => false end.
(** [while let Some(e) = v.first() { if !f(e) break; v.remove(0) }]. *)
Fixpoint strip_front (f : element -> bool) (es : list element) : list element :=
  match es with
  | [] => []
  | e :: es' => if f e then strip_front f es' else es
  end.
(** [while let Some(e) = v.last() { if !f(e) break; v.pop() }]. *)
Definition strip_back (f : element -> bool) (es : list element) : list element :=
  rev (strip_front f (rev es)).
(** strip_newlines, src/parsing/strip.rs:23-41. *)
Definition strip_newlines (es : list element) : list element := strip_back is_newline (strip_front is_newline es).
(** strip_whitespace, src/parsing/strip.rs:43-61. *)
Definition strip_whitespace (es : list element) : list element := strip_back is_whitespace (strip_front is_whitespace es).

(** *** src/parsing/paragraph/stack.rs.  The error list of the stack is kept by the caller, which
    only ever appends to it. *)
(** ParagraphStack, src/parsing/paragraph/stack.rs:26-35. *)
Record pstack : Type := PS { ps_current : list element; ps_finished : list element }.
(** new, src/parsing/paragraph/stack.rs:38-41. *)
Definition ps_new : pstack := PS [] [].
(** build_paragraph, src/parsing/paragraph/stack.rs:101-118. *)
Definition paragraph (es : list element) : element := EContainer CParagraph [] es.
Definition build_paragraph (s : pstack) : option element * pstack :=
  match ps_current s with
  | [] => (None, s)
  | es => (Some (paragraph es), PS [] (ps_finished s))
  end.
(** end_paragraph, src/parsing/paragraph/stack.rs:121-127. *)
Definition end_paragraph (s : pstack) : pstack :=
  match build_paragraph s with
  | (Some p, s') => PS (ps_current s') (ps_finished s' ++ [p])
  | (None, s') => s'
  end.
(** push_element, src/parsing/paragraph/stack.rs:53-70. *)
Definition push_element (s : pstack) (e : element) (safe : bool) : pstack :=
  if safe then PS (ps_current s ++ [e]) (ps_finished s)
  else let s := end_paragraph s in PS (ps_current s) (ps_finished s ++ [e]).
(** pop_line_break, src/parsing/paragraph/stack.rs:85-93. *)
Definition pop_line_break (s : pstack) : pstack :=
  match rev (ps_current s) with
  | ELineBreak :: r => PS (rev r) (ps_finished s)
  | _ => s
  end.
(** push_elements, src/parsing/paragraph/mod.rs:127-145. *)
Fixpoint push_elements (s : pstack) (es : list element) (safe : bool) : pstack :=
  match es with
  | [] => s
  | e :: es' =>
      if match ps_current s with [] => is_line_break e | _ => false end
      then push_elements s es' safe
      else push_elements (push_element s e safe) es' safe
  end.
(** into_elements, src/parsing/paragraph/stack.rs:160-173. *)
Definition into_elements (s : pstack) : list element := ps_finished (end_paragraph s).
(** into_result, src/parsing/paragraph/stack.rs:133-154: the elements and their safety ([None] =
    panic). *)
Definition into_result (s : pstack) : option (list element * bool) :=
  let es := into_elements s in
  match all_paragraph_safe es with Some b => Some (es, b) | None => None end.
