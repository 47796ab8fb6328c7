(** SpecParse.v -- specification vocabulary for the parser properties: the elements inside an
    element, the attributes an element carries, the panics that are possible, and what a genuine
    error is. *)
From Verif Require Import Base Strings Links Attr SpecAttr Lexer Tree PState.

(** The elements directly inside an element. *)
Definition item_children (i : list_item) : list element :=
  match i with LIElements _ es => es | LISubList e => [e] end.
Definition row_children (r : table_row) : list element := flat_map tc_elements (tr_cells r).
Definition def_children (d : def_item) : list element := df_key d ++ df_value d.
Definition partial_children (p : partial) : list element :=
  match p with
  | PListItem i => item_children i
  | PTableRow r => row_children r
  | PTableCell c => tc_elements c
  | PTab t => tab_elements t
  | PRubyText _ es => es
  end.
Definition children (e : element) : list element :=
  match e with
  | EContainer _ _ es | EAnchor _ _ es | ECollapsible es _ _ _ _ _ _ | EColor _ es
  | EInclude _ _ _ es => es
  | ETable _ rows => flat_map row_children rows
  | ETabView tabs => flat_map tab_elements tabs
  | EList _ _ items => flat_map item_children items
  | EDefinitionList items => flat_map def_children items
  | EPartial p => partial_children p
  | _ => []
  end.
(** [occurs x e]: x is e or is somewhere inside it. *)
Inductive occurs (x : element) : element -> Prop :=
| occ_self : occurs x x
| occ_child e y : In y (children e) -> occurs x y -> occurs x e.
Definition occurs_in (x : element) (es : list element) : Prop := exists e, In e es /\ occurs x e.
(** All elements in reading order, an element before what it contains. *)
Fixpoint flat (e : element) : list element :=
  e :: match e with
       | EContainer _ _ es | EAnchor _ _ es | ECollapsible es _ _ _ _ _ _ | EColor _ es
       | EInclude _ _ _ es => flat_map flat es
       | ETable _ rows =>
           flat_map (fun r => flat_map (fun c => flat_map flat (tc_elements c)) (tr_cells r)) rows
       | ETabView tabs => flat_map (fun t => flat_map flat (tab_elements t)) tabs
       | EList _ _ items =>
           flat_map (fun i => match i with
                              | LIElements _ es => flat_map flat es
                              | LISubList x => flat x
                              end) items
       | EDefinitionList items =>
           flat_map (fun d => flat_map flat (df_key d) ++ flat_map flat (df_value d)) items
       | EPartial (PListItem (LIElements _ es)) => flat_map flat es
       | EPartial (PListItem (LISubList x)) => flat x
       | EPartial (PTableRow r) => flat_map (fun c => flat_map flat (tc_elements c)) (tr_cells r)
       | EPartial (PTableCell c) => flat_map flat (tc_elements c)
       | EPartial (PTab t) => flat_map flat (tab_elements t)
       | EPartial (PRubyText _ es) => flat_map flat es
       | _ => []
       end.
(** The number of footnote references in a list of elements. *)
Definition is_footnote (e : element) : bool := match e with EFootnote => true | _ => false end.
Definition footnote_refs (es : list element) : nat := length (filter is_footnote (flat_map flat es)).

(** The attribute maps an element carries itself. *)
Definition item_attrs (i : list_item) : list btmap := match i with LIElements a _ => [a] | LISubList _ => [] end.
Definition row_attrs (r : table_row) : list btmap := tr_attributes r :: map tc_attributes (tr_cells r).
Definition attrs_of (e : element) : list btmap :=
  match e with
  | EContainer _ a _ | EAnchor _ a _ | EImage _ _ _ a | ERadioButton _ _ a | ECheckBox _ a
  | ECollapsible _ a _ _ _ _ _ | ETableOfContents a _ | EIframe a _ | EModule (MJoin _ a) => [a]
  | ETable a rows => a :: flat_map row_attrs rows
  | EList _ a items => a :: flat_map item_attrs items
  | EPartial (PListItem i) => item_attrs i
  | EPartial (PTableRow r) => row_attrs r
  | EPartial (PTableCell c) => [tc_attributes c]
  | EPartial (PRubyText a _) => [a]
  | _ => []
  end.

(** A contiguous piece of the text. *)
Definition substr (s text : str) : Prop := exists a b, text = a ++ s ++ b.

(** An id the author chose, as it is stored: isolated (C28) if the settings say so. *)
Definition stored_id (E : env) (s : str) : str := if en_isolate E then isolate_ids s else s.
(** Where an attribute comes from: an argument [k="..."] of a block (a quoted string of the text,
    turned into a value as in C26; an id is isolated if the settings say so), or one of the two
    attributes the parser adds by itself, to tables and to [[size]]. *)
Inductive attr_origin (E : env) : str -> str -> Prop :=
| ao_argument k q s v : substr (lit "[[") (en_text E) -> substr q (en_text E) -> parse_string q = Some s ->
    attr_result (normalize_href (en_word E) (en_normalize E)) k s (Some v) ->
    attr_origin E k (if seqb k (lit "id") then stored_id E v else v)
| ao_table : attr_origin E (lit "class") (lit "wj-table")
| ao_size s : substr (lit "[[") (en_text E) -> substr s (en_text E) -> attr_origin E (lit "style") (lit "font-size: " ++ s ++ lit ";").
(** What is claimed of each attribute: its name is on the safe list and in lower case, names do not
    repeat, and its value comes from the source. *)
Definition attr_map_ok (E : env) (m : btmap) : Prop :=
  NoDup (map fst m) /\
  forall k v, In (k, v) m -> is_safe_attribute k = true /\ slower k = k /\ attr_origin E k v.

(** The text contains a token of kind [t]. *)
Definition has_token (toks : list xtoken) (t : token) : Prop := exists x, In x toks /\ t_token x = t.
Definition has_block (toks : list xtoken) : Prop := has_token toks TLeftBlock \/ has_token toks TLeftBlockStar.
Definition has_link (toks : list xtoken) : Prop := has_token toks TLeftLink \/ has_token toks TLeftLinkStar.
(** Nothing but a line or paragraph break (or the start of the page) comes before. *)
Definition at_line_start (before : list xtoken) : Prop :=
  forall a t, before = a ++ [t] ->
    t_token t = TInputStart \/ t_token t = TLineBreak \/ t_token t = TParagraphBreak.
(** The text contains a token of kind [t] at the start of a line. *)
Definition line_token (toks : list xtoken) (t : token) : Prop :=
  exists before x after, toks = before ++ x :: after /\ at_line_start before /\ t_token x = t.
(** ... and, for headings, one that spells the heading's level and whether it is listed. *)
Definition heading_token (toks : list xtoken) (h : heading) : Prop :=
  exists before x after, toks = before ++ x :: after /\ at_line_start before /\ t_token x = THeading /\
    t_slice x = repeat 43%N (hd_level h) ++ (if hd_has_toc h then [] else [42%N]).
Definition clear_token (c : clear_float) : token :=
  match c with CFLeft => TClearFloatLeft | CFRight => TClearFloatRight | CFBoth => TClearFloatBoth end.
(** The panics the parser can reach, and what the text must contain for each. *)
Definition possible_panic (E : env) (toks : list xtoken) (w : panic_site) : Prop :=
  match w with
  | PanicCheckStep => has_token toks TRightParentheses
  | PanicBlockName => en_debug E = true /\ has_block toks
  | PanicPartialSafety => has_block toks
  | PanicTextRender => has_token toks THeading /\ (has_link toks \/ has_block toks)
  | _ => False
  end.

(** An error that names an actual token of the text: its kind and its span. *)
Definition genuine (toks : list xtoken) (e : perr) : Prop :=
  exists t, In t toks /\ pe_token e = t_token t /\ pe_start e = t_start t /\ pe_end e = t_end t.

(** The kind of block a partial element belongs in. *)
Definition pkind (p : partial) : accepts :=
  match p with
  | PListItem _ => APListItem | PTableRow _ => APTableRow | PTableCell _ => APTableCell
  | PTab _ => APTab | PRubyText _ _ => APRuby
  end.
(** The partial elements that may belong somewhere inside a finished element. *)
Definition opens (e : element) : list accepts :=
  match e with
  | EList _ _ _ => [APListItem]
  | ETable _ _ => [APTableRow; APTableCell]
  | ETabView _ => [APTab]
  | EContainer CRuby _ _ => [APRuby]
  | EPartial (PTableRow _) | EPartial (PTableCell _) => [APTableCell]
  | _ => []
  end.

(** Where the text of a text element can come from: the source, one of the parser's own fixed
    strings, or a character the author asked for with [[char ..]]. *)
Definition fixed_texts : list str :=
  [[8212%N]; [171%N]; [187%N]; lit "later."; lit "<INCLUDED PAGE (ELEMENTS)>"].
Definition text_origin (E : env) (s : str) : Prop :=
  substr s (en_text E) \/ In s fixed_texts \/ (exists name, en_entity E name = Some s) \/ (exists c, s = [c]).
(** May stand in a paragraph (or is an unfinished element, which says nothing). *)
Definition inline_element (e : element) : Prop := paragraph_safe e <> Some false.
Definition cell_spans (c : table_cell) : Prop := (1 <= tc_column_span c)%N.

(** The containers only a block makes. *)
Definition block_container (ct : container_type) : bool :=
  match ct with
  | CSpan | CDiv | CMark | CInsertion | CDeletion | CHidden | CInvisible | CSize | CRuby | CRubyText => true
  | _ => false
  end.
(** What holds of every element of a parsed page, by itself.  [nb] is the number of
    bibliographies, [fb] says whether the page has its own footnote block and [infn] whether we are
    in a footnote. *)
Definition element_ok (E : env) (toks : list xtoken) (nb : nat) (fb infn : bool) (e : element) : Prop :=
  Forall (attr_map_ok E) (attrs_of e) /\
  match e with
  | EContainer (CHeader h) a _ => 1 <= hd_level h <= 6 /\ heading_token toks h /\ a = []
  | EAnchorName id => (exists s, substr s (en_text E) /\ id = stored_id E s) /\ (has_token toks TLeftBlockAnchor \/ has_block toks)
  | EContainer CParagraph _ es => Forall inline_element es
  | EText s => text_origin E s
  | ERaw s => substr s (en_text E) \/ s = lit "@" \/ s = lit "@@"
  | EEmail s => substr s (en_text E)
  | EHtml s | EStyle s | ECode s _ | EMath _ s => substr s (en_text E) /\ has_block toks
  | EMathInline s => substr s (en_text E) /\ has_token toks TLeftMath
  | ETable _ rows => Forall (fun r => Forall cell_spans (tr_cells r)) rows
  | EPartial (PTableRow r) => Forall cell_spans (tr_cells r)
  | EPartial (PTableCell c) => cell_spans c
  | ELink _ link extra label _ => has_link toks \/ (extra = None /\ label <> LabelPage /\ exists u, link = LUrl u)
  | EFootnote => infn = false /\ has_block toks
  | EFootnoteBlock _ _ => fb = true
  | EBibliographyBlock i _ _ => i < nb /\ has_block toks
  | EBibliographyCite _ _ => has_token toks TLeftParentheses \/ has_block toks
  | ELineBreaks n => (1 <= n <= 100)%N /\ has_block toks
  | EIframe _ url => is_url url = true /\ has_block toks
  | EEmbed e => match e with EmYoutube _ | EmVimeo _ => has_block toks | _ => False end
  | EHorizontalRule => line_token toks TTripleDash
  | EClearFloat c => line_token toks (clear_token c)
  | EDefinitionList _ => line_token toks TColon
  | EContainer ct _ _ => block_container ct = true -> has_block toks
  | EDate _ _ _ | EEquationReference _ | EUser _ _ | ECollapsible _ _ _ _ _ _ _ | ETabView _
  | ETableOfContents _ _ | ERadioButton _ _ _ | ECheckBox _ _ | EModule _ | EAnchor _ _ _
  | EImage _ _ _ _ | EInclude _ _ _ _ => has_block toks
  | _ => True
  end.
