(** SpecShown.v -- what the text of an HTML page should be (C66). *)
From Verif Require Import Base Strings Links Attr Tree Text Parse SpecParse SpecReader SpecText.

(** The text of a page as a browser reads it: the characters between the tags. *)
Definition page_text (ts : list htoken) : str := flat_map (fun t => match t with TkChar c => [c] | _ => [] end) ts.
(** a is b with some characters left out. *)
Inductive subseq {A} : list A -> list A -> Prop :=
| ss_nil : subseq [] []
| ss_keep x a b : subseq a b -> subseq (x :: a) (x :: b)
| ss_skip x a b : subseq a b -> subseq a (x :: b).

Section Words.
Variable site : str.                            (* the site of the page *)
Variable date_format : date_item -> option str. (* how a date is written *)
Variable t : tree.                              (* where the footnotes and so on are kept *)
(** The text of contents kept elsewhere in the tree, under the variables set. *)
Variable elsewhere : list (str * str) -> list element -> str.
Definition given (o : option str) : str := match o with Some s => s | None => [] end.
(** The text of an element, in the order of the page; [vars] are the variables set, innermost first.
    Hidden text is part of the page (a style hides it). *)
Fixpoint words (vars : list (str * str)) (e : element) : str :=
  let all := flat_map (words vars) in
  match e with
  | EContainer _ _ es | EAnchor _ _ es | EColor _ es => all es
  | ECollapsible es _ _ show hide _ bottom => given show ++ given hide ++ all es ++ (if bottom then given hide else [])
  | EInclude _ v _ es => flat_map (words (v ++ vars)) es
  | ETable _ rows => flat_map (fun r => flat_map (fun c => all (tc_elements c)) (tr_cells r)) rows
  | ETabView tabs => flat_map tab_label tabs ++ flat_map (fun t => all (tab_elements t)) tabs
  | EList _ _ items =>
      flat_map (fun i => match i with LIElements _ es => all es | LISubList x => words vars x end) items
  | EDefinitionList items => flat_map (fun d => all (df_key d) ++ all (df_value d)) items
  | EText s | ERaw s | EEmail s | EUser s _ | EMath _ s | EMathInline s | EEquationReference s => s
  | ECode s language => given language ++ s
  | EVariable name => variable_text vars name
  | ELink _ link _ label _ => label_text site link label
  | EDate d _ _ => match date_format d with Some s => s | None => lit "<ERROR>" end
  | ETableOfContents _ _ => elsewhere vars (tr_toc t)
  | EFootnoteBlock title false =>
      match tr_footnotes t with [] => [] | fs => given title ++ flat_map (elsewhere vars) fs end
  | EBibliographyBlock index title false =>
      given title ++ flat_map (fun entry => elsewhere vars (snd entry)) (nth index (tr_bibs t) [])
  | _ => []
  end.
End Words.
(** The text of a list of elements with everything shown in it, references inside one another up to
    [depth] times. *)
Fixpoint words_in (site : str) (df : date_item -> option str) (t : tree) (depth : nat) (vars : list (str * str)) (es : list element) : str :=
  match depth with
  | 0 => []
  | S d => flat_map (words site df t (words_in site df t d) vars) es
  end.
(** Elements to which the renderer adds text of its own. *)
Definition adorned (t : tree) (e : element) : Prop :=
  match e with
  | EContainer CRubyText _ _ | ECollapsible _ _ _ _ _ _ _ | EImage _ _ _ _ | EModule _ | EStyle _ | ETableOfContents _ _
  | EFootnote | EBibliographyCite _ _ | EBibliographyBlock _ _ false | EMath _ _ | EMathInline _ => True
  | EFootnoteBlock _ false => tr_footnotes t <> []
  | _ => False
  end.
