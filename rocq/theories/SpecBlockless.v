(** SpecBlockless.v -- what a page without double brackets can have (C70). *)
From Verif Require Import Base Links Attr Tree SpecParse.

(** Elements that need no double brackets: text, formatting, links to addresses, lists, tables, definitions,
    rules, citations, and the footnote block every page has. *)
Definition bracket_free (x : element) : bool :=
  match x with
  | EText _ | ERaw _ | EEmail _ | EVariable _ | EColor _ _ | ETable _ _ | EList _ _ _ | EDefinitionList _
  | ELineBreak | EHorizontalRule | EClearFloat _ | EBibliographyCite _ _ | EFootnoteBlock _ _ => true
  | ELink _ link extra label _ => match link, extra, label with LUrl _, None, (LabelText _ | LabelUrl _) => true | _, _, _ => false end
  | EContainer ct _ _ =>
      match ct with
      | CBold | CItalics | CUnderline | CSuperscript | CSubscript | CStrikethrough | CMonospace
      | CAlign _ | CHeader _ | CParagraph | CBlockquote => true
      | _ => false
      end
  | _ => false
  end.
