(** SpecNumbers.v -- the numbers a browser reads from a page (C67). *)
From Verif Require Import Base Strings Render SpecReader SpecRender.

(** The values of an attribute on the start tags with one of these names, in order. *)
Definition values_of (tags : list str) (attr : str) (ts : list htoken) : list str :=
  flat_map (fun tk => match tk with
    | TkOpen tag attrs => if smem tag tags then map snd (filter (fun kv => seqb (fst kv) attr) attrs) else []
    | _ => []
    end) ts.
Definition heading_tags : list str := map lit ["h1"; "h2"; "h3"; "h4"; "h5"; "h6"]%string.
Definition heading_ids : list htoken -> list str := values_of heading_tags (lit "id").
Definition mark_tags : list str := [lit "wj-footnote-ref-marker"].
Definition footnote_marks : list htoken -> list str := values_of mark_tags (lit "data-id").
(** MathML contains no headings and no footnote marks. *)
Definition mathml_apart (R : renv) : Prop := forall out tag attrs, mathml_output R out ->
  In (TkOpen tag attrs) (html_tokens out) -> ~ In tag (heading_tags ++ mark_tags).
