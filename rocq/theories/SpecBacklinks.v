(** SpecBacklinks.v -- the links of a page and what is recorded of them (C68). *)
From Verif Require Import Base Strings Links SpecLinks Attr Tree Parse SpecParse Render SpecReader SpecRender.

(** An address that begins with a scheme of the list. *)
Definition has_scheme (u : str) : bool := existsb (fun sc => starts_with sc u) safe_schemes.
Definition no_slash (u : str) : str := match u with c :: r => if ceqb c 47 then r else u | [] => u end.
(** The pages and the outside addresses a link leads to: javascript:; leads nowhere; of another address
    one leading slash is dropped, and if it then has no scheme it is taken as the name of a page. *)
Definition pages_of (link : link_location) : list page_ref :=
  match link with
  | LPage r => [r]
  | LUrl u => if seqb u (lit "javascript:;") || has_scheme (no_slash u) then [] else [PR None (no_slash u)]
  end.
Definition addresses_of (link : link_location) : list str :=
  match link with
  | LPage r => []
  | LUrl u => if negb (seqb u (lit "javascript:;")) && has_scheme (no_slash u) then [no_slash u] else []
  end.
Definition link_pages (x : element) : list page_ref := match x with ELink _ l _ _ _ => pages_of l | _ => [] end.
Definition link_addresses (x : element) : list str := match x with ELink _ l _ _ _ => addresses_of l | _ => [] end.
(** The class that says what kind of link it is. *)
Definition page_there (R : renv) (r : page_ref) : bool :=
  re_page_exists R (match pr_site r with Some s => s | None => re_site R end) (pr_page r).
Definition class_of (R : renv) (ty : link_type) (link : link_location) : str :=
  lit "wj-link " ++
  lit (match link with
       | LPage r => if page_there R r then "wj-link-internal" else "wj-link-internal wj-link-missing"
       | LUrl u => if seqb u (lit "javascript:;") || starts_with (lit "#") u then "wj-link-anchor"
                   else if starts_with (lit "/") u then "wj-link-internal" else "wj-link-external"
       end) ++
  match ty with LTInterwiki => lit " wj-link-interwiki" | _ => [] end.
(** A link as a browser reads it: its address and its class. *)
Definition link_view (R : renv) (x : element) : str * str :=
  match x with
  | ELink ty link extra _ _ =>
      (shown (match link_href R link with Some u => u | None => [] end ++ match extra with Some s => s | None => [] end), class_of R ty link)
  | _ => ([], [])
  end.
(** The links a browser finds: the a tags with a class that begins with wj-link. *)
Definition attr_of (name : str) (attrs : list (str * str)) : str :=
  match find (fun kv => seqb (fst kv) name) attrs with Some kv => snd kv | None => [] end.
Definition seen_link (tk : htoken) : list (str * str) :=
  match tk with
  | TkOpen tag attrs => if seqb tag (lit "a") && starts_with (lit "wj-link ") (attr_of (lit "class") attrs)
                        then [(attr_of (lit "href") attrs, attr_of (lit "class") attrs)] else []
  | _ => []
  end.
Definition seen_links (ts : list htoken) : list (str * str) := flat_map seen_link ts.
Definition mathml_linkless (R : renv) : Prop := forall out, mathml_output R out -> seen_links (html_tokens out) = [].

Section Links.
Variable t : tree.                            (* where the footnotes and so on are kept *)
Variable elsewhere : list element -> list element.
(** The link elements in an element, in the order of the page. *)
Fixpoint links (e : element) : list element :=
  let all := flat_map links in
  match e with
  | ELink _ _ _ _ _ => [e]
  | EContainer _ _ es | EAnchor _ _ es | EColor _ es | ECollapsible es _ _ _ _ _ _ | EInclude _ _ _ es => all es
  | ETable _ rows => flat_map (fun r => flat_map (fun c => all (tc_elements c)) (tr_cells r)) rows
  | ETabView tabs => flat_map (fun t => all (tab_elements t)) tabs
  | EList _ _ items => flat_map (fun i => match i with LIElements _ es => all es | LISubList x => links x end) items
  | EDefinitionList items => flat_map (fun d => all (df_key d) ++ all (df_value d)) items
  | EPartial p =>   (* never rendered *)
      match p with
      | PListItem (LIElements _ es) | PRubyText _ es => all es
      | PListItem (LISubList x) => links x
      | PTableRow r => flat_map (fun c => all (tc_elements c)) (tr_cells r)
      | PTableCell c => all (tc_elements c)
      | PTab b => all (tab_elements b)
      end
  | ETableOfContents _ _ => elsewhere (tr_toc t)
  | EFootnoteBlock _ false => flat_map elsewhere (tr_footnotes t)
  | EBibliographyBlock index _ false => flat_map (fun entry => elsewhere (snd entry)) (nth index (tr_bibs t) [])
  | _ => []
  end.
End Links.
(** The links of a list of elements and of what is shown in it, up to [depth] levels of blocks that
    show contents kept elsewhere. *)
Fixpoint links_in (t : tree) (depth : nat) (es : list element) : list element :=
  match depth with
  | 0 => []
  | S d => flat_map (links t (links_in t d)) es
  end.
(** Marks that show the text of a footnote or of a bibliography entry beside them. *)
Definition with_tooltip (e : element) : Prop := match e with EFootnote | EBibliographyCite _ _ => True | _ => False end.
