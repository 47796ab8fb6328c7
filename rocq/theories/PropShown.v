(** PropShown.v -- C66: the text of the HTML page is the text of the document. *)
From Verif Require Import Base BaseLemmas Strings StringsLemmas Links SpecLinks LinksLemmas PropLinks Attr SpecAttr AttrLemmas Html SpecHtml HtmlLemmas PropHtml Preproc Includes Lexer Depth Tree Text Toc PState Blocks Rules Parse
  SpecParse SpecPage ParseInv TreeLemmas ParseLemmas ParseTestEnv PropParse PropPage
  Render SpecReader SpecRender RenderLemmas RenderSafe RenderDom RenderEnds RenderNames RenderTestEnv PropRender RenderView SpecText SpecShown RenderWords.

Lemma page_nodes E toks t R n body i e : parsed E toks t -> proper_names t -> css_contained R t -> mathml_contained R ->
  html_render R n t = Html body i e -> exists ns c, h_ref R (tr_toc t) (tr_footnotes t) (tr_bibs t) n (tr_elements t) hctx_new = Done ns c /\
  html_tokens body = dom_tokens (dom_of (NTag (lit "wj-body") (cls "wj-body") (Some ns))).
Proof.
  intros Hp Hn Hc Hm. unfold html_render. destruct (body_nodes R n t hctx_new) as [ns c|w|] eqn:Eb; try discriminate. rewrite write_nodes_dom. cbn [app].
  intros [= <- _ _]. unfold body_nodes in Eb.
  assert (HB : exists ns', ns = [NTag (lit "wj-body") (cls "wj-body") (Some ns')] /\ h_ref R (tr_toc t) (tr_footnotes t) (tr_bibs t) n (tr_elements t) hctx_new = Done ns' c).
  { unfold tag_with in Eb. destruct (re_debug R && _); [discriminate|]. unfold Render.bind in Eb. destruct (h_ref _ _ _ _ _ _ _) as [ns' c'|w|]; try discriminate.
    injection Eb as <- <-. eauto. }
  assert (HL : Forall (legit R t) ns).
  { eapply (makes_tag R t "wj-body"); [| | | |exact Eb]; try reflexivity.
    - right. eexists. split; [reflexivity|]. unfold legit_added. cbn. conj; auto. { repeat constructor. auto. } constructor; [|constructor]. apply oa_plain. cbn. auto.
    - apply page_makes; auto. right. left. auto. }
  destruct HB as (ns' & -> & Hr). exists ns', c. split; auto. apply Forall_inv in HL. apply (view_node E toks t R Hp Hn Hc Hm) in HL as (H3 & _). cbn [map flat_map]. rewrite app_nil_r.
  unfold html_tokens. rewrite (read_dom _ H3). reflexivity.
Qed.
(** Everything the document says is on the page, in order: the text of each element, of each tab,
    list item and table cell, the value of each variable, and, where the page has a block of
    footnotes, a bibliography or a table of contents, all that is in those ([depth]: however often
    such blocks refer to one another). *)
Theorem C66_no_text_lost : forall E toks t R n body i e depth, parsed E toks t ->
  proper_names t -> css_contained R t -> mathml_contained R -> html_render R n t = Html body i e ->
  subseq (shown (words_in (re_site R) (re_format R) t depth [] (tr_elements t))) (page_text (html_tokens body)).
Proof.
  intros E toks t R n body i e depth Hp Hn Hc Hm Hr. destruct (page_nodes _ _ _ _ _ _ _ _ Hp Hn Hc Hm Hr) as (ns & c & H & ->).
  pose proof (node_text_tag (lit "wj-body") (cls "wj-body") ns eq_refl) as X. unfold node_text in X at 1. cbn [map flat_map] in X. rewrite app_nil_r in X. rewrite X.
  apply (shows_ref R t n depth) in H. apply H.
Qed.
Print Assumptions C66_no_text_lost.
(** ... and if no element is of the kind that comes with text of its own, nothing else is. *)
Theorem C66_no_text_added : forall E toks t R n body i e, parsed E toks t ->
  proper_names t -> css_contained R t -> mathml_contained R -> html_render R n t = Html body i e ->
  (forall x, occurs_in x (tr_elements t) -> ~ adorned t x) ->
  page_text (html_tokens body) = shown (words_in (re_site R) (re_format R) t 1 [] (tr_elements t)).
Proof.
  intros E toks t R n body i e Hp Hn Hc Hm Hr Ha. destruct (page_nodes _ _ _ _ _ _ _ _ Hp Hn Hc Hm Hr) as (ns & c & H & ->).
  pose proof (node_text_tag (lit "wj-body") (cls "wj-body") ns eq_refl) as X. unfold node_text in X at 1. cbn [map flat_map] in X. rewrite app_nil_r in X. rewrite X.
  destruct n as [|n]; [discriminate|]. cbn [h_ref] in H. apply (shows_elements R t _ (fun _ _ => [])) with (ok := True) in H; [|exact (shows_ref R t n 0)|auto].
  apply H. exact I.
Qed.
Print Assumptions C66_no_text_added.
(** A check that a page meets the hypotheses. *)
Definition easy_page (t : tree) : bool :=
  forallb (fun x => match x with EStyle _ => false | _ => forallb (fun m => forallb (fun kv => attr_nameb (fst kv)) m) (attrs_of x) end)
    (flat_map (flat_map flat) (page_lists t)).
Lemma easy_page_ok t : easy_page t = true -> proper_names t /\ css_contained release_renv t /\ mathml_contained release_renv.
Proof.
  intro Hs. unfold easy_page in Hs. rewrite forallb_forall in Hs.
  assert (Y : forall x, on_page t x -> In x (flat_map (flat_map flat) (page_lists t))).
  { intros x (es & Hes & Ho). apply in_flat_map. exists es. split; auto. apply occurs_in_flat. auto. }
  conj; auto.
  - intros x m k v Hx Hm Hk. specialize (Hs x (Y x Hx)). destruct x; try discriminate; rewrite forallb_forall in Hs; specialize (Hs m Hm); rewrite forallb_forall in Hs;
      apply attr_nameb_ok; exact (Hs _ Hk).
  - intros src out Hx. specialize (Hs _ (Y _ Hx)). discriminate.
  - intros out (f & b & src & Hf & _). discriminate Hf.
Qed.
Definition words_page : str := lit "[[tabview]]
[[tab One]]
||a||b||
[[/tab]]
[[tab Two]]
* c
* d
[[/tab]]
[[/tabview]]
[[collapsible show=""open""]]e[[/collapsible]]
[[[p|f]]] g[[footnote]]h[[/footnote]] [[hidden]]i[[/hidden]]".
Example C66_case : exists toks t, parsed (test_env words_page) toks t /\ proper_names t /\ css_contained release_renv t /\ mathml_contained release_renv /\
  exists body i e, html_render release_renv 5 t = Html body i e /\
  words_in (re_site release_renv) (re_format release_renv) t 2 [] (tr_elements t) = lit "OneTwoabcdopenef g ih".
Proof.
  enough (X : exists toks t, parsed (test_env words_page) toks t /\ easy_page t = true /\ exists body i e, html_render release_renv 5 t = Html body i e /\
    words_in (re_site release_renv) (re_format release_renv) t 2 [] (tr_elements t) = lit "OneTwoabcdopenef g ih").
  { destruct X as (toks & t & Hp & He & X). apply easy_page_ok in He as (H1 & H2 & H3). exists toks, t. auto 6. }
  page words_page. eauto 6.
Qed.
Definition bare_page : str := lit "**a** [[span class=""c""]]b < & d[[/span]]
* e
 * f [[[p|g]]]
[[code]]
h
[[/code]]".
Example C66_exact_case : exists toks t, parsed (test_env bare_page) toks t /\ proper_names t /\ css_contained release_renv t /\ mathml_contained release_renv /\
  (forall x, occurs_in x (tr_elements t) -> ~ adorned t x) /\
  exists body i e, html_render release_renv 5 t = Html body i e /\ page_text (html_tokens body) = lit "a b < & def gh".
Proof.
  enough (X : exists toks t, parsed (test_env bare_page) toks t /\ easy_page t = true /\
    forallb (fun x => match x with EText _ | ELink _ _ _ _ _ | EList _ _ _ | ECode _ _ | ELineBreak | EContainer (CBold | CSpan | CParagraph) _ _ => true
      | EFootnoteBlock _ _ => match tr_footnotes t with [] => true | _ => false end | _ => false end) (flat_map flat (tr_elements t)) = true /\
    exists body i e, html_render release_renv 5 t = Html body i e /\ page_text (html_tokens body) = lit "a b < & def gh").
  { destruct X as (toks & t & Hp & He & Hf & X). apply easy_page_ok in He as (H1 & H2 & H3). exists toks, t. conj; auto.
    intros x Hx. apply occurs_in_flat in Hx. rewrite forallb_forall in Hf. apply Hf in Hx. destruct x; cbn; auto; try discriminate Hx.
    - destruct ctype; auto; discriminate.
    - destruct hide; auto. destruct (tr_footnotes t); [tauto|discriminate]. }
  page bare_page. eauto 6.
Qed.
