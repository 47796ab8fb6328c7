(** PropBacklinks.v -- C68: the links of a page and its backlinks. *)
From Verif Require Import Base BaseLemmas Strings StringsLemmas Links SpecLinks LinksLemmas PropLinks Attr SpecAttr AttrLemmas Html SpecHtml HtmlLemmas PropHtml Preproc Includes Lexer Depth Tree Text Toc PState Blocks Rules Parse
  SpecParse SpecPage ParseInv TreeLemmas ParseLemmas ParseTestEnv PropParse PropPage
  Render SpecReader SpecRender RenderLemmas RenderSafe RenderDom RenderEnds RenderNames RenderTestEnv PropRender RenderView SpecText SpecShown RenderWords PropShown RenderNumbers SpecNumbers SpecBacklinks RenderLinks.

Lemma page_linked E toks t R (ok : Prop) n d : parsed E toks t -> mathml_linkless R -> (ok -> forall x, here t x -> ~ with_tooltip x) -> (ok -> d = n) ->
  linked R t ok (h_ref R (tr_toc t) (tr_footnotes t) (tr_bibs t) n (tr_elements t)) (links_in t d (tr_elements t)).
Proof.
  intros Hp Hm Hk Hd. apply k_ref; auto.
  - intros tg a es Hx. refine (map_distinct E toks t Hp _ a Hx _). left. auto.
  - intros x Hx L HL y Hy. apply referenced_in in HL as [[-> _]|HL]; [right; auto|]. left. exists L. split; auto. right. exact HL.
  - intros x Hx. left. exists (tr_elements t). split; auto. left. auto.
Qed.
Lemma links_body ns : seen_links (dom_tokens (dom_of (NTag (lit "wj-body") (cls "wj-body") (Some ns)))) = node_links ns.
Proof.
  assert (X : dom_tokens (dom_of (NTag (lit "wj-body") (cls "wj-body") (Some ns))) = node_tokens [NTag (lit "wj-body") (cls "wj-body") (Some ns)]).
  { unfold node_tokens. cbn [map flat_map]. rewrite app_nil_r. reflexivity. }
  rewrite X. fold (node_links [NTag (lit "wj-body") (cls "wj-body") (Some ns)]). rewrite links_tag by reflexivity. reflexivity.
Qed.
Lemma page_backlinks E toks t R n body i e : parsed E toks t ->
  proper_names t -> css_contained R t -> mathml_contained R -> html_render R n t = Html body i e ->
  exists ns c, h_ref R (tr_toc t) (tr_footnotes t) (tr_bibs t) n (tr_elements t) hctx_new = Done ns c /\ seen_links (html_tokens body) = node_links ns /\
    i = hx_internal c /\ e = hx_external c.
Proof.
  intros Hp Hn Hc Hm Hr. destruct (page_nodes _ _ _ _ _ _ _ _ Hp Hn Hc Hm Hr) as (ns & c & H & E1). exists ns, c. rewrite E1, links_body. split; auto. split; auto.
  unfold html_render, body_nodes in Hr. destruct (tag_with R "wj-body" (cls "wj-body") (h_ref R (tr_toc t) (tr_footnotes t) (tr_bibs t) n (tr_elements t)) hctx_new) as [ns' c'|w|] eqn:Eb; try discriminate.
  apply tag_with_inv in Eb as (b & Eb & _). rewrite H in Eb. injection Eb as _ <-. destruct (write_nodes [] ns'); [|discriminate]. injection Hr as _ <- <-. auto.
Qed.
(** The links a browser finds on the page are those of a list of link elements of the page, each with
    the address of the element and the class that tells what it is (for a page: whether it exists),
    and the pages and addresses recorded are just what these lead to, in order, one for each.  All
    link elements shown on the page are among them (in order; [depth]: through so many blocks of
    footnotes, bibliographies and tables of contents). *)
Theorem C68_backlinks : forall E toks t R n body i e depth, parsed E toks t ->
  proper_names t -> css_contained R t -> mathml_contained R -> mathml_linkless R -> html_render R n t = Html body i e ->
  exists ls, Forall (fun x => here t x /\ exists ty lk ex lb tg, x = ELink ty lk ex lb tg) ls /\
    seen_links (html_tokens body) = map (link_view R) ls /\ i = flat_map link_pages ls /\ e = flat_map link_addresses ls /\
    subseq (links_in t depth (tr_elements t)) ls.
Proof.
  intros E toks t R n body i e depth Hp Hn Hc Hm Ha Hr. destruct (page_backlinks _ _ _ _ _ _ _ _ Hp Hn Hc Hm Hr) as (ns & c & H & -> & -> & ->).
  apply (page_linked E toks t R False n depth) in H as (_ & ls & H1 & H2 & H3 & H4 & H5 & _); auto; try tauto; [|constructor].
  exists ls. cbn in H3, H4. auto.
Qed.
Print Assumptions C68_backlinks.
(** If no footnote or bibliography mark shows its text a second time, that is all of them. *)
Theorem C68_backlinks_exact : forall E toks t R n body i e, parsed E toks t ->
  proper_names t -> css_contained R t -> mathml_contained R -> mathml_linkless R -> html_render R n t = Html body i e ->
  (forall x, here t x -> ~ with_tooltip x) -> let ls := links_in t n (tr_elements t) in
  seen_links (html_tokens body) = map (link_view R) ls /\ i = flat_map link_pages ls /\ e = flat_map link_addresses ls.
Proof.
  intros E toks t R n body i e Hp Hn Hc Hm Ha Hr Hk. destruct (page_backlinks _ _ _ _ _ _ _ _ Hp Hn Hc Hm Hr) as (ns & c & H & -> & -> & ->).
  apply (page_linked E toks t R True n n) in H as (_ & ls & H1 & H2 & H3 & H4 & _ & H5); auto; [|constructor].
  cbn in H3, H4. rewrite <- (H5 I). auto.
Qed.
Print Assumptions C68_backlinks_exact.
(** So every link element anywhere in the page leaves its target in the backlinks. *)
Lemma links_child t f e x z : In x (children e) -> In z (links t f x) -> In z (links t f e).
Proof.
  intros Hx Hz. assert (A : forall l, In x l -> In z (flat_map (links t f) l)) by (intros l Hl; apply in_flat_map; eauto).
  destruct e; cbn [children] in Hx; try contradiction; cbn [links]; auto.
  - apply in_flat_map in Hx as (r & Hr & Hx). apply in_flat_map in Hx as (c & Hc & Hx). apply in_flat_map. exists r. split; auto. apply in_flat_map. exists c. auto.
  - apply in_flat_map in Hx as (tb & Ht & Hx). apply in_flat_map. exists tb. auto.
  - apply in_flat_map in Hx as (it & Hi & Hx). apply in_flat_map. exists it. split; auto. destruct it; auto. destruct Hx as [->|[]]. exact Hz.
  - apply in_flat_map in Hx as (d & Hd & Hx). apply in_flat_map. exists d. split; auto. apply in_or_app. apply in_app_or in Hx as [Hx|Hx]; auto.
  - destruct p as [[|]|r|c|b|]; cbn [partial_children item_children] in Hx; auto.
    + destruct Hx as [->|[]]. exact Hz.
    + apply in_flat_map in Hx as (c & Hc & Hx). apply in_flat_map. exists c. auto.
Qed.
Lemma links_occurs t f x e : occurs x e -> (exists ty lk ex lb tg, x = ELink ty lk ex lb tg) -> In x (links t f e).
Proof.
  intros Ho (ty & lk & ex & lb & tg & ->). remember (ELink ty lk ex lb tg) as x. induction Ho as [|e y Hin Ho IH].
  - subst. left. auto.
  - eapply links_child; [exact Hin|exact IH].
Qed.
Theorem C68_recorded : forall E toks t R n body i e ty lk ex lb tg, parsed E toks t ->
  proper_names t -> css_contained R t -> mathml_contained R -> mathml_linkless R -> html_render R n t = Html body i e ->
  occurs_in (ELink ty lk ex lb tg) (tr_elements t) -> let x := ELink ty lk ex lb tg in
  incl (pages_of lk) i /\ incl (addresses_of lk) e /\ In (link_view R x) (seen_links (html_tokens body)).
Proof.
  intros E toks t R n body i e ty lk ex lb tg Hp Hn Hc Hm Ha Hr (y & Hy & Ho). destruct (C68_backlinks _ _ _ _ _ _ _ _ 1 Hp Hn Hc Hm Ha Hr) as (ls & _ & -> & -> & -> & Hs).
  assert (S : forall (a b : list element) z, subseq a b -> In z a -> In z b).
  { induction 1; cbn; intuition. }
  assert (X : In (ELink ty lk ex lb tg) ls).
  { eapply S; [exact Hs|]. cbn [links_in]. apply in_flat_map. exists y. split; auto. apply links_occurs; auto. exists ty, lk, ex, lb, tg. auto. }
  cbn zeta. conj.
  - intros r Hin. apply in_flat_map. exists (ELink ty lk ex lb tg). auto.
  - intros u Hin. apply in_flat_map. exists (ELink ty lk ex lb tg). auto.
  - apply in_map. exact X.
Qed.
Print Assumptions C68_recorded.
(** But a link around an image is not recorded, nor is one written as an anchor, ... *)
Definition image_link_page : str := lit "[[image https://e.com/x.png link=""/p""]] [[a href=""/q""]]r[[/a]]".
Theorem C68_image_refuted : exists toks t body, parsed (test_env image_link_page) toks t /\ html_render release_renv 5 t = Html body [] [] /\
  values_of [lit "a"] (lit "href") (html_tokens body) = [lit "/p"; lit "/q"].
Proof.
  enough (X : exists toks t, parsed (test_env image_link_page) toks t /\ exists body, html_render release_renv 5 t = Html body [] [] /\
    values_of [lit "a"] (lit "href") (html_tokens body) = [lit "/p"; lit "/q"]).
  { destruct X as (toks & t & Hp & body & X). exists toks, t, body. auto. }
  page image_link_page. eauto 10.
Qed.
Print Assumptions C68_image_refuted.
(** ... and the entries of a table of contents are recorded as links to pages called #toc0, #toc1 ... *)
Definition toc_link_page : str := lit "[[toc]]
+ a".
Theorem C68_toc_refuted : exists toks t body, parsed (test_env toc_link_page) toks t /\ html_render release_renv 5 t = Html body [PR None (lit "#toc0")] [].
Proof.
  enough (X : exists toks t, parsed (test_env toc_link_page) toks t /\ exists body, html_render release_renv 5 t = Html body [PR None (lit "#toc0")] []).
  { destruct X as (toks & t & Hp & body & X). exists toks, t, body. auto. }
  page toc_link_page. eauto 10.
Qed.
Print Assumptions C68_toc_refuted.
Definition linking_page : str := lit "[[[p]]] ||[[[q|b]]]||[https://e.com/ c]||
[/r d][[footnote]][[[s]]][[/footnote]]".
Example C68_case : exists toks t, parsed (test_env linking_page) toks t /\ proper_names t /\ css_contained release_renv t /\ mathml_contained release_renv /\
  mathml_linkless release_renv /\ exists body, html_render release_renv 5 t =
    Html body [PR None (lit "p"); PR None (lit "q"); PR None (lit "r"); PR None (lit "s"); PR None (lit "s")] [lit "https://e.com/"] /\
  length (links_in t 1 (tr_elements t)) = 4 /\ length (links_in t 2 (tr_elements t)) = 5 /\ length (seen_links (html_tokens body)) = 6.
Proof.
  enough (X : exists toks t, parsed (test_env linking_page) toks t /\ easy_page t = true /\ exists body, html_render release_renv 5 t =
    Html body [PR None (lit "p"); PR None (lit "q"); PR None (lit "r"); PR None (lit "s"); PR None (lit "s")] [lit "https://e.com/"] /\
  length (links_in t 1 (tr_elements t)) = 4 /\ length (links_in t 2 (tr_elements t)) = 5 /\ length (seen_links (html_tokens body)) = 6).
  { destruct X as (toks & t & Hp & He & X). apply easy_page_ok in He as (H1 & H2 & H3). exists toks, t. conj; auto.
    intros out (f & b & src & Hf & _). discriminate Hf. }
  page linking_page. eauto 10.
Qed.
Definition exact_page : str := lit "[[[p]]]
* [[[q|b]]] [#top c]
[[toc]]
+ d".
Example C68_exact_case : exists toks t, parsed (test_env exact_page) toks t /\ proper_names t /\ css_contained release_renv t /\ mathml_contained release_renv /\
  mathml_linkless release_renv /\ (forall x, here t x -> ~ with_tooltip x) /\ exists body i e, html_render release_renv 5 t = Html body i e /\
  length (links_in t 5 (tr_elements t)) = 4.
Proof.
  enough (X : exists toks t, parsed (test_env exact_page) toks t /\ easy_page t = true /\
    forallb (fun x => match x with EFootnote | EBibliographyCite _ _ => false | _ => true end) (flat_map (flat_map flat) (tr_toc t :: page_lists t)) = true /\
    exists body i e, html_render release_renv 5 t = Html body i e /\ length (links_in t 5 (tr_elements t)) = 4).
  { destruct X as (toks & t & Hp & He & Hf & X). apply easy_page_ok in He as (H1 & H2 & H3). exists toks, t. conj; auto.
    - intros out (f & b & src & Hff & _). discriminate Hff.
    - intros x Hx. rewrite forallb_forall in Hf.
      assert (Y : In x (flat_map (flat_map flat) (tr_toc t :: page_lists t))).
      { apply in_flat_map. destruct Hx as [(es & Hes & Ho)|Ho]; [exists es|exists (tr_toc t)]; (split; [cbn; auto|apply occurs_in_flat; auto]). }
      apply Hf in Y. destruct x; cbn; auto; discriminate. }
  page exact_page. eauto 10.
Qed.
