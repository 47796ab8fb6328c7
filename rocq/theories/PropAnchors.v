(** PropAnchors.v -- C81: anchor blocks lead where they say. *)
From Verif Require Import Base BaseLemmas Strings StringsLemmas SpecStrings Links Attr Html SpecHtml HtmlLemmas Tree Text PState Parse SpecPage ParseInv Render VerbatimLex BlocksLex BlocksVerbatim BlocksGroup BlocksRender BlocksText ParseTestEnv RenderTestEnv PropParse PropRender PropBlocks.
From Verif Require Import SpecBlocks.

(** *** C81: anchor blocks lead where they say *)
(** Take any address outside (that starts with one of the 19 absolute_starts of SpecBlocks.v, as "https://"
    or "mailto:", and goes on with anything but a carriage return), any place on the page (a number sign and
    anything) or the idiom "javascript:;", and put it as the href of an anchor block, [[a]] or
    [[anchor]] in any case, around text, blocks, links and whatever else stands within a paragraph.  The page
    is read without an error and shown as one link: its href is that address, letter by letter as HTML
    escapes it, it opens a new tab exactly if the block is written with a star, and what is shown in it is what stands in the block, where it stands.  The pages and
    addresses the page is said to link to are those of what stands in the block. *)
Theorem C81_anchor : forall E R n (tab : bool) v name inside closing, leads_away v -> ~ In 13%N v ->
  In (slower name) [lit "a"; lit "anchor"] -> In (slower closing) [lit "a"; lit "anchor"] ->
  apart inside -> (forall x, In x inside -> good_inline (en_entity E) x /\ inline_height x < 99) ->
  en_text E = (if tab then lit "[[*" else lit "[[") ++ name ++ html " href='" ++ quote_inside v ++ html "']]" ++ flat_map inline_source inside ++ lit "[[/" ++ closing ++ lit "]]" -> 1 <= n ->
  (forall s, re_normalize R s = en_normalize E s) -> (forall c, is_alnum c = true -> re_word R c = true) ->
  let own := match en_category E with Some c => c | None => lit "_default" end in
  let links := flat_map (inline_links (en_tags E) own (re_normalize R)) inside in
  exists toks t, parsed E toks t /\ tr_errors t = [] /\
    html_render R n t = Html (html "<wj-body class='wj-body'><p><a class='wj-anchor'" ++ (if tab then html " target='_blank'" else []) ++ html " href='" ++ escape v ++ html "'>" ++
      flat_map (inline_html (en_tags E) own (en_entity E) dummy_avatar (re_normalize R) (re_site R) (re_page_exists R) get_page_title) inside ++ html "</a></p></wj-body>")
      (map (fun l => PR (fst l) (snd l)) (internal_links links)) (external_links links).
Proof.
  intros E R n tab v name inside closing Hv Hr Ho Hc Hap Hin He Hn Hno Hw own links. set (x := Box (Anchored tab) name [(lit "href", v)] inside closing).
  assert (Hx : good_inline (en_entity E) x).
  { apply good_box. split; [exact Ho|]. split; [exact Hc|]. split.
    - split; [constructor; [intros []|constructor]|]. intros k w [Y|[]]. apply pair_equal_spec in Y as [<- <-]. split; [|exact Hr]. right. split; [left; reflexivity|exact Hv].
    - split; [discriminate|]. split; [exact Hap|]. apply Forall_forall. intros y Hy. apply (Hin y Hy). }
  destruct (C74_blocks E R n [Par [x]]) as (toks & t & H1 & H2 & _ & _ & _ & _ & H3); auto.
  - intros b [<-|[]]. split.
    + cbn [good_block]. split; [discriminate|]. split; [apply apart_one; discriminate|]. constructor; [exact Hx|constructor].
    + assert (Y : inline_height x < 100).
      { unfold x. cbn [inline_height]. clear -Hin. apply (Nat.succ_lt_mono _ 99). induction inside as [|y l IH]; [lia|]. pose proof (proj2 (Hin y (or_introl eq_refl))). apply Nat.max_lub_lt; [assumption|]. apply IH. intros z Hz. apply Hin. right. exact Hz. }
      cbn [block_height]. unfold highest. cbn [fold_right]. lia.
  - rewrite He. unfold source, x. cbn [block_source flat_map inline_source]. unfold attributes_source, attribute_source. cbn [flat_map fst snd]. rewrite !app_nil_r, <- !app_assoc. reflexivity.
  - exists toks, t. split; [exact H1|]. split; [exact H2|]. rewrite H3. fold own. f_equal.
    + unfold page_html, x. cbn [flat_map block_html]. change (left_of (en_tags E) own [Box (Anchored tab) name [(lit "href", v)] inside closing]) with [Box (Anchored tab) name [(lit "href", v)] inside closing].
      cbn [flat_map inline_html box_element fst snd]. rewrite !app_nil_r.
      set (u := flat_map _ inside). clearbody u. unfold SpecBlocks.element, open_tag.
      replace (merged ((lit "class", lit "wj-anchor") :: if tab then [(lit "target", lit "_blank")] else []) (shown_attributes [(lit "href", v)])) with ((lit "class", lit "wj-anchor") :: (if tab then [(lit "target", lit "_blank")] else []) ++ [(lit "href", v)]) by (destruct tab; reflexivity).
      cbn [flat_map attribute_html fst snd]. rewrite flat_map_app. cbn [flat_map attribute_html fst snd]. rewrite !app_nil_r. destruct v as [|c v]; [destruct Hv as [(sc & r & Hs & Y)|[(r & Y)|Y]]; [|discriminate..]; assert (Z : forallb (fun x => negb (seqb x [])) absolute_starts = true) by (vm_compute; reflexivity); rewrite forallb_forall in Z; specialize (Z sc Hs); destruct sc; discriminate|].
      change (attribute_html (lit "href", c :: v)) with (html " href='" ++ escape (c :: v) ++ html "'"). change (attribute_html (lit "class", lit "wj-anchor")) with (html " class='wj-anchor'").
      set (e := escape (c :: v)). clearbody e. rewrite <- !app_assoc. destruct tab; reflexivity.
    + unfold page_links, x. cbn [flat_map block_links]. change (left_of (en_tags E) own [Box (Anchored tab) name [(lit "href", v)] inside closing]) with [Box (Anchored tab) name [(lit "href", v)] inside closing].
      cbn [flat_map inline_links]. rewrite !app_nil_r. reflexivity.
    + unfold page_links, x. cbn [flat_map block_links]. change (left_of (en_tags E) own [Box (Anchored tab) name [(lit "href", v)] inside closing]) with [Box (Anchored tab) name [(lit "href", v)] inside closing].
      cbn [flat_map inline_links]. rewrite !app_nil_r. reflexivity.
Qed.
Print Assumptions C81_anchor.

(** What stands in the anchor may be any text: then the page links nowhere, as far as it says. *)
Example C81_case : let v := lit "https://example.com/?a=1&b=2" in let inside := [Text (lit "see "); Box Strong (lit "b") [] [Text (lit "this")] (lit "b"); Break; PageLink false (Page None None (lit "start") None None) Bare; Character (lit "amp")] in
  (leads_away v /\ ~ In 13%N v) /\ (apart inside /\ forall x, In x inside -> good_inline (fun _ => Some [38%N]) x /\ inline_height x < 99) /\
  lit "[[*" ++ lit "A" ++ html " href='" ++ quote_inside v ++ html "']]" ++ flat_map inline_source inside ++ lit "[[/" ++ lit "Anchor" ++ lit "]]" = html "[[*A href='https://example.com/?a=1&b=2']]see [[b]]this[[/b]]
[[[start]]][[char amp]][[/Anchor]]" /\
  html "<wj-body class='wj-body'><p><a class='wj-anchor'" ++ html " target='_blank'" ++ html " href='" ++ escape v ++ html "'>" ++ flat_map (inline_html [] [] (fun _ => Some [38%N]) [] (fun s => s) [] (fun _ _ => true) (fun _ _ => [])) inside ++ html "</a></p></wj-body>" =
  html "<wj-body class='wj-body'><p><a class='wj-anchor' target='_blank' href='https://example.com/?a=1&amp;b=2'>see <strong>this</strong><br><a href='/start' class='wj-link wj-link-internal' data-link-type='page'>start</a>&amp;</a></p></wj-body>" /\
  flat_map (inline_links [] [] (fun s => s)) inside = [Internal None (lit "start")].
Proof.
  intros v inside. conj; [apply away_sound; vm_compute; reflexivity|apply not_mem; vm_compute; reflexivity|apply apart_sound; vm_compute; reflexivity| |vm_compute; reflexivity..].
  assert (X : forallb (fun x => inline_b (fun _ => Some [38%N]) x && (inline_height x <? 99)) inside = true) by (vm_compute; reflexivity). rewrite forallb_forall in X.
  intros x Hx. specialize (X x Hx). apply andb_true_iff in X as [X Y]. split; [apply inline_sound; exact X|apply Nat.ltb_lt; exact Y].
Qed.
(** So an address an anchor block leads to is not among those the page is said to link to, as it is when the
    link is written with one bracket (C75_bracket_link). *)
Theorem C81_unrecorded_refuted : exists E toks t, parsed E toks t /\ en_text E = html "[[a href='https://example.com']]x[[/a]]" /\ tr_errors t = [] /\
  html_render release_renv 1 t = Html (html "<wj-body class='wj-body'><p><a class='wj-anchor' href='https://example.com'>x</a></p></wj-body>") [] [].
Proof.
  set (w := html "[[a href='https://example.com']]x[[/a]]"). enough (X : exists toks t, parsed (test_env w) toks t /\ (tr_errors t = [] /\ html_render release_renv 1 t = Html (html "<wj-body class='wj-body'><p><a class='wj-anchor' href='https://example.com'>x</a></p></wj-body>") [] [])).
  - destruct X as (toks & t & H1 & H2 & H3). exists (test_env w), toks, t. split; [exact H1|]. split; [reflexivity|]. split; [exact H2|exact H3].
  - unfold w. clear w. page (html "[[a href='https://example.com']]x[[/a]]").
Qed.
Print Assumptions C81_unrecorded_refuted.
