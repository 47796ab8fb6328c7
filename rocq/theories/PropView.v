(** PropView.v -- theorems about what a browser reads of a rendered page: C58 (the page is read back as
    it was meant), C59 (tags and attributes), C60 (scripts and frames), C61 (links). *)
From Verif Require Import Base BaseLemmas Strings StringsLemmas Links SpecLinks LinksLemmas PropLinks Attr SpecAttr AttrLemmas Html SpecHtml HtmlLemmas PropHtml Preproc Includes Lexer Depth Tree Text Toc PState Blocks Rules Parse
  SpecParse SpecPage ParseInv TreeLemmas ParseLemmas ParseTestEnv PropParse PropPage
  Render SpecReader SpecRender RenderLemmas RenderSafe RenderDom RenderEnds RenderNames RenderTestEnv PropRender RenderView.

(** *** C58: the page is read as it was written *)
(** The body is the text of a tree of tags, a browser's tokenizer reads exactly that tree from it,
    ends where it began (nothing after the body is swallowed) and every tag is closed in order.
    "_partial": the names after data- and aria- must be proper names, which the parser does not
    check (next theorem); CSS and MathML come from other libraries. *)
Theorem C58_reads_back_partial : forall E toks t R n body i e, parsed E toks t ->
  proper_names t -> css_contained R t -> mathml_contained R -> html_render R n t = Html body i e ->
  complete body /\ nested (html_tokens body) /\
  exists d, readable d /\ body = dom_text d /\ html_tokens body = dom_tokens d.
Proof.
  intros E toks t R n body i e Hp Hn Hc Hm Hr. destruct (view_page E toks t R Hp Hn Hc Hm n body i e Hr) as (d & H1 & H2 & H3 & H4 & _).
  unfold complete, html_tokens. rewrite H3. cbn [fst snd]. conj; auto. exists d. auto.
Qed.
Print Assumptions C58_reads_back_partial.
(** Only names that begin with data- or aria- can be improper. *)
Lemma slower_name k : attr_nameb (slower k) = true -> attr_nameb k = true.
Proof.
  unfold attr_nameb. intro H. apply andb_true_iff in H as [H1 H2]. apply andb_true_iff. split; [destruct k; auto|].
  apply forallb_forall. intros c Hc. rewrite forallb_forall in H2. specialize (H2 (lower c) (in_map lower k c Hc)).
  unfold lower in H2. destruct (is_upper c) eqn:Eu; auto. unfold is_upper in Eu. apply andb_true_iff in Eu as [Ea Eb]. apply N.leb_le in Ea, Eb.
  apply andb_true_iff. split; apply negb_true_iff.
  - unfold is_ws. repeat (apply orb_false_iff; split); try (apply N.eqb_neq; lia).
    + apply andb_false_iff. right. apply N.leb_gt. lia.
    + apply andb_false_iff. left. apply N.leb_gt. lia.
  - apply not_true_iff_false. intro X. apply cmem_In in X. cbn in X. intuition (subst; lia).
Qed.
Theorem C58_improper_names : forall E toks t x m k v, parsed E toks t -> on_page t x -> In m (attrs_of x) -> In (k, v) m ->
  (attr_name k /\ ~ In 38%N k) \/ exists r, k = lit "aria-" ++ r \/ k = lit "data-" ++ r.
Proof.
  intros E toks t x m k v Hp Hx Hm Hk. destruct (C49_attributes_safe E toks t x m k v Hp Hx Hm) as [_ H]. destruct (H Hk) as [Hs _].
  apply is_safe_iff in Hs as [Hs|(r & Hr)]; [left|right; exists r; exact Hr].
  apply attr_nameb_ok, slower_name. assert (X : forallb attr_nameb safe_names = true) by (vm_compute; reflexivity). rewrite forallb_forall in X. auto.
Qed.
Print Assumptions C58_improper_names.
(** One such name is enough for the browser to read an attribute nobody wrote: an event handler. *)
Definition quote (s : string) : str := [34%N] ++ lit s ++ [34%N].
Definition injection_page : str := lit "[[div data-" ++ quote "x onclick=alert(1) y" ++ lit "=" ++ quote "z" ++ lit "]]a[[/div]]".
Theorem C58_attribute_name_refuted : exists E toks t R body i e attrs, parsed E toks t /\
  css_contained R t /\ mathml_contained R /\ html_render R 5 t = Html body i e /\
  In (TkOpen (lit "div") attrs) (html_tokens body) /\ In (lit "onclick", lit "alert(1)") attrs.
Proof.
  enough (X : exists toks t, parsed (test_env injection_page) toks t /\ forallb (fun x => match x with EStyle _ => false | _ => true end) (flat_map (flat_map flat) (page_lists t)) = true /\
    match html_render release_renv 5 t with
    | Html body _ _ => existsb (fun tk => match tk with
        | TkOpen tag attrs => seqb tag (lit "div") && existsb (fun kv => seqb (fst kv) (lit "onclick") && seqb (snd kv) (lit "alert(1)")) attrs
        | _ => false end) (html_tokens body) = true
    | _ => False
    end).
  { destruct X as (toks & t & Hp & Hs & H). destruct (html_render release_renv 5 t) as [body i e|w|] eqn:Er; try contradiction.
    apply existsb_exists in H as (tk & Hin & H). destruct tk as [c|tag attrs|tag]; try discriminate.
    apply andb_true_iff in H as [H1 H2]. apply seqb_eq in H1. subst tag. apply existsb_exists in H2 as ([k v] & Hk & H2). apply andb_true_iff in H2 as [Ha Hb].
    apply seqb_eq in Ha, Hb. cbn [fst snd] in Ha, Hb. subst k v.
    exists (test_env injection_page), toks, t, release_renv, body, i, e, attrs. conj; auto.
    - intros src out (es & Hes & Ho). exfalso. rewrite forallb_forall in Hs. assert (Y : In (EStyle src) (flat_map (flat_map flat) (page_lists t))).
      { apply in_flat_map. exists es. split; auto. apply occurs_in_flat. auto. }
      specialize (Hs _ Y). discriminate.
    - intros out (f & b & src & Hf & _). discriminate Hf. }
  apply page_check. vm_compute. auto.
Qed.
Print Assumptions C58_attribute_name_refuted.
Example C58_case : exists toks t, parsed (test_env (lit "**a** [[span class=""c"" data-x=""<&""]]b <i> & ""c""[[/span]]
[[code]]
<br>
[[/code]]")) toks t /\ proper_names t /\ css_contained release_renv t /\ mathml_contained release_renv /\
  exists body i e, html_render release_renv 5 t = Html body i e.
Proof.
  assert (X : exists toks t, parsed (test_env (lit "**a** [[span class=""c"" data-x=""<&""]]b <i> & ""c""[[/span]]
[[code]]
<br>
[[/code]]")) toks t /\
    forallb (fun x => match x with EStyle _ => false | _ => forallb (fun m => forallb (fun kv => attr_nameb (fst kv)) m) (attrs_of x) end)
      (flat_map (flat_map flat) (page_lists t)) = true /\
    exists body i e, html_render release_renv 5 t = Html body i e).
  { page (lit "**a** [[span class=""c"" data-x=""<&""]]b <i> & ""c""[[/span]]
[[code]]
<br>
[[/code]]"). eauto. }
  destruct X as (toks & t & Hp & Hs & Hr). exists toks, t. rewrite forallb_forall in Hs.
  assert (Y : forall x, on_page t x -> In x (flat_map (flat_map flat) (page_lists t))).
  { intros x (es & Hes & Ho). apply in_flat_map. exists es. split; auto. apply occurs_in_flat. auto. }
  conj; auto.
  - intros x m k v Hx Hm Hk. specialize (Hs x (Y x Hx)). destruct x; try discriminate; rewrite forallb_forall in Hs; specialize (Hs m Hm); rewrite forallb_forall in Hs;
      apply attr_nameb_ok; exact (Hs _ Hk).
  - intros src out Hx. specialize (Hs _ (Y _ Hx)). discriminate.
  - intros out (f & b & src & Hf & _). discriminate Hf.
Qed.

(** *** C59: which tags and attributes a page has *)
(** Every start tag a browser reads is one the renderer writes, with attributes of its own, of the
    author or both, no attribute twice, and each of the author's is on the safe list (C26). *)
Definition from_mathml (R : renv) (tag : str) (attrs : list (str * str)) : Prop :=
  exists out, mathml_output R out /\ In (TkOpen tag attrs) (html_tokens out).
Theorem C59_tags : forall E toks t R n body i e tag attrs, parsed E toks t ->
  proper_names t -> css_contained R t -> mathml_contained R -> html_render R n t = Html body i e ->
  In (TkOpen tag attrs) (html_tokens body) -> known_tag R t tag attrs.
Proof.
  intros E toks t R n body i e tag attrs Hp Hn Hc Hm Hr Hi. destruct (view_page E toks t R Hp Hn Hc Hm n body i e Hr) as (d & H1 & H2 & H3 & H4 & H5 & _).
  unfold html_tokens in Hi. rewrite H3 in Hi. auto.
Qed.
Print Assumptions C59_tags.
Lemma known_cases E toks t R tag attrs : parsed E toks t -> known_tag R t tag attrs ->
  from_mathml R tag attrs \/ In tag (lit "script" :: lit "style" :: lit "wj-math-ml" :: our_tags) /\ NoDup (map fst attrs) /\
    forall k v, In (k, v) attrs -> exists w, v = shown w /\ attr_source R t tag k w.
Proof.
  intros Hp H. destruct H as [tag attrs H1 H2 H3|e He Ht|src Hs|Hm|out tag attrs Ho Hi].
  - right. conj; auto; [right; right; right; auto|]. rewrite Forall_forall in H3. intros k v Hk. destruct (H3 _ Hk) as (w & Hw & Hv). eauto.
  - right. conj; [left; auto|repeat constructor; auto|]. intros k v [Hk|[]]. injection Hk as <- <-. exists (embed_src e). split; auto. apply as_own, oa_src.
    rewrite <- Ht. apply os_embed. left. auto.
  - right. conj; [right; left; auto|constructor|]. intros k v [].
  - right. conj; [right; right; left; auto|repeat constructor; auto|]. intros k v [Hk|[]]. injection Hk as <- <-. exists (lit "wj-math-ml"). split; auto. apply as_own, oa_plain. left. auto.
  - left. exists out. auto.
Qed.
Theorem C59_attributes : forall E toks t R n body i e tag attrs, parsed E toks t ->
  proper_names t -> css_contained R t -> mathml_contained R -> html_render R n t = Html body i e ->
  In (TkOpen tag attrs) (html_tokens body) -> from_mathml R tag attrs \/
  In tag (lit "script" :: lit "style" :: lit "wj-math-ml" :: our_tags) /\ NoDup (map fst attrs) /\
  forall k v, In (k, v) attrs ->
    (In k (plain_names ++ active_names) \/ is_safe_attribute k = true) /\
    (forall r, slower k = lit "on" ++ r -> tag = lit "a" /\ k = lit "onclick" /\ v = fold_toc).
Proof.
  intros E toks t R n body i e tag attrs Hp Hn Hc Hm Hr Hi. pose proof (C59_tags _ _ _ _ _ _ _ _ _ _ Hp Hn Hc Hm Hr Hi) as Hk.
  apply (known_cases E toks) in Hk as [Hk|(H1 & H2 & H3)]; auto. right. conj; auto. intros k v Hkv. destruct (H3 k v Hkv) as (w & -> & Hs).
  assert (Hown : forall o, own_attr R t tag k o -> In k (plain_names ++ active_names) /\ (forall r, slower k = lit "on" ++ r -> tag = lit "a" /\ k = lit "onclick" /\ o = fold_toc)).
  { intros o Ho. assert (X : forallb (fun k => negb (starts_with (lit "on") (slower k))) (plain_names ++ map lit ["href"; "src"; "style"]%string) = true) by (vm_compute; reflexivity).
    rewrite forallb_forall in X. split.
    - apply in_or_app. destruct Ho; auto; right; cbn; tauto.
    - intros r Hr'. assert (Y : starts_with (lit "on") (slower k) = true) by (apply starts_with_iff; eauto).
      destruct Ho as [k o Hk|o Hk|o Hk|o Hk|Ht|color es Ht Hk]; auto; exfalso.
      { apply (or_introl (B := In k (map lit ["href"; "src"; "style"]%string))), in_or_app, X in Hk. rewrite Y in Hk. discriminate. }
      all: vm_compute in Y; discriminate. }
  assert (Huser : forall x m u, on_page t x -> In m (attrs_of x) -> In (k, u) m -> is_safe_attribute k = true /\ forall r, slower k <> lit "on" ++ r).
  { intros x m u Hx Hxm Hku. destruct (C49_attributes_safe E toks t x m k u Hp Hx Hxm) as [_ X]. destruct (X Hku) as [Y _]. split; auto.
    intros r Hr'. apply C27_no_event_handlers in Hr'. congruence. }
  destruct Hs as [o Ho|x m u Hx Hxm Hku|x m o u Ho Hx Hxm Hku Hne].
  - destruct (Hown o Ho) as [Ha Hb]. split; auto. intros r Hr'. destruct (Hb r Hr') as (-> & -> & ->). conj; auto.
  - destruct (Huser x m u Hx Hxm Hku) as [Ha Hb]. split; auto. intros r Hr'. exfalso. eapply Hb; eauto.
  - destruct (Hown o Ho) as [Ha _]. destruct (Huser x m u Hx Hxm Hku) as [Hb Hd]. split; auto. intros r Hr'. exfalso. eapply Hd; eauto.
Qed.
Print Assumptions C59_attributes.

(** *** C60: scripts and frames *)
(** There is no script tag at all.  (The renderer has two embeds that are scripts, GitHub gists and
    GitLab snippets, but no text parses to them.) *)
Theorem C60_no_scripts : forall E toks t R n body i e attrs, parsed E toks t ->
  proper_names t -> css_contained R t -> mathml_contained R -> html_render R n t = Html body i e ->
  In (TkOpen (lit "script") attrs) (html_tokens body) -> from_mathml R (lit "script") attrs.
Proof.
  intros E toks t R n body i e attrs Hp Hn Hc Hm Hr Hi.
  pose proof (C59_tags _ _ _ _ _ _ _ _ _ _ Hp Hn Hc Hm Hr Hi) as Hk. inversion Hk; subst.
  - exfalso. apply smem_In in H. discriminate.
  - exfalso. pose proof (C54_ranges E toks t _ Hp H) as X. cbn in X. destruct e0; cbn [embed_tag] in *; try discriminate; contradiction.
  - exists out. auto.
Qed.
Print Assumptions C60_no_scripts.
Lemma shown_app a b : shown (a ++ b) = shown a ++ shown b. Proof. apply map_app. Qed.
Lemma shown_id s : ~ In 0%N s -> shown s = s.
Proof.
  unfold shown. induction s as [|c s IH]; intro H; [reflexivity|]. cbn [map]. rewrite IH by (intro; apply H; right; auto).
  rewrite ceqb_ne; auto. intros ->. apply H. left. auto.
Qed.
Lemma scheme_nonul sc : In sc safe_schemes -> ~ In 0%N sc.
Proof.
  intros H X. pose proof safe_scheme_facts as F. rewrite Forall_forall in F. destruct (F _ H) as (F1 & _). rewrite Forall_forall in F1. specialize (F1 _ X). lia.
Qed.
Lemma safe_shown v : safe_url v -> safe_url (shown v).
Proof.
  intros [(sc & r & H & ->)|[(r & ->)|(r & ->)]].
  - left. exists sc, (shown r). split; auto. rewrite shown_app, shown_id; auto. apply scheme_nonul; auto.
  - right. left. exists (shown r). reflexivity.
  - right. right. exists (shown r). reflexivity.
Qed.
Lemma safe_app v r : safe_url v -> safe_url (v ++ r).
Proof.
  intros [(sc & q & H & ->)|[(q & ->)|(q & ->)]].
  - left. exists sc, (q ++ r). split; auto. rewrite app_assoc. auto.
  - right. left. exists (q ++ r). reflexivity.
  - right. right. exists (q ++ r). reflexivity.
Qed.
Lemma safe_https r : safe_url (lit "https://" ++ r).
Proof. left. exists (lit "https://"), r. split; auto. apply smem_In. reflexivity. Qed.
(** What the address of a frame can be. *)
Theorem C60_frames : forall E toks t R n body i e attrs src, parsed E toks t ->
  proper_names t -> css_contained R t -> mathml_contained R -> html_render R n t = Html body i e ->
  In (TkOpen (lit "iframe") attrs) (html_tokens body) -> In (lit "src", src) attrs ->
  from_mathml R (lit "iframe") attrs \/ safe_url src \/ src = lit "javascript:;".
Proof.
  intros E toks t R n body i e attrs src Hp Hn Hc Hm Hr Hi Hs. pose proof (C59_tags _ _ _ _ _ _ _ _ _ _ Hp Hn Hc Hm Hr Hi) as Hk.
  apply (known_cases E toks) in Hk as [Hk|(H1 & H2 & H3)]; auto. right. destruct (H3 _ _ Hs) as (w & -> & Hw).
  assert (Hown : forall o, own_attr R t (lit "iframe") (lit "src") o -> safe_url o).
  { intros o Ho. inversion Ho; subst.
    - exfalso. apply smem_In in H. discriminate.
    - inversion H; subst.
      + destruct e0; cbn [embed_tag embed_src] in *; try discriminate;
          match goal with |- safe_url (lit ?x ++ _) => let y := eval vm_compute in (skipn 8 (lit x)) in change (lit x) with (lit "https://" ++ y); rewrite <- app_assoc; apply safe_https end.
      + exact (safe_https (lit "example.com/")).
      + assert (Hu : on_page t (EIframe a o)).
        { match goal with H : here t _ |- _ => destruct H as [Hx|Hx]; [exact Hx|] end. destruct (page_toc E toks t Hp _ Hx) as [(its & He & _)|(u & nm & He)]; discriminate. }
        pose proof (C54_ranges E toks t _ Hp Hu) as X. cbn in X. apply is_url_iff in X as (sc & r & X1 & X2). left. eauto. }
  inversion Hw; subst.
  - left. apply safe_shown. auto.
  - destruct (C49_attributes_safe E toks t x m (lit "src") w Hp H H0) as [_ X]. destruct (X H4) as [_ Y]. destruct (Y (or_intror eq_refl)) as [u Hu].
    destruct (C24_href_shape (en_word E) (en_normalize E) u) as (v & Hv & Hsh). rewrite Hu in Hv. injection Hv as <-.
    destruct Hsh as [Hsh|[Hsh|[->|Hsh]]]; [left|left|right; reflexivity|left]; apply safe_shown; [left|right; left|right; right]; auto.
  - left. apply safe_shown. apply safe_app. auto.
Qed.
Print Assumptions C60_frames.

(** *** C61: links *)
Definition noop : str := lit "javascript:;".
Lemma href_noop word nz u : normalize_href word nz u = Some noop -> u = noop.
Proof. intro H. destruct (normalize_href_total word nz u) as (v & Hv & Hs). rewrite H in Hv. injection Hv as <-. destruct Hs as [[Hs _]|[Hs|[r Hs]]]; [auto|discriminate|discriminate]. Qed.
(** "_partial": the address of a link is safe, or the no-op literal, or (this is the part that should
    not be) the no-op literal followed by what stands after it in the source of the link. *)
Theorem C61_links_partial : forall E toks t R n body i e tag attrs href, parsed E toks t ->
  proper_names t -> css_contained R t -> mathml_contained R -> html_render R n t = Html body i e ->
  In (TkOpen tag attrs) (html_tokens body) -> In (lit "href", href) attrs ->
  from_mathml R tag attrs \/ safe_url href \/ href = noop \/
  exists ty link extra label tg, on_page t (ELink ty link (Some extra) label tg) /\
    (link = LUrl noop \/ link = LPage (PR None noop)) /\ href = noop ++ shown extra.
Proof.
  intros E toks t R n body i e tag attrs href Hp Hn Hc Hm Hr Hi Hs. pose proof (C59_tags _ _ _ _ _ _ _ _ _ _ Hp Hn Hc Hm Hr Hi) as Hk.
  apply (known_cases E toks) in Hk as [Hk|(H1 & H2 & H3)]; auto. right. destruct (H3 _ _ Hs) as (w & -> & Hw).
  assert (Hnorm : forall word nz u v, normalize_href word nz u = Some v -> safe_url v \/ v = noop).
  { intros word nz u v Hu. destruct (C24_href_shape word nz u) as (v' & Hv & Hsh). rewrite Hu in Hv. injection Hv as <-.
    destruct Hsh as [Hsh|[Hsh|[->|Hsh]]]; [left; left|left; right; left|right; reflexivity|left; right; right]; auto. }
  assert (Hlink : forall l u, link_href R l = Some u -> safe_url u \/ (u = noop /\ (l = LUrl noop \/ l = LPage (PR None noop)))).
  { intros l u. unfold link_href, normalize_link. destruct l as [[[site|] page]|u']; cbn [pr_site pr_page].
    - intros [= <-]. left. unfold build_url. apply safe_https.
    - intro H. destruct (Hnorm _ _ _ _ H) as [? | ->]; auto. right. split; auto. apply href_noop in H. subst. auto.
    - intro H. destruct (Hnorm _ _ _ _ H) as [? | ->]; auto. right. split; auto. apply href_noop in H. subst. auto. }
  inversion Hw; subst.
  - (* the renderer's own *) inversion H; subst.
    + exfalso. apply smem_In in H0. discriminate.
    + inversion H0; subst.
      * right. left. reflexivity.
      * left. apply safe_shown. right. right. eexists. reflexivity.
      * left. apply safe_shown. right. right. eexists. reflexivity.
      * destruct (Hlink _ _ H5) as [Hu|[-> Hu]]; [left; apply safe_shown, safe_app; auto|]. destruct extra as [x|]; cbn [or_else].
        { right. right. exists ty, link, x, label, tg. conj; auto.
          - destruct H4 as [Hx|Hx]; [exact Hx|]. destruct (page_toc E toks t Hp _ Hx) as [(its & He & _)|(u & nm & He)]; [discriminate|]. discriminate.
          }
        right. left. rewrite app_nil_r. reflexivity.
      * destruct (Hlink _ _ H5) as [Hu|[-> Hu]]; [left; apply safe_shown; auto|right; left; reflexivity].
  - destruct (C49_attributes_safe E toks t x m (lit "href") w Hp H H0) as [_ X]. destruct (X H4) as [_ Y]. destruct (Y (or_introl eq_refl)) as [u Hu].
    destruct (Hnorm _ _ _ _ Hu) as [Hv | ->]; [left; apply safe_shown; auto|right; left; reflexivity].
  - contradiction.
Qed.
Print Assumptions C61_links_partial.
(** So on a page without such links no address makes a browser run a script (the no-op literal has an
    empty one) or open a data: document. *)
Lemma safe_no_script v : safe_url v -> ~ browser_scheme_is (lit "javascript") v /\ ~ browser_scheme_is (lit "data") v.
Proof.
  intros [(sc & r & Hin & ->)|[(r & ->)|(r & ->)]].
  - pose proof safe_scheme_facts as F. rewrite Forall_forall in F. destruct (F _ Hin) as (F1 & F2 & a & b & Ea & Ha & F3 & F4).
    split; apply no_browser_scheme; auto; try (cbn; intuition discriminate); left; exists a, b; auto.
  - split; apply (no_browser_scheme [35%N] r); try (repeat constructor; reflexivity); try discriminate;
      try (cbn; intuition discriminate); right; exists 35%N, []; split; auto; intros t E; discriminate E.
  - split; apply (no_browser_scheme [47%N] r); try (repeat constructor; reflexivity); try discriminate;
      try (cbn; intuition discriminate); right; exists 47%N, []; split; auto; intros t E; discriminate E.
Qed.
Theorem C61_no_script_links : forall E toks t R n body i e tag attrs href, parsed E toks t ->
  proper_names t -> css_contained R t -> mathml_contained R -> html_render R n t = Html body i e ->
  (forall ty link extra label tg, on_page t (ELink ty link (Some extra) label tg) -> link <> LUrl noop /\ link <> LPage (PR None noop)) ->
  In (TkOpen tag attrs) (html_tokens body) -> In (lit "href", href) attrs -> ~ from_mathml R tag attrs ->
  href = noop \/ (~ browser_scheme_is (lit "javascript") href /\ ~ browser_scheme_is (lit "data") href).
Proof.
  intros E toks t R n body i e tag attrs href Hp Hn Hc Hm Hr Hl Hi Hs Hf.
  destruct (C61_links_partial _ _ _ _ _ _ _ _ _ _ _ Hp Hn Hc Hm Hr Hi Hs) as [H|[H|[H|(ty & l & x & lb & tg & H & Hk & _)]]]; auto; try contradiction.
  - right. apply safe_no_script. auto.
  - destruct (Hl _ _ _ _ _ H) as [Ha Hb]. destruct Hk; contradiction.
Qed.
Print Assumptions C61_no_script_links.
(** Such links need triple brackets. *)
Theorem C61_no_script_links_source : forall E toks t R n body i e tag attrs href, parsed E toks t ->
  proper_names t -> css_contained R t -> mathml_contained R -> html_render R n t = Html body i e -> ~ substr (lit "[[[") (en_text E) ->
  In (TkOpen tag attrs) (html_tokens body) -> In (lit "href", href) attrs -> ~ from_mathml R tag attrs ->
  href = noop \/ (~ browser_scheme_is (lit "javascript") href /\ ~ browser_scheme_is (lit "data") href).
Proof.
  intros E toks t R n body i e tag attrs href Hp Hn Hc Hm Hr Hl Hi Hs Hf. eapply (C61_no_script_links E toks t R); eauto.
  intros ty link extra label tg Ho. exfalso. destruct Hp as [Ht Hp]. destruct (on_page_ok E toks Ht t _ Hp Ho) as (F & _ & [[X|X]|(X & _)]); [| |discriminate X]; apply Hl.
  - eapply (token_in_text E toks Ht TLeftLink); eauto. cbn. tauto.
  - apply (substr_prefix _ (lit "*")). eapply (token_in_text E toks Ht TLeftLinkStar); eauto. cbn. tauto.
Qed.
Print Assumptions C61_no_script_links_source.
(** A page whose link runs a script when clicked. *)
Definition script_link : str := lit "[[[javascript:;//%0aalert(1)|x]]]".
Theorem C61_script_link_refuted : exists E toks t R body i e attrs, parsed E toks t /\
  proper_names t /\ css_contained R t /\ mathml_contained R /\ html_render R 5 t = Html body i e /\
  In (TkOpen (lit "a") attrs) (html_tokens body) /\ In (lit "href", lit "javascript:;//%0aalert(1)") attrs.
Proof.
  enough (X : exists toks t, parsed (test_env script_link) toks t /\
    forallb (fun x => match x with EStyle _ => false | _ => forallb (fun m => forallb (fun kv => attr_nameb (fst kv)) m) (attrs_of x) end)
      (flat_map (flat_map flat) (page_lists t)) = true /\
    match html_render release_renv 5 t with
    | Html body _ _ => existsb (fun tk => match tk with
        | TkOpen tag attrs => seqb tag (lit "a") && existsb (fun kv => seqb (fst kv) (lit "href") && seqb (snd kv) (lit "javascript:;//%0aalert(1)")) attrs
        | _ => false end) (html_tokens body) = true
    | _ => False
    end).
  { destruct X as (toks & t & Hp & Hs & H). destruct (html_render release_renv 5 t) as [body i e|w|] eqn:Er; try contradiction.
    apply existsb_exists in H as (tk & Hin & H). destruct tk as [c|tag attrs|tag]; try discriminate.
    apply andb_true_iff in H as [H1 H2]. apply seqb_eq in H1. subst tag. apply existsb_exists in H2 as ([k v] & Hk & H2). apply andb_true_iff in H2 as [Ha Hb].
    apply seqb_eq in Ha, Hb. cbn [fst snd] in Ha, Hb. subst k v. rewrite forallb_forall in Hs.
    assert (Y : forall x, on_page t x -> In x (flat_map (flat_map flat) (page_lists t))).
    { intros x (es & Hes & Ho). apply in_flat_map. exists es. split; auto. apply occurs_in_flat. auto. }
    exists (test_env script_link), toks, t, release_renv, body, i, e, attrs. conj; auto.
    - intros x m k v Hx Hm Hkv. specialize (Hs x (Y x Hx)). destruct x; try discriminate; rewrite forallb_forall in Hs; specialize (Hs m Hm); rewrite forallb_forall in Hs;
        apply attr_nameb_ok; exact (Hs _ Hkv).
    - intros src out Hx. specialize (Hs _ (Y _ Hx)). discriminate.
    - intros out (f & b & src & Hf & _). discriminate Hf. }
  apply page_check. vm_compute. auto.
Qed.
Print Assumptions C61_script_link_refuted.
(** A page with a frame, an embed, links of several kinds and a table of contents. *)
Definition rich_page : str := lit "+ h
[[toc]]
[[embed youtube video=""v""]]
[[iframe https://a.b/c style=""x""]]
[https://x.y z] [[[p|q]]] [[a href=""javascript:x""]]w[[/a]] [[user u]]".
Example C59_case : exists toks t, parsed (test_env rich_page) toks t /\ proper_names t /\ css_contained release_renv t /\ mathml_contained release_renv /\
  (forall ty link extra label tg, on_page t (ELink ty link (Some extra) label tg) -> link <> LUrl noop /\ link <> LPage (PR None noop)) /\
  exists body i e, html_render release_renv 5 t = Html body i e /\
    (exists a, In (TkOpen (lit "iframe") a) (html_tokens body) /\ In (lit "src", lit "https://www.youtube.com/embed/v") a) /\
    (exists a, In (TkOpen (lit "iframe") a) (html_tokens body) /\ In (lit "src", lit "https://a.b/c") a) /\
    (exists a, In (TkOpen (lit "a") a) (html_tokens body) /\ In (lit "href", lit "/p") a) /\
    (exists a, In (TkOpen (lit "a") a) (html_tokens body) /\ In (lit "onclick", fold_toc) a).
Proof.
  pose (has := fun tag k v ts => existsb (fun tk => match tk with
        | TkOpen tag' attrs => seqb tag' tag && existsb (fun kv => seqb (fst kv) k && seqb (snd kv) v) attrs
        | _ => false end) ts).
  assert (Hhas : forall tag k v ts, has tag k v ts = true -> exists a, In (TkOpen tag a) ts /\ In (k, v) a).
  { intros tag k v ts H. apply existsb_exists in H as (tk & Hin & H). destruct tk as [c|tag' attrs|tag']; try discriminate.
    apply andb_true_iff in H as [H1 H2]. apply seqb_eq in H1. subst tag'. apply existsb_exists in H2 as ([k' v'] & Hk & H2). apply andb_true_iff in H2 as [Ha Hb].
    apply seqb_eq in Ha, Hb. cbn [fst snd] in Ha, Hb. subst. eauto. }
  assert (X : exists toks t, parsed (test_env rich_page) toks t /\
    forallb (fun x => match x with EStyle _ | ELink _ _ (Some _) _ _ => false | _ => forallb (fun m => forallb (fun kv => attr_nameb (fst kv)) m) (attrs_of x) end)
      (flat_map (flat_map flat) (page_lists t)) = true /\
    exists body i e, html_render release_renv 5 t = Html body i e /\
      has (lit "iframe") (lit "src") (lit "https://www.youtube.com/embed/v") (html_tokens body) &&
      has (lit "iframe") (lit "src") (lit "https://a.b/c") (html_tokens body) &&
      has (lit "a") (lit "href") (lit "/p") (html_tokens body) &&
      has (lit "a") (lit "onclick") fold_toc (html_tokens body) = true).
  { apply (page_check rich_page). vm_compute. split; auto. eexists. eexists. eexists. split; reflexivity. }
  destruct X as (toks & t & Hp & Hs & body & i & e & Hr & H). exists toks, t. rewrite forallb_forall in Hs.
  assert (Y : forall x, on_page t x -> In x (flat_map (flat_map flat) (page_lists t))).
  { intros x (es & Hes & Ho). apply in_flat_map. exists es. split; auto. apply occurs_in_flat. auto. }
  conj; auto.
  - intros x m k v Hx Hm Hk. specialize (Hs x (Y x Hx)). destruct x; try discriminate; try (destruct extra; try discriminate); rewrite forallb_forall in Hs; specialize (Hs m Hm); rewrite forallb_forall in Hs;
      apply attr_nameb_ok; exact (Hs _ Hk).
  - intros src out Hx. specialize (Hs _ (Y _ Hx)). discriminate.
  - intros out (f & b & src & Hf & _). discriminate Hf.
  - intros ty l x lb tg Hx. specialize (Hs _ (Y _ Hx)). discriminate.
  - exists body, i, e. apply andb_true_iff in H as [H H4]. apply andb_true_iff in H as [H H3]. apply andb_true_iff in H as [H1 H2].
    conj; auto.
Qed.
