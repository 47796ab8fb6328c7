(** PropInert.v -- property C72: the HTML of a page without double brackets is inert. *)
From Verif Require Import Base BaseLemmas Strings StringsLemmas Links SpecLinks LinksLemmas PropLinks Attr SpecAttr AttrLemmas Html SpecHtml HtmlLemmas Lexer SpecLexer LexerLemmas Tree Text Toc PState Parse
  SpecParse SpecPage ParseInv TreeLemmas ParseLemmas ParseTestEnv PropParse PropPage
  Render SpecReader SpecRender RenderLemmas RenderDom RenderNames RenderTestEnv PropRender RenderView PropView PropShown SpecText PropText SpecShown RenderWords SpecLetters LettersLemmas PropLetters SpecBlockless PropBlockless SpecInert.

Section Inert.
Variable R : renv.
Notation pairs a := (flat_map attr_pairs a) (only parsing).
Definition calm (tag : string) (a : list added) : Prop :=
  NoDup (map fst (pairs a)) /\ Forall (fun kv => inert_attr (lit tag) (fst kv) (shown (snd kv))) (pairs a).
Inductive pnode : node -> Prop :=
| pn_text s : pnode (NText s)
| pn_tag tag attrs kids : smem (lit tag) inert_tags = true -> calm tag attrs -> smem (lit tag) void_tags = false -> Forall pnode kids -> pnode (NTag (lit tag) attrs (Some kids))
| pn_leaf tag attrs : smem (lit tag) inert_tags = true -> calm tag attrs -> pnode (NTag (lit tag) attrs None).
Definition pm (m : M) : Prop := forall c ns c', m c = Done ns c' -> Forall pnode ns.

Lemma pm_nil : pm (ret []). Proof. intros c ns c' [= <- _]. constructor. Qed.
Lemma pm_text s : pm (text s). Proof. intros c ns c' [= <- _]. repeat constructor. Qed.
Lemma pm_seq m m' : pm m -> pm m' -> pm (m +++ m').
Proof.
  intros H1 H2 c ns c' H. unfold seq2, Render.bind in H. destruct (m c) as [a c1|w|] eqn:E1; try discriminate.
  destruct (m' c1) as [b c2|w|] eqn:E2; try discriminate. injection H as <- <-. apply Forall_app. eauto.
Qed.
Lemma pm_tag tg a m : smem (lit tg) inert_tags = true -> calm tg a -> smem (lit tg) void_tags = false -> pm m -> pm (tag_with R tg a m).
Proof.
  intros Ht Ha Hv Hm c ns c' H. unfold tag_with in H. destruct (re_debug R && _); [discriminate|].
  unfold Render.bind in H. destruct (m c) as [b c1|w|] eqn:E1; try discriminate. injection H as <- <-. constructor; [|constructor].
  apply pn_tag; auto. eauto.
Qed.
Lemma pm_leaf tg a : smem (lit tg) inert_tags = true -> calm tg a -> pm (tag_empty R tg a).
Proof.
  intros Ht Ha c ns c' H. unfold tag_empty in H. destruct (re_debug R && _); [discriminate|]. injection H as <- <-.
  constructor; [|constructor]. apply pn_leaf; auto.
Qed.
Lemma pm_concat {A} (f : A -> M) l : (forall x, In x l -> pm (f x)) -> pm (concatM (map f l)).
Proof.
  induction l as [|x l IH]; intro H; [apply pm_nil|]. cbn [map concatM fold_right]. apply pm_seq; [apply H; left; auto|].
  apply IH. intros y Hy. apply H. right. auto.
Qed.

(** *** Attributes *)
Definition tame (m : btmap) : Prop := NoDup (map fst m) /\ forall k v, In (k, v) m -> k = lit "class".
Lemma calm_nil tag : calm tag []. Proof. split; constructor. Qed.
Lemma calm_own tag es : nodupb (map (fun e => fst (fst e)) es) = true ->
  Forall (fun e => inert_attr (lit tag) (fst (fst e)) (shown (concat (snd (fst e))))) es -> calm tag (own es).
Proof.
  intros Hd He. unfold calm, own. cbn [flat_map]. rewrite app_nil_r. split.
  - apply attr_pairs_NoDup; [|constructor]. apply filter_entries_nodup, nodupb_ok. exact Hd.
  - apply Forall_forall. intros [k v] Hkv. apply attr_pairs_In in Hkv; [|constructor]. cbn [ad_map fst snd] in *.
    destruct Hkv as [(p & u & _ & [] & _)|[(p & Hk & _ & ->)|[[] _]]]. apply filter_entries_in in Hk as [b Hk].
    rewrite Forall_forall in He. exact (He _ Hk).
Qed.
Lemma calm_map tag es m : nodupb (map (fun e => fst (fst e)) es) && forallb (fun e => smem (fst (fst e)) inert_names) es = true -> tame m -> calm tag (with_map es m).
Proof.
  intros H [Hm1 Hm2]. apply andb_true_iff in H as [Hd He]. unfold calm, with_map. cbn [flat_map]. rewrite app_nil_r. rewrite forallb_forall in He. split.
  - apply attr_pairs_NoDup; [|exact Hm1]. apply filter_entries_nodup, nodupb_ok. exact Hd.
  - apply Forall_forall. intros [k v] Hkv. apply attr_pairs_In in Hkv; [|exact Hm1]. cbn [ad_map fst snd] in *. left.
    destruct Hkv as [(p & u & Hk & _)|[(p & Hk & _)|[Hk _]]].
    + apply filter_entries_in in Hk as [b Hk]. apply smem_In. exact (He _ Hk).
    + apply filter_entries_in in Hk as [b Hk]. apply smem_In. exact (He _ Hk).
    + rewrite (Hm2 _ _ Hk). left. reflexivity.
Qed.
Lemma calm_cls tag v : calm tag (cls v).
Proof. apply calm_own; [reflexivity|]. constructor; [|constructor]. left. left. reflexivity. Qed.

Lemma link_safe u v : link_href R (LUrl u) = Some v -> inert_attr (lit "a") (lit "href") (shown v).
Proof.
  unfold link_href, normalize_link. intro H. right. left. conj; auto. destruct (C24_href_shape (re_word R) (re_normalize R) u) as (v' & Hv & Hsh). rewrite H in Hv. injection Hv as <-.
  destruct Hsh as [Hsh|[Hsh|[->|Hsh]]]; [left|left|right; reflexivity|left]; apply safe_shown; [left|right; left|right; right]; auto.
Qed.
Lemma pm_link ty u lb tg : pm (render_link R (LUrl u) None lb tg ty).
Proof.
  intros c ns c'. unfold render_link. destruct (link_href R (LUrl u)) as [url|] eqn:Eu; [|discriminate].
  destruct (link_class R (LUrl u) (add_link (LUrl u) c)) as [cl c1]. intro E. eapply pm_tag in E; eauto; try reflexivity.
  - apply calm_own; [reflexivity|]. constructor; [|repeat (constructor; [left; apply smem_In; reflexivity|]); constructor].
    cbn [fst snd concat en or_else]. rewrite !app_nil_r. eapply link_safe; eauto.
  - destruct (get_link_label (re_site R) (LUrl u) lb); [apply pm_text|intros ? ? ? X; discriminate X].
Qed.
Lemma pm_container ty a es m : bracket_free (EContainer ty a es) = true -> tame a -> pm m -> pm (render_container R ty a m).
Proof.
  intros Hb Ha Hm. assert (X : forall tg es c ns c', smem (lit tg) inert_tags = true -> smem (lit tg) void_tags = false ->
    nodupb (map (fun e => fst (fst e)) es) && forallb (fun e => smem (fst (fst e)) inert_names) es = true ->
    tag_with R tg (with_map es a) m c = Done ns c' -> Forall pnode ns).
  { intros tg es0 c ns c' H1 H2 H3 H. eapply pm_tag in H; eauto. apply calm_map; auto. }
  destruct ty; try discriminate Hb; unfold render_container, render_container_internal; intros c ns c'; cbn [container_tag]; try (apply X; reflexivity).
  destruct (hd_has_toc h); [destruct (re_true_ids R)|]; destruct (hd_level h) as [|[|[|[|[|[|?]]]]]]; cbn [heading_tag]; apply X; reflexivity.
Qed.
Lemma pm_defs items : Forall (fun x => pm (fst x) /\ pm (snd x)) items -> pm (render_definition_list R items).
Proof.
  intro H. apply pm_tag; [reflexivity|apply calm_nil|reflexivity|]. induction H as [|[k v] items [Hk Hv] _ IH]; [apply pm_nil|]. cbn [fold_right].
  apply pm_seq; [apply pm_tag; [reflexivity|apply calm_nil|reflexivity|auto]|]. apply pm_seq; [apply pm_tag; [reflexivity|apply calm_nil|reflexivity|auto]|]. exact IH.
Qed.
Variables (toc : list element) (ref : list element -> M).
Definition inert_element (x : element) : Prop := bracket_free x = true /\ forall m, In m (attrs_of x) -> tame m.
Lemma pm_elements es : (forall x, occurs_in x es -> inert_element x) -> pm (h_elements R toc [] [] ref es).
Proof.
  intro Hg. revert Hg. pose (P := fun es m => (forall x, occurs_in x es -> inert_element x) -> pm m).
  change (P es (h_elements R toc [] [] ref es)). apply h_induct; unfold P; clear es P.
  - intros _. apply pm_nil.
  - intros e es m m' H1 H2 Hg. apply pm_seq.
    + apply H1. intros x (y & [<-|[]] & Ho). apply Hg. exists e. split; auto. left. auto.
    + apply H2. intros x (y & Hy & Ho). apply Hg. exists y. split; auto. right. auto.
  - intros e IHl IHx Hg.
    assert (Ge : inert_element e) by (apply Hg; exists e; split; [left; auto|constructor]).
    assert (Gc : forall x, In x (children e) -> forall y, occurs y x -> inert_element y).
    { intros x Hx y Hy. apply Hg. exists e. split; [left; auto|]. econstructor; eauto. }
    assert (Hl : forall es, sublist_of es e -> pm (h_elements R toc [] [] ref es)).
    { intros es Hs. apply IHl; auto. intros x (y & Hy & Ho). eapply Gc; eauto. }
    assert (Hx : forall x, In x (children e) -> pm (h_element R toc [] [] ref x)).
    { intros x Hx. apply IHx; auto. intros y (z & [<-|[]] & Ho). eapply Gc; eauto. }
    clear IHl IHx Hg Gc. destruct Ge as [Hb Hf].
    rewrite h_element_eq. destruct e; try discriminate Hb; cbn [h_body h_element attrs_of] in *.
    + eapply pm_container; [exact Hb|apply Hf; left; auto|]. apply Hl, incl_refl.
    + apply pm_text.
    + apply pm_tag; [reflexivity|apply calm_cls|reflexivity|apply pm_text].
    + intros c. apply (pm_text _ c).
    + apply pm_tag; [reflexivity|apply calm_cls|reflexivity|apply pm_text].
    + unfold render_table. apply pm_tag; [reflexivity|apply calm_map; [reflexivity|apply Hf; left; auto]|reflexivity|].
      apply pm_tag; [reflexivity|apply calm_nil|reflexivity|]. apply pm_concat. intros r Hrr.
      unfold render_row. apply pm_tag; [reflexivity| |reflexivity|].
      { apply calm_map; [reflexivity|]. apply Hf. right. apply in_flat_map. exists r. split; auto. left. auto. }
      apply pm_concat. intros x Hxx. unfold render_cell.
      assert (Hm' : tame (tc_attributes x)). { apply Hf. right. apply in_flat_map. exists r. split; auto. right. apply in_map. auto. }
      destruct (tc_header x); (apply pm_tag; [reflexivity|apply calm_map; [reflexivity|exact Hm']|reflexivity|]); apply Hl; eapply sub_cell; eauto.
    + destruct link, extra, label; try discriminate Hb; apply pm_link.
    + unfold render_list.
      assert (Ht : forall m, pm m -> pm (tag_with R (match ltype with LNumbered => "ol" | _ => "ul" end) (with_map [] attributes) m)).
      { intros m Hm. destruct ltype; (apply pm_tag; [reflexivity|apply calm_map; [reflexivity|apply Hf; left; auto]|reflexivity|exact Hm]). }
      apply Ht. apply pm_concat. intros [b es|x] Hi.
      * apply pm_tag; [reflexivity| |reflexivity|].
        { apply calm_map; [reflexivity|]. apply Hf. right. apply in_flat_map. exists (LIElements b es). split; auto. left. auto. }
        apply Hl. eapply sub_item; eauto.
      * apply Hx. eapply (sub_sublist ltype attributes); eauto.
    + apply pm_defs. apply Forall_forall. intros x Hxx. apply in_map_iff in Hxx as (d & <- & Hd). cbn [fst snd]. split; apply Hl; [apply sub_key|apply sub_value]; auto.
    + apply pm_nil.
    + unfold render_bibcite. cbn [bibs_get]. apply pm_tag; [reflexivity|apply calm_cls|reflexivity|apply pm_text].
    + unfold render_color. apply pm_tag; [reflexivity| |reflexivity|apply Hl, incl_refl]. apply calm_own; [reflexivity|]. constructor; [|constructor].
      right. right. conj; auto. cbn [fst snd en concat]. rewrite !shown_app. exists (shown color). reflexivity.
    + apply pm_leaf; [reflexivity|apply calm_nil].
    + apply pm_leaf; [reflexivity|]. apply calm_own; [reflexivity|]. constructor; [|constructor]. left. left. reflexivity.
    + apply pm_leaf; [reflexivity|apply calm_nil].
Qed.

(** *** What a browser reads *)
Lemma inert_tag_ok tag : In tag inert_tags -> proper_tag tag /\ smem tag raw_tags = false.
Proof.
  assert (X : forallb (fun k => proper_tagb k && negb (smem k raw_tags)) inert_tags = true) by (vm_compute; reflexivity). rewrite forallb_forall in X.
  intro H. apply X, andb_true_iff in H as [H1 H2]. split; [apply proper_tagb_ok; auto|]. destruct (smem tag raw_tags); auto.
Qed.
Lemma inert_name tag k v : inert_attr tag k v -> attr_name k /\ ~ In 38%N k.
Proof.
  assert (X : forallb attr_nameb inert_names = true) by (vm_compute; reflexivity). rewrite forallb_forall in X.
  intros [H|[(_ & -> & _)|(_ & -> & _)]]; [apply attr_nameb_ok, X; exact H|apply attr_nameb_ok; reflexivity|apply attr_nameb_ok; reflexivity].
Qed.
Definition inert_token (tk : htoken) : Prop :=
  match tk with TkOpen tag attrs => In tag inert_tags /\ NoDup (map fst attrs) /\ forall k v, In (k, v) attrs -> inert_attr tag k v | _ => True end.
Lemma calm_proper tag a : calm tag a -> proper_attrs (pairs a) /\ inert_token (TkOpen (lit tag) (map (fun kv => (fst kv, shown (snd kv))) (pairs a))) \/ ~ In (lit tag) inert_tags.
Proof.
  intros [H1 H2]. destruct (smem (lit tag) inert_tags) eqn:Et; [left|right; intro X; apply smem_In in X; congruence]. split.
  - eapply Forall_impl; [|exact H2]. intros [k v] H. cbn [fst snd] in *. eapply inert_name; eauto.
  - cbn [inert_token]. conj; [apply smem_In; auto|rewrite map_map; exact H1|]. intros k v Hk. apply in_map_iff in Hk as ([k' v'] & [= <- <-] & Hk).
    rewrite Forall_forall in H2. exact (H2 _ Hk).
Qed.
Lemma pnode_reads n : pnode n -> readable (dom_of n) /\ nested (dom_tokens (dom_of n)) /\ Forall inert_token (dom_tokens (dom_of n)).
Proof.
  induction n as [s|s|tg a|tg a ns IH] using node_ind'; intro H; inversion H as [?|tag attrs kids Ht Ha Hv Hk|tag attrs Ht Ha]; subst.
  - cbn [dom_of dom_tokens]. conj; [constructor|apply nested_chars|]. apply Forall_forall. intros tk Hk. apply in_map_iff in Hk as (c & <- & _). exact I.
  - apply smem_In in Ht. destruct (inert_tag_ok _ Ht) as [Hp Hr]. destruct (calm_proper _ _ Ha) as [[Hc1 Hc2]|X]; [|contradiction].
    cbn [dom_of dom_tokens]. rewrite Hr. cbn [flat_map app]. conj.
    + apply rd_tag; auto. intro X. apply smem_In in X. congruence.
    + destruct (smem (lit tag) void_tags) eqn:Ev; [apply ne_void; [apply smem_In; auto|constructor]|].
      apply (ne_pair (lit tag) _ [] []); [intro X; apply smem_In in X; congruence|constructor|constructor].
    + constructor; [exact Hc2|]. destruct (smem (lit tag) void_tags); repeat constructor.
  - apply smem_In in Ht. destruct (inert_tag_ok _ Ht) as [Hp Hr]. destruct (calm_proper _ _ Ha) as [[Hc1 Hc2]|X]; [|contradiction].
    assert (IH' : forall n, In n ns -> readable (dom_of n) /\ nested (dom_tokens (dom_of n)) /\ Forall inert_token (dom_tokens (dom_of n))).
    { rewrite Forall_forall in IH, Hk. auto. }
    cbn [dom_of dom_tokens]. rewrite Hr, Hv. conj.
    + apply rd_tag; auto; [intro X; apply smem_In in X; congruence|]. apply Forall_map, Forall_forall. intros n Hn. apply IH'; auto.
    + apply ne_pair; [intro X; apply smem_In in X; congruence| |constructor]. clear - IH'.
      induction ns as [|n ns IHn]; [constructor|]. cbn [map flat_map]. apply nested_app; [apply IH'; left; auto|]. apply IHn. intros n' Hn'. apply IH'. right. auto.
    + constructor; [exact Hc2|]. apply Forall_app. split; [|repeat constructor]. apply Forall_forall. intros tk Htk. apply in_flat_map in Htk as (d & Hd & Htk).
      apply in_map_iff in Hd as (n & <- & Hn). destruct (IH' n Hn) as (_ & _ & X). rewrite Forall_forall in X. auto.
Qed.
End Inert.

(** The nodes of such a page. *)
Lemma inert_nodes E toks t R n : parsed E toks t -> ~ substr (lit "[[") (en_text E) -> 3 <= n ->
  exists body i e ns c, html_render R n t = Html body i e /\ h_ref R (tr_toc t) (tr_footnotes t) (tr_bibs t) n (tr_elements t) hctx_new = Done ns c /\
    pnode (NTag (lit "wj-body") (cls "wj-body") (Some ns)) /\ body = dom_text (dom_of (NTag (lit "wj-body") (cls "wj-body") (Some ns))).
Proof.
  intros Hpt Hbb Hn. pose proof Hpt as [Ht Hp].
  destruct (C70_no_blocks E toks t Hpt Hbb) as (_ & _ & Hfn & Hbi & Hx).
  assert (Hen : entries t = []) by (unfold entries; rewrite Hbi; reflexivity).
  assert (Hon : forall x, occurs_in x (tr_elements t) -> on_page t x) by (intros x Ho; exists (tr_elements t); split; [left; auto|auto]).
  destruct (html_render R n t) as [body i e|w|] eqn:Er.
  - exists body, i, e. revert Er.
    unfold html_render. destruct (body_nodes R n t hctx_new) as [ns c|w|] eqn:Eb; try discriminate. rewrite write_nodes_dom. cbn [app].
    intros [= <- <- <-]. destruct n as [|n]; [lia|]. unfold body_nodes in Eb.
    assert (HB : exists ns', ns = [NTag (lit "wj-body") (cls "wj-body") (Some ns')] /\ h_ref R (tr_toc t) (tr_footnotes t) (tr_bibs t) (S n) (tr_elements t) hctx_new = Done ns' c).
    { unfold tag_with in Eb. destruct (re_debug R && _); [discriminate|]. unfold Render.bind in Eb. destruct (h_ref _ _ _ _ _ _ _) as [ns' c'|w|]; try discriminate.
      injection Eb as <- <-. eauto. }
    destruct HB as (ns' & -> & HB). exists ns', c. split; auto. split; auto. split; [|cbn [map flat_map]; rewrite app_nil_r; reflexivity].
    apply (pn_tag "wj-body"); [reflexivity|apply calm_cls|reflexivity|]. cbn [h_ref] in HB. rewrite Hfn, Hbi in HB. revert HB. apply pm_elements.
    intros x Ho. destruct (Hx x (Hon x Ho)) as [Y1 Y2]. split; auto. intros m Hm. split.
    + exact (proj1 (C49_attributes_safe E toks t x m [] [] Hpt (Hon x Ho) Hm)).
    + intros k v Hk. apply (Y2 m k v Hm Hk).
  - exfalso. destruct (C57_panics E toks t R n w Hpt Er) as (v & -> & Hv). destruct v; cbn in Hv; try contradiction.
    + destruct Hv as (p & Ho). destruct (Hx _ Ho) as [Y _]. discriminate Y.
    + destruct Hv as (es & H1 & _). rewrite Hen in H1. destruct H1.
    + destruct Hv as (ty & u & ex & tg & Ho). destruct (Hx _ Ho) as [Y _]. destruct ex; discriminate Y.
    + destruct Hv as (_ & x & m & k & u & Ho & Hi & Hk & Ha). destruct (proj2 (Hx x Ho) m k u Hi Hk) as [-> _]. discriminate Ha.
    + destruct Hv as (s & Ho & _). destruct (Hx _ Ho) as [Y _]. discriminate Y.
  - exfalso. eapply (C56_plain_pages_end E toks t R n); eauto. intros es x He. rewrite Hfn, Hen in He. destruct He.
Qed.

(** C72: a page whose text has no double opening bracket can always be shown, whatever the libraries
    it does not need (CSS, LaTeX) would do; a browser reads nothing but the tags of text, headings,
    lists, tables and links, closed in order, and no attribute twice; the attributes say how
    something looks, what it is called or where a link goes, and links are safe (or the literal that
    does nothing).  So there are no scripts, event handlers, frames, images, forms or styles. *)
Theorem C72_inert : forall E toks t R n, parsed E toks t -> ~ substr (lit "[[") (en_text E) -> 3 <= n ->
  exists body i e, html_render R n t = Html body i e /\ complete body /\ nested (html_tokens body) /\
  forall tag attrs, In (TkOpen tag attrs) (html_tokens body) ->
    In tag inert_tags /\ NoDup (map fst attrs) /\ forall k v, In (k, v) attrs -> inert_attr tag k v.
Proof.
  intros E toks t R n Hpt Hbb Hn. destruct (inert_nodes E toks t R n Hpt Hbb Hn) as (body & i & e & ns & c & Hr & _ & Hd & ->).
  do 3 eexists. split; [exact Hr|]. destruct (pnode_reads _ Hd) as (H1 & H2 & H3). unfold complete, html_tokens. rewrite (read_dom _ H1). cbn [fst snd]. conj; auto.
  intros tag attrs Hi. rewrite Forall_forall in H3. exact (H3 _ Hi).
Qed.
Print Assumptions C72_inert.
(** ... so whoever has a text without double brackets and double closing parentheses (which stop the
    parser, C48) gets such a page. *)
Theorem C72_source_to_page : forall E R n, ~ substr (lit "[[") (en_text E) -> ~ substr (lit "))") (en_text E) -> 3 <= n ->
  exists toks t body i e, extract_all (en_text E) = Some toks /\ parse E toks = Parsed t /\ html_render R n t = Html body i e /\
  complete body /\ nested (html_tokens body) /\
  forall tag attrs, In (TkOpen tag attrs) (html_tokens body) ->
    In tag inert_tags /\ NoDup (map fst attrs) /\ forall k v, In (k, v) attrs -> inert_attr tag k v.
Proof.
  intros E R n Hb Hc Hn. destruct (extract_all_spec (en_text E)) as (mid & Ht & _).
  destruct (C48_no_panic E _ Ht) as [t Hp]; auto.
  destruct (C72_inert E _ t R n (conj Ht Hp) Hb Hn) as (body & i & e & H). do 5 eexists. eauto.
Qed.
Print Assumptions C72_source_to_page.

(** A page with much of what such a page can have. *)
Example C72_case : exists toks t, parsed (test_env bracketless_page) toks t /\ exists body i e, html_render release_renv 5 t = Html body i e /\
  forall tag, In tag (map lit ["h1"; "strong"; "a"; "span"; "ul"; "blockquote"; "table"; "dl"; "hr"]%string) -> exists attrs, In (TkOpen tag attrs) (html_tokens body).
Proof.
  enough (X : exists toks t, parsed (test_env bracketless_page) toks t /\ exists body i e, html_render release_renv 5 t = Html body i e /\
    forallb (fun tag => existsb (fun tk => match tk with TkOpen g _ => seqb tag g | _ => false end) (html_tokens body))
      (map lit ["h1"; "strong"; "a"; "span"; "ul"; "blockquote"; "table"; "dl"; "hr"]%string) = true).
  { destruct X as (toks & t & Hp & body & i & e & Hr & Hx). exists toks, t. split; auto. exists body, i, e. split; auto. intros tag Hi. rewrite forallb_forall in Hx.
    apply Hx, existsb_exists in Hi as ([c|g a|g] & Hi & Hg); try discriminate Hg. apply seqb_eq in Hg. subst g. eauto. }
  page bracketless_page. do 3 eexists. split; [reflexivity|]. vm_compute. reflexivity.
Qed.
(** The style of coloured text is [color:] and what the author wrote: it can set more than a colour. *)
Theorem C72_only_color_refuted : exists E toks t R body i e attrs, parsed E toks t /\ ~ substr (lit "[[") (en_text E) /\
  html_render R 5 t = Html body i e /\ In (TkOpen (lit "span") attrs) (html_tokens body) /\
  In (lit "style", lit "color: red; position: fixed; top: 0;") attrs.
Proof.
  enough (X : exists toks t, parsed (test_env (lit "##red; position: fixed; top: 0|text##")) toks t /\ exists body i e, html_render release_renv 5 t = Html body i e /\
    existsb (fun tk => match tk with TkOpen g a => seqb (lit "span") g && existsb (fun kv => seqb (fst kv) (lit "style") && seqb (snd kv) (lit "color: red; position: fixed; top: 0;")) a | _ => false end) (html_tokens body) = true).
  { destruct X as (toks & t & Hp & body & i & e & Hr & Hx). apply existsb_exists in Hx as ([c|g a|g] & Hi & Hg); try discriminate Hg.
    apply andb_true_iff in Hg as [Hg Ha]. apply seqb_eq in Hg. subst g. apply existsb_exists in Ha as ([k v] & Ha & Hk). apply andb_true_iff in Hk as [Hk Hv]. apply seqb_eq in Hk, Hv. cbn [fst snd] in Hk, Hv. subst k v.
    exists (test_env (lit "##red; position: fixed; top: 0|text##")), toks, t, release_renv, body, i, e, a. conj; auto.
    intros (x & y & H). assert (Hi' : In 91%N (lit "##red; position: fixed; top: 0|text##")).
    { change (lit "##red; position: fixed; top: 0|text##") with (en_text (test_env (lit "##red; position: fixed; top: 0|text##"))). rewrite H. apply in_or_app. right. left. reflexivity. }
    apply cmem_In in Hi'. vm_compute in Hi'. discriminate Hi'. }
  page (lit "##red; position: fixed; top: 0|text##"). do 3 eexists. split; [reflexivity|]. vm_compute. reflexivity.
Qed.
Print Assumptions C72_only_color_refuted.

(** *** C69 in HTML *)
(** In HTML: the letters a reader sees on the page are those of the source (under the same
    conditions). *)
Theorem C69_html_letters_partial : forall E toks t R n, parsed E toks t -> bracketless (en_text E) -> few_headings (en_text E) ->
  3 <= n ->
  exists body i e, html_render R n t = Html body i e /\ letters (page_text (html_tokens body)) = letters (en_text E).
Proof.
  intros E toks t R n Hpt Hb Hf Hn. pose proof Hpt as [Ht Hp].
  assert (Hbb : ~ substr (lit "[[") (en_text E)). { intro X. apply (proj1 Hb). apply (substr_prefix _ (lit "[")). exact X. }
  destruct (C70_no_blocks E toks t Hpt Hbb) as (_ & _ & Hfn & Hbi & Hx).
  assert (Hon : forall x, occurs_in x (tr_elements t) -> on_page t x) by (intros x Ho; exists (tr_elements t); split; [left; auto|auto]).
  destruct (inert_nodes E toks t R n Hpt Hbb Hn) as (body & i & e & ns & c & Hr & H & Hd & ->). do 3 eexists. split; [exact Hr|].
  destruct (pnode_reads _ Hd) as (H1 & _ & _). unfold html_tokens. rewrite (read_dom _ H1). cbn [snd].
  pose proof (node_text_tag (lit "wj-body") (cls "wj-body") ns eq_refl) as X. unfold node_text in X at 1. cbn [map flat_map] in X. rewrite app_nil_r in X. rewrite X.
  destruct n as [|n]; [discriminate|]. cbn [h_ref] in H. apply (shows_elements R t _ (fun _ _ => [])) with (ok := True) in H; [|exact (shows_ref R t n 0)|].
  - destruct H as (_ & _ & H). rewrite (H I).
    rewrite letters_shown. destruct (C69_letters_kept_partial E toks t Hpt Hb Hf) as (out & Ho & Hl).
    rewrite <- Hl, <- (one_line_letters out), (C65_plain_text_partial _ _ _ _ Ho) by (eapply none_covered_here; [exact Hpt|apply Hb]). rewrite one_line_letters.
    apply letters_flat_eq. intros x Hi. apply words_letters; auto. intros y Hy. apply Hx, Hon. exists x. auto.
  - intros _ x Ho Ha. assert (Hbf : bracket_free x = true) by (apply Hx; auto). destruct x; try discriminate Hbf; try exact Ha.
    + destruct ctype; try discriminate Hbf; exact Ha.
    + cbn in Ha. destruct hide; auto.
    + destruct (on_page_ok E toks Ht t _ Hp (Hon _ Ho)) as (F & _ & [H'|H']).
      * destruct Hb as (_ & _ & _ & Hb & _). apply Hb. eapply (token_in_text E toks Ht TLeftParentheses); eauto. cbn. tauto.
      * apply Hbb. apply (block_in_text E toks Ht H').
Qed.
Print Assumptions C69_html_letters_partial.
(** ... so for such a text the whole way from the source to the page succeeds and keeps its letters,
    if it has no double closing parentheses either (those stop the parser, C48). *)
Theorem C69_source_to_page_partial : forall E R n, bracketless (en_text E) -> few_headings (en_text E) -> ~ substr (lit "))") (en_text E) ->
  3 <= n ->
  exists toks t body i e, extract_all (en_text E) = Some toks /\ parse E toks = Parsed t /\ html_render R n t = Html body i e /\
    letters (page_text (html_tokens body)) = letters (en_text E).
Proof.
  intros E R n Hb Hf Hc Hn. destruct (extract_all_spec (en_text E)) as (mid & Ht & _).
  destruct (C48_no_panic E _ Ht) as [t Hp]; auto.
  { intro X. apply (proj1 Hb). apply (substr_prefix _ (lit "[")). exact X. }
  destruct (C69_html_letters_partial E _ t R n (conj Ht Hp) Hb Hf Hn) as (body & i & e & H1 & H2). do 5 eexists. eauto.
Qed.
Print Assumptions C69_source_to_page_partial.
(** The page of C69_case in HTML. *)
Example C69_html_case : exists toks t, parsed (test_env letters_sample) toks t /\
  exists body i e, html_render release_renv 5 t = Html body i e /\
  letters (page_text (html_tokens body)) = lit "FirstheadingSecondboldonetwothreequotedtextkeyvalueandmore50applesrawtext".
Proof.
  page letters_sample. eauto 6.
Qed.
