(** PropRender.v -- theorems about rendering pages to HTML: C56 (rendering ends), C57 (panics). *)
From Verif Require Import Base BaseLemmas Strings Links LinksLemmas Attr Html Preproc Includes Lexer Depth Tree Text Toc PState Blocks Rules Parse
  SpecParse SpecPage ParseInv TreeLemmas ParseLemmas ParseTestEnv PropParse PropPage
  Render SpecReader SpecRender RenderLemmas RenderSafe RenderDom RenderEnds RenderTestEnv.

(** *** C56: rendering ends *)
(** [html_render R n t] follows at most [n] references (to a footnote, a bibliography entry or the
    table of contents) inside one another; the renderer itself has no such bound.  Once it gives a
    result, a larger bound gives the same. *)
Theorem C56_bound_irrelevant : forall R t n m, html_render R n t <> HtmlExhausted -> n <= m -> html_render R m t = html_render R n t.
Proof. intros. apply render_mono; auto. Qed.
Print Assumptions C56_bound_irrelevant.
(** If the references of a tree do not go in circles, rendering it ends. *)
Theorem C56_ends : forall R t, Acc (fun b a => needs t a b) (tr_elements t) ->
  exists n, forall m, n <= m -> html_render R m t <> HtmlExhausted.
Proof.
  intros R t H. destruct (ends_acc R t (tr_elements t) H) as [n Hn]. exists n. intros m Hl. apply render_ends. eapply ends_mono; eauto.
Qed.
Print Assumptions C56_ends.
(** In particular, a parsed page whose footnotes and bibliography entries have no citation, no
    footnote block, no bibliography and no footnote mark inside. *)
Definition plain_reference (x : element) : Prop :=
  match x with EFootnote | EFootnoteBlock _ _ | EBibliographyCite _ _ | EBibliographyBlock _ _ _ => False | _ => True end.
Lemma page_toc E toks t : parsed E toks t -> forall x, occurs_in x (tr_toc t) -> toc_element x.
Proof.
  intros [Ht Hp] x Hx. pose proof (parse_ok E toks Ht) as H. rewrite Hp in H. destruct H as [[_ _ (hs & Hb & _) _]|(e & _ & _ & _ & Hn & _)].
  - eapply build_toc_plain; eauto.
  - rewrite Hn in Hx. destruct Hx as (y & [] & _).
Qed.
Lemma bibs_get_in bs l i es : bibs_get bs l = Some (i, es) -> In es (flat_map (map snd) bs).
Proof.
  induction bs as [|b bs IH]; [discriminate|]. cbn [bibs_get flat_map]. destruct (bib_get b l) as [r|] eqn:Eb.
  - intros [= ->]. apply in_or_app. left. unfold bib_get in Eb. revert Eb. generalize 0 as k. induction b as [|[l' x] b IHb]; intro k; [discriminate|].
    cbn [bib_get_from map snd]. destruct (seqb l l'); [intros [= _ <-]; left; auto|]. intro E. right. eapply IHb; eauto.
  - intro H. apply in_or_app. right. auto.
Qed.
Lemma referenced_in t x L : In L (referenced t x) -> L = tr_toc t /\ (exists a b, x = ETableOfContents a b) \/ In L (tr_footnotes t ++ entries t).
Proof.
  intro H. destruct x; cbn in H; try contradiction.
  - destruct H as [<-|[]]. left. split; auto. eexists; eexists; reflexivity.
  - right. apply in_or_app. auto.
  - destruct hide; [destruct H|]. right. apply in_or_app. auto.
  - destruct (bibs_get (tr_bibs t) label) as [[i es]|] eqn:E; [|destruct H]. destruct H as [<-|[]]. right. apply in_or_app. right. eapply bibs_get_in; eauto.
  - destruct hide; [destruct H|]. destruct (nth_error (tr_bibs t) index) as [b|] eqn:E; [|destruct H]. right. apply in_or_app. right.
    apply in_flat_map. exists b. split; auto. eapply nth_error_In; eauto.
Qed.
Theorem C56_plain_pages_end : forall E toks t R n, parsed E toks t ->
  (forall es x, In es (tr_footnotes t ++ entries t) -> occurs_in x es -> plain_reference x) ->
  3 <= n -> html_render R n t <> HtmlExhausted.
Proof.
  intros E toks t R n Hp Hr Hn. apply render_ends. apply (ends_mono R t 3 n); auto.
  assert (Ht : forall k, sees t (fun _ => True) False false 0 (h_ref R (tr_toc t) (tr_footnotes t) (tr_bibs t) (S k) (tr_toc t))).
  { intro k. apply ends_step. intros b (x & Hx & Hb). exfalso. destruct (page_toc E toks t Hp x Hx) as [(its & -> & _)|(u & nm & ->)]; destruct Hb. }
  apply ends_step. intros b (x & Hx & Hb). apply referenced_in in Hb as [[-> _]|Hb]; [apply Ht|].
  apply ends_step. intros b' (x' & Hx' & Hb'). specialize (Hr b x' Hb Hx'). destruct x'; try contradiction; destruct Hb' as [<-|[]]. apply Ht.
Qed.
Print Assumptions C56_plain_pages_end.
Example C56_case : exists toks t, parsed (test_env (lit "+ h
[[toc]]
a[[footnote]]b //c// [[toc]][[/footnote]]")) toks t /\ (length (tr_footnotes t) = 1 /\ tr_toc t <> []) /\ Acc (fun b a => needs t a b) (tr_elements t).
Proof.
  assert (X : exists toks t, parsed (test_env (lit "+ h
[[toc]]
a[[footnote]]b //c// [[toc]][[/footnote]]")) toks t /\ (length (tr_footnotes t) = 1 /\ tr_toc t <> []) /\
    forallb (fun x => match x with EFootnote | EFootnoteBlock _ _ | EBibliographyCite _ _ | EBibliographyBlock _ _ _ => false | _ => true end)
      (flat_map (flat_map flat) (tr_footnotes t ++ entries t)) = true).
  { page (lit "+ h
[[toc]]
a[[footnote]]b //c// [[toc]][[/footnote]]"). discriminate. }
  destruct X as (toks & t & Hp & Hl & Hf). exists toks, t. conj; auto; try apply Hl.
  assert (Ht : Acc (fun b a => needs t a b) (tr_toc t)).
  { constructor. intros b (x & Hx & Hb). exfalso. destruct (page_toc _ toks t Hp x Hx) as [(its & -> & _)|(u & nm & ->)]; destruct Hb. }
  constructor. intros b (x & Hx & Hb). apply referenced_in in Hb as [[-> _]|Hb]; auto.
  constructor. intros b' (x' & Hx' & Hb'). rewrite forallb_forall in Hf. specialize (Hf x').
  assert (Y : In x' (flat_map (flat_map flat) (tr_footnotes t ++ entries t))) by (apply in_flat_map; exists b; split; auto; apply occurs_in_flat; auto).
  specialize (Hf Y). destruct x'; try discriminate; try contradiction; destruct Hb' as [<-|[]]; auto.
Qed.

(** Circles are possible, and then rendering never ends: no bound is enough, whatever the settings. *)
Definition stuck (m : Render.M) (c : hctx) : Prop := m c = Exhausted.
Definition passes (m : Render.M) : Prop := forall c, exists ns, m c = Done ns c.
Section Stuck.
Variable R : renv.
Lemma stuck_here m m' c : stuck m c -> stuck (m +++ m') c.
Proof. unfold stuck, seq2, Render.bind. intros ->. auto. Qed.
Lemma stuck_next m m' c : passes m -> stuck m' c -> stuck (m +++ m') c.
Proof. unfold stuck, seq2, Render.bind. intros H H'. destruct (H c) as [ns ->]. rewrite H'. auto. Qed.
Definition plain_keys (a : list added) : Prop := forallb (fun a => forallb is_alphanumeric (keys_of a)) a = true.
Lemma stuck_tag tg a m c : plain_keys a -> stuck m c -> stuck (tag_with R tg a m) c.
Proof. unfold stuck, tag_with, plain_keys. intros -> H. rewrite andb_false_r. unfold Render.bind. rewrite H. auto. Qed.
Lemma passes_text s : passes (text s). Proof. intro c. eexists. reflexivity. Qed.
Lemma passes_ret s : passes (Render.ret s). Proof. intro c. eexists. reflexivity. Qed.
Lemma passes_seq m m' : passes m -> passes m' -> passes (m +++ m').
Proof. intros H H' c. unfold seq2, Render.bind. destruct (H c) as [ns ->]. destruct (H' c) as [ns' ->]. eexists. reflexivity. Qed.
Lemma passes_tag tg a m : plain_keys a -> passes m -> passes (tag_with R tg a m).
Proof. unfold tag_with, plain_keys. intros -> H c. rewrite andb_false_r. unfold Render.bind. destruct (H c) as [ns ->]. eexists. reflexivity. Qed.
End Stuck.
Ltac goes := repeat first
  [ apply passes_text | apply passes_ret | apply passes_tag; [reflexivity|] | apply passes_seq ].
Definition circle_footnote : str := lit "a[[footnote]][[footnoteblock]][[/footnote]]".
Theorem C56_footnote_circle_refuted : exists E toks t, parsed E toks t /\ forall R n, html_render R n t = HtmlExhausted.
Proof.
  enough (X : exists toks t, parsed (test_env circle_footnote) toks t /\
    tr_elements t = [EContainer CParagraph [] [EText (lit "a"); EFootnote]] /\
    tr_footnotes t = [[EFootnoteBlock None false]]).
  { destruct X as (toks & t & Hp & He & Hf). exists (test_env circle_footnote), toks, t. split; auto. intros R n.
    assert (Hs : forall n c, stuck (h_ref R (tr_toc t) (tr_footnotes t) (tr_bibs t) n [EFootnoteBlock None false]) c).
    { rewrite Hf. intro k. induction k as [|k IH]; intro c; [reflexivity|]. cbn [h_ref h_elements h_element].
      apply stuck_here.
      unfold render_footnote_block. apply stuck_tag; [reflexivity|]. apply stuck_next; [goes|]. apply stuck_tag; [reflexivity|].
      cbn [footnote_items]. apply stuck_here. apply stuck_tag; [reflexivity|]. apply stuck_next; [goes|]. apply stuck_tag; [reflexivity|]. apply IH. }
    unfold html_render, body_nodes. rewrite He.
    assert (Hb : stuck (tag_with R "wj-body" (cls "wj-body") (h_ref R (tr_toc t) (tr_footnotes t) (tr_bibs t) n [EContainer CParagraph [] [EText (lit "a"); EFootnote]])) hctx_new).
    { apply stuck_tag; [reflexivity|]. destruct n as [|k]; [reflexivity|]. cbn [h_ref h_elements h_element]. apply stuck_here.
      cbn [render_container]. unfold render_container_internal, stuck. cbn [container_tag]. apply stuck_tag; [reflexivity|].
      apply stuck_next; [goes|]. apply stuck_here. unfold stuck, render_footnote. rewrite Hf in *. cbn [hx_footnote hctx_new Nat.sub nth_error].
      apply stuck_tag; [reflexivity|]. apply stuck_next; [goes|]. apply stuck_tag; [reflexivity|]. apply stuck_next; [goes|]. apply stuck_tag; [reflexivity|]. apply Hs. }
    rewrite Hb. reflexivity. }
  page circle_footnote.
Qed.
Print Assumptions C56_footnote_circle_refuted.
Definition circle_bibliography : str := lit "((bibcite a))
[[bibliography]]
: a : see ((bibcite a))
[[/bibliography]]".
Theorem C56_citation_circle_refuted : exists E toks t, parsed E toks t /\ forall R n, html_render R n t = HtmlExhausted.
Proof.
  enough (X : exists toks t, parsed (test_env circle_bibliography) toks t /\
    tr_elements t = EContainer CParagraph [] [EBibliographyCite (lit "a") false] :: tl (tr_elements t) /\
    tr_bibs t = [[(lit "a", [EText (lit "see"); EText (lit " "); EBibliographyCite (lit "a") false])]]).
  { destruct X as (toks & t & Hp & He & Hf). exists (test_env circle_bibliography), toks, t. split; auto. intros R n.
    assert (Hs : forall n c, stuck (h_ref R (tr_toc t) (tr_footnotes t) (tr_bibs t) n [EText (lit "see"); EText (lit " "); EBibliographyCite (lit "a") false]) c).
    { rewrite Hf. intro k. induction k as [|k IH]; intro c; [reflexivity|]. cbn [h_ref h_elements h_element].
      apply stuck_next; [goes|]. apply stuck_next; [goes|]. apply stuck_here. unfold render_bibcite.
      match goal with |- context [bibs_get ?b ?l] => change (bibs_get b l) with (Some (1, [EText (lit "see"); EText (lit " "); EBibliographyCite (lit "a") false])) end. cbn iota beta.
      apply stuck_tag; [reflexivity|]. apply stuck_next; [goes|]. apply stuck_next; [goes|]. apply stuck_next; [goes|]. apply stuck_tag; [reflexivity|].
      apply stuck_next; [goes|]. apply stuck_tag; [reflexivity|]. apply IH. }
    unfold html_render, body_nodes. rewrite He.
    match goal with |- match ?m hctx_new with _ => _ end = _ => assert (Hb : stuck m hctx_new) end.
    { apply stuck_tag; [reflexivity|]. destruct n as [|k]; [reflexivity|]. cbn [h_ref h_elements h_element]. apply stuck_here.
      cbn [render_container]. unfold render_container_internal, stuck. cbn [container_tag]. apply stuck_tag; [reflexivity|].
      apply stuck_here. unfold stuck, render_bibcite. rewrite Hf in *.
      match goal with |- context [bibs_get ?b ?l] => change (bibs_get b l) with (Some (1, [EText (lit "see"); EText (lit " "); EBibliographyCite (lit "a") false])) end. cbn iota beta.
      apply stuck_tag; [reflexivity|]. (apply stuck_next; [goes|]; apply stuck_next; [goes|]; apply stuck_next; [goes|]; apply stuck_tag; [reflexivity|];
      apply stuck_next; [goes|]; apply stuck_tag; [reflexivity|]; apply Hs). }
    rewrite Hb. reflexivity. }
  page circle_bibliography.
Qed.
Print Assumptions C56_citation_circle_refuted.

(** *** C57: panics while rendering *)
(** The only panics rendering a parsed page can reach, and what the page must have for each. *)
Definition possible_rpanic (R : renv) (t : tree) (w : rpanic) : Prop :=
  match w with
  | RPartialElement => exists p, on_page t (EPartial p)
  | RPageLabel => exists ty u ex tg, on_page t (ELink ty (LUrl u) ex LabelPage tg)
  | RCss => exists s, on_page t (EStyle s) /\ re_css R s = CssParseError
  | RAttrKey => re_debug R = true /\
      exists x m k v, on_page t x /\ In m (attrs_of x) /\ In (k, v) m /\ is_alphanumeric k = false
  | RFootnoteIndex => exists es, In es (entries t) /\ occurs_in EFootnote es
  | _ => False
  end.
Lemma no_refs es : ~ occurs_in EFootnote es -> footnote_refs es = 0.
Proof.
  intro H. unfold footnote_refs. destruct (filter is_footnote (flat_map flat es)) as [|x l] eqn:E; [reflexivity|]. exfalso. apply H.
  apply occurs_in_flat. assert (Hx : In x (filter is_footnote (flat_map flat es))) by (rewrite E; left; auto).
  apply filter_In in Hx as [Hx Hf]. destruct x; try discriminate. exact Hx.
Qed.
Theorem C57_panics : forall E toks t R n w, parsed E toks t -> html_render R n t = HtmlPanic w ->
  exists v, w = Some v /\ possible_rpanic R t v.
Proof.
  intros E toks t R n w Hp Hr.
  (* whether some entry has a footnote mark *)
  pose (strict := negb (existsb is_footnote (flat_map (flat_map flat) (entries t)))).
  assert (Hst : strict = true -> forall L, In L (entries t) -> ~ occurs_in EFootnote L).
  { unfold strict. intros Hs L HL Ho. apply negb_true_iff, not_true_iff_false in Hs. apply Hs. apply existsb_exists. exists EFootnote. split; auto.
    apply in_flat_map. exists L. split; auto. apply occurs_in_flat. auto. }
  assert (Hsf : strict = false -> possible_rpanic R t RFootnoteIndex).
  { unfold strict. intro Hs. apply negb_false_iff in Hs. apply existsb_exists in Hs as (x & Hx & Hf). destruct x; try discriminate.
    apply in_flat_map in Hx as (L & HL & Hx). exists L. split; auto. apply occurs_in_flat. auto. }
  set (W := possible_rpanic R t).
  assert (Hown : forall x v, on_page t x -> own_panic R t x v -> W v).
  { intros x v Hx Hv. destruct v; cbn in Hv; try contradiction.
    - destruct Hv as (p & ->). exists p. auto.
    - destruct Hv as (ty & u & ex & tg & ->). exists ty, u, ex, tg. exact Hx.
    - destruct Hv as (i & ti & h & -> & Hn). exfalso. destruct (proj1 (C53_bibliographies E toks t Hp) i ti h Hx) as [b Hb]. congruence.
    - destruct Hv as (Hd & m & [k v] & Hm & Hkv & Ha). split; auto. exists x, m, k, v. auto.
    - destruct Hv as (s & -> & Hs). exists s. auto. }
  assert (Htoc : forall x v, occurs_in x (tr_toc t) -> own_panic R t x v -> False).
  { intros x v Hx Hv. destruct (page_toc E toks t Hp x Hx) as [(its & -> & Hb)|(u & nm & ->)]; destruct v; cbn in Hv; try contradiction;
      repeat match goal with H : exists _, _ |- _ => destruct H | H : _ /\ _ |- _ => destruct H end; try discriminate.
    - destruct H0 as [<-|H0]; [contradiction|]. apply in_flat_map in H0 as ([b es|y] & Hi & H0); cbn in H0.
      + destruct H0 as [<-|[]]. rewrite (Hb b es Hi) in H1. contradiction.
      + contradiction.
    - contradiction. }
  assert (Hz : strict = true -> forall L, In L (tr_toc t :: tr_footnotes t ++ entries t) -> footnote_refs L = 0).
  { intros Hs L [<-|HL]; apply no_refs.
    - intro Ho. destruct (page_toc E toks t Hp _ Ho) as [(its & Hi & _)|(u & nm & Hi)]; discriminate.
    - apply in_app_or in HL as [HL|HL]; [eapply C51_footnotes_flat; eauto|auto]. }
  assert (HS : forall k L, In L (tr_toc t :: page_lists t) ->
    sees t W True strict (footnote_refs L) (h_ref R (tr_toc t) (tr_footnotes t) (tr_bibs t) k L)).
  { induction k as [|k IH]; intros L HL; [intros c Hc; exact I|]. cbn [h_ref]. apply sees_elements; [exact Hsf|]. intros x Hx. split.
    - intros v Hv. destruct HL as [<-|HL]; [exfalso; eauto|]. apply (Hown x); auto. exists L. auto.
    - intros L' HL'. assert (Hin : In L' (tr_toc t :: tr_footnotes t ++ entries t)).
      { apply referenced_in in HL' as [[-> _]|HL']; [left; auto|right; auto]. }
      assert (Hin' : In L' (tr_toc t :: page_lists t)).
      { destruct Hin as [<-|Hin]; [left; auto|right; right; exact Hin]. }
      specialize (IH L' Hin'). destruct strict eqn:Es.
      + rewrite (Hz eq_refl L' Hin) in IH. exact IH.
      + intros c _. specialize (IH c). unfold room in IH. specialize (IH ltac:(discriminate)). destruct (h_ref _ _ _ _ k L' c); auto. destruct IH as [_ IH]. split; [discriminate|exact IH]. }
  assert (HB : sees t W True strict (footnote_refs (tr_elements t)) (body_nodes R n t)).
  { unfold body_nodes. apply sees_tag; [repeat constructor|]. apply HS. right. left. auto. }
  specialize (HB hctx_new). unfold html_render in Hr. destruct (body_nodes R n t hctx_new) as [ns c|v|] eqn:Eb.
  - rewrite write_nodes_dom in Hr. discriminate.
  - injection Hr as <-. exists v. split; auto. apply HB. intros _. cbn. split; auto. pose proof (C51_footnotes_exist E toks t Hp). lia.
  - discriminate.
Qed.
Print Assumptions C57_panics.
(** A page with no unfinished elements, page-labelled URL links, style sheets or marks in
    bibliography entries renders without panic in a release build. *)
Definition calm (x : element) : Prop :=
  match x with EPartial _ | ELink _ (LUrl _) _ LabelPage _ | EStyle _ => False | _ => True end.
Theorem C57_calm_pages : forall E toks t R n w, parsed E toks t -> re_debug R = false ->
  (forall x, on_page t x -> calm x) -> (forall es, In es (entries t) -> ~ occurs_in EFootnote es) ->
  html_render R n t <> HtmlPanic w.
Proof.
  intros E toks t R n w Hp Hd Hc He Hr. destruct (C57_panics E toks t R n w Hp Hr) as (v & -> & Hv). destruct v; cbn in Hv; try contradiction.
  - destruct Hv as (p & Hx). exact (Hc _ Hx).
  - destruct Hv as (es & H1 & H2). exact (He es H1 H2).
  - destruct Hv as (ty & u & ex & tg & Hx). exact (Hc _ Hx).
  - destruct Hv as [Hv _]. congruence.
  - destruct Hv as (s & Hx & _). exact (Hc _ Hx).
Qed.
Print Assumptions C57_calm_pages.
Definition release_renv : renv :=
  let R := test_renv (lit "p") in
  RENV (re_site R) (re_page R) (re_true_ids R) (re_local_paths R) false (re_word R) (re_normalize R) (re_page_exists R) (re_random R)
       (re_css R) (re_mathml R) (re_timestamp R) (re_delta R) (re_format R).
Example C57_case : exists toks t, parsed (test_env (lit "+ h
**a** [[[b]]] [[footnote]]c[[/footnote]] ((bibcite d))
[[bibliography]]
: d : e
[[/bibliography]]")) toks t /\ (forall x, on_page t x -> calm x) /\ (forall es, In es (entries t) -> ~ occurs_in EFootnote es) /\
  exists body i e, html_render release_renv 5 t = Html body i e.
Proof.
  assert (X : exists toks t, parsed (test_env (lit "+ h
**a** [[[b]]] [[footnote]]c[[/footnote]] ((bibcite d))
[[bibliography]]
: d : e
[[/bibliography]]")) toks t /\
    forallb (fun x => match x with EPartial _ | ELink _ (LUrl _) _ LabelPage _ | EStyle _ => false | _ => true end)
      (flat_map (flat_map flat) (page_lists t)) = true /\
    forallb (fun x => negb (is_footnote x)) (flat_map (flat_map flat) (entries t)) = true /\
    exists body i e, html_render release_renv 5 t = Html body i e).
  { page (lit "+ h
**a** [[[b]]] [[footnote]]c[[/footnote]] ((bibcite d))
[[bibliography]]
: d : e
[[/bibliography]]"). eauto. }
  destruct X as (toks & t & Hp & H1 & H2 & H3). exists toks, t. split; auto. rewrite forallb_forall in H1, H2. split; [|split; auto].
  - intros x (es & Hes & Hx). specialize (H1 x). apply occurs_in_flat in Hx. assert (Y : In x (flat_map (flat_map flat) (page_lists t))) by (apply in_flat_map; eauto).
    specialize (H1 Y). destruct x; try discriminate; try exact I. destruct link; [exact I|]. destruct label; try discriminate; exact I.
  - intros es Hes Hx. apply occurs_in_flat in Hx. assert (Y : In EFootnote (flat_map (flat_map flat) (entries t))) by (apply in_flat_map; eauto).
    specialize (H2 _ Y). discriminate.
Qed.
(** Each of the five can happen to a page an author writes. *)
Ltac rpage x := apply (page_check x); vm_compute; reflexivity.
Theorem C57_partial_refuted : exists E toks t R, parsed E toks t /\ re_debug R = false /\ html_render R 5 t = HtmlPanic (Some RPartialElement).
Proof.
  enough (X : exists toks t, parsed (test_env (lit "[[ruby]]**[[rt]]x[[/rt]]**[[/ruby]]")) toks t /\ html_render release_renv 5 t = HtmlPanic (Some RPartialElement)).
  { destruct X as (toks & t & Hp & H). do 3 eexists. exists release_renv. eauto. }
  rpage (lit "[[ruby]]**[[rt]]x[[/rt]]**[[/ruby]]").
Qed.
Print Assumptions C57_partial_refuted.
Theorem C57_link_refuted : exists E toks t R, parsed E toks t /\ re_debug R = false /\ html_render R 5 t = HtmlPanic (Some RPageLabel).
Proof.
  enough (X : exists toks t, parsed (test_env (lit "[[[http://x| ]]]")) toks t /\ html_render release_renv 5 t = HtmlPanic (Some RPageLabel)).
  { destruct X as (toks & t & Hp & H). do 3 eexists. exists release_renv. eauto. }
  rpage (lit "[[[http://x| ]]]").
Qed.
Print Assumptions C57_link_refuted.
Theorem C57_footnote_refuted : exists E toks t R, parsed E toks t /\ re_debug R = false /\ html_render R 5 t = HtmlPanic (Some RFootnoteIndex).
Proof.
  enough (X : exists toks t, parsed (test_env (lit "((bibcite a))
[[bibliography]]
: a : see [[footnote]]a[[/footnote]]
[[/bibliography]]")) toks t /\ html_render release_renv 5 t = HtmlPanic (Some RFootnoteIndex)).
  { destruct X as (toks & t & Hp & H). do 3 eexists. exists release_renv. eauto. }
  rpage (lit "((bibcite a))
[[bibliography]]
: a : see [[footnote]]a[[/footnote]]
[[/bibliography]]").
Qed.
Print Assumptions C57_footnote_refuted.
Theorem C57_attribute_refuted : exists E toks t R, parsed E toks t /\ re_debug R = true /\ html_render R 5 t = HtmlPanic (Some RAttrKey).
Proof.
  pose (x := lit "[[div data-" ++ [34%N] ++ lit "x" ++ [34%N] ++ lit "=" ++ [34%N] ++ lit "z" ++ [34%N] ++ lit "]]a[[/div]]").
  enough (X : exists toks t, parsed (test_env x) toks t /\ html_render (test_renv (lit "p")) 5 t = HtmlPanic (Some RAttrKey)).
  { destruct X as (toks & t & Hp & H). do 3 eexists. exists (test_renv (lit "p")). eauto. }
  rpage x.
Qed.
Print Assumptions C57_attribute_refuted.
(** A style sheet the CSS library rejects: whatever it rejects. *)
Theorem C57_style_refuted : forall R, re_css R (lit "a{") = CssParseError ->
  exists E toks t, parsed E toks t /\ html_render R 5 t = HtmlPanic (Some RCss).
Proof.
  intros R HR. enough (X : exists toks t, parsed (test_env (lit "[[module css]]
a{
[[/module]]")) toks t /\ exists r, tr_elements t = EStyle (lit "a{") :: r).
  { destruct X as (toks & t & Hp & r & H). do 3 eexists. split; [exact Hp|]. unfold html_render, body_nodes. rewrite H.
    cbn [h_ref h_elements h_element]. unfold render_style. rewrite HR. unfold tag_with.
    replace (re_debug R && _) with false by (cbn [forallb]; destruct (re_debug R); reflexivity). reflexivity. }
  apply page_check. vm_compute. eauto.
Qed.
Print Assumptions C57_style_refuted.
