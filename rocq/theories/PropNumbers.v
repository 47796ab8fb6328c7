(** PropNumbers.v -- C67: headings and footnotes are numbered in order. *)
From Coq Require Import DecimalNat DecimalString.
From Verif Require Import Base BaseLemmas Strings StringsLemmas Links SpecLinks LinksLemmas PropLinks Attr SpecAttr AttrLemmas Html SpecHtml HtmlLemmas PropHtml Preproc Includes Lexer Depth Tree Text Toc PState Blocks Rules Parse
  SpecParse SpecPage ParseInv TreeLemmas ParseLemmas ParseTestEnv PropParse PropPage
  Render SpecReader SpecRender RenderLemmas RenderSafe RenderDom RenderEnds RenderNames RenderTestEnv PropRender RenderView SpecText SpecShown RenderWords PropShown SpecNumbers RenderNumbers.

Definition value_of (tags : list str) (attr : str) (tk : htoken) : list str :=
  match tk with
  | TkOpen tag attrs => if smem tag tags then map snd (filter (fun kv => seqb (fst kv) attr) attrs) else []
  | _ => []
  end.
Lemma values_math R tags attr out : mathml_apart R -> incl tags (heading_tags ++ mark_tags) -> mathml_output R out -> flat_map (value_of tags attr) (html_tokens out) = [].
Proof.
  intros Ha Hi Ho. assert (X : forall ts, (forall tag attrs, In (TkOpen tag attrs) ts -> ~ In tag (heading_tags ++ mark_tags)) -> flat_map (value_of tags attr) ts = []).
  { induction ts as [|tk ts IH]; intro H; [reflexivity|]. cbn [flat_map]. rewrite IH by (intros; eapply H; right; eauto).
    destruct tk as [c|tag attrs|tag]; cbn [value_of]; try reflexivity. destruct (smem tag tags) eqn:E; [|reflexivity]. exfalso. apply smem_In, Hi in E.
    exact (H tag attrs (or_introl eq_refl) E). }
  apply X. intros tag attrs Hin. eapply Ha; eauto.
Qed.
Lemma page_numbers E toks t R mark get name n : parsed E toks t ->
  (forall c, mark (TkChar c) = []) -> (forall tg, mark (TkClose tg) = []) -> (forall tg attrs, smem tg special = false -> mark (TkOpen tg attrs) = []) ->
  (forall out, mathml_output R out -> flat_map mark (html_tokens out) = []) ->
  (forall c n, get (set_code c n) = get c) -> (forall c n, get (set_equation c n) = get c) -> (forall c n, get (set_random c n) = get c) ->
  (forall c n, get (set_scopes c n) = get c) -> (forall c n, get (add_internal c n) = get c) -> (forall c n, get (add_external c n) = get c) -> (forall c r b, get (add_page c r b) = get c) ->
  (forall h m, numbers mark get name m -> numbers mark get name (render_container R (CHeader h) [] m)) ->
  (forall ref, (forall L, In L (tr_footnotes t) -> numbers mark get name (ref L)) -> numbers mark get name (render_footnote R (tr_footnotes t) ref)) ->
  forall L, In L (tr_toc t :: page_lists t) -> numbers mark get name (h_ref R (tr_toc t) (tr_footnotes t) (tr_bibs t) n L).
Proof.
  intros Hp M1 M2 M3 M4 G1 G2 G3 G4 G5 G6 G7 Hh Hf. induction n as [|n IH]; intros L HL; [intros c ns c' X; discriminate|]. cbn [h_ref].
  assert (IH' : forall x, here t x -> forall L, In L (referenced t x) -> numbers mark get name (h_ref R (tr_toc t) (tr_footnotes t) (tr_bibs t) n L)).
  { intros x Hx L' HL'. apply IH. apply referenced_in in HL' as [[-> _]|HL']; [left; auto|]. right. right. exact HL'. }
  apply n_elements; auto.
  - intro Hx. apply Hf. intros L' HL'. eapply IH'; eauto.
  - intros h a es [Hx|Hx].
    + destruct Hp as [Ht Hp]. destruct (on_page_ok E toks Ht t _ Hp Hx) as (F & _ & H). apply H.
    + destruct (page_toc E toks t Hp _ Hx) as [(its & He & _)|(u & nm & He)]; discriminate.
  - intros x Hx. destruct HL as [<-|HL]; [right; auto|]. left. exists L. auto.
Qed.

Lemma seq_cons {A} (f : nat -> A) n k : f n :: map f (seq (S n) k) = map f (seq n (S k)). Proof. reflexivity. Qed.
Definition toc_id (i : nat) : str := lit "toc" ++ dec i.
Lemma shown_plain s : Forall (fun c => ~ In c [60; 62; 38; 34; 39; 0]%N) s -> shown s = s.
Proof.
  unfold shown. induction 1 as [|c s Hc _ IH]; [reflexivity|]. cbn [map]. rewrite IH, ceqb_ne; auto. intros ->. apply Hc. cbn. tauto.
Qed.
Lemma shown_toc i : shown (toc_id i) = toc_id i.
Proof. unfold toc_id. rewrite RenderWords.shown_app, (shown_plain (dec i)) by apply dec_plain. reflexivity. Qed.
Lemma body_marks mark ns : mark (TkOpen (lit "wj-body") [(lit "class", lit "wj-body")]) = [] -> (forall tg, mark (TkClose tg) = []) ->
  flat_map mark (dom_tokens (dom_of (NTag (lit "wj-body") (cls "wj-body") (Some ns)))) = marks mark ns.
Proof.
  intros H1 H2. assert (X : flat_map mark (dom_tokens (dom_of (NTag (lit "wj-body") (cls "wj-body") (Some ns)))) = marks mark [NTag (lit "wj-body") (cls "wj-body") (Some ns)]).
  { unfold marks, node_tokens. cbn [map flat_map]. rewrite app_nil_r. reflexivity. }
  rewrite X, marks_tag by (auto; reflexivity).
  change (flat_map attr_pairs (cls "wj-body")) with [(lit "class", lit "wj-body")]. cbn [map fst snd]. change (shown (lit "wj-body")) with (lit "wj-body"). rewrite H1. reflexivity.
Qed.
(** The ids of the headings are toc0, toc1, toc2 and so on, in the order of the page. *)
Theorem C67_headings : forall E toks t R n body i e, parsed E toks t ->
  proper_names t -> css_contained R t -> mathml_contained R -> mathml_apart R -> html_render R n t = Html body i e -> re_true_ids R = true ->
  exists k, heading_ids (html_tokens body) = map (fun i => lit "toc" ++ dec i) (seq 0 k).
Proof.
  intros E toks t R n body i e Hp Hn Hc Hm Ha Hr Hi. destruct (page_nodes _ _ _ _ _ _ _ _ Hp Hn Hc Hm Hr) as (ns & c & H & ->).
  change (exists k, flat_map (value_of heading_tags (lit "id")) (dom_tokens (dom_of (NTag (lit "wj-body") (cls "wj-body") (Some ns)))) = map toc_id (seq (hx_toc hctx_new) k)).
  assert (X : numbers (value_of heading_tags (lit "id")) hx_toc toc_id (h_ref R (tr_toc t) (tr_footnotes t) (tr_bibs t) n (tr_elements t))).
  { apply (page_numbers E toks); auto; try reflexivity.
    - intros tg attrs Hs. cbn [value_of]. destruct (smem tg heading_tags) eqn:Et; auto. exfalso. apply not_true_iff_false in Hs. apply Hs, smem_In.
      apply smem_In in Et. unfold special. unfold heading_tags in Et. cbn [map] in *. cbn [In] in *. tauto.
    - intros out Ho. eapply values_math; eauto. apply incl_appl, incl_refl.
    - intros h m Hm' c0 ns0 c0'. cbn [render_container]. unfold render_container_internal. cbn [container_tag]. destruct (hd_has_toc h).
      + rewrite Hi. intro E0. apply tag_with_inv in E0 as (b & E1 & ->). apply Hm' in E1 as (k & K1 & K2). exists (S k).
        cbn [hx_toc set_toc] in K1, K2. split; [|lia]. rewrite marks_tag; [|reflexivity|unfold heading_tag; destruct (hd_level h) as [|[|[|[|[|[|]]]]]]; reflexivity].
        rewrite K1, <- seq_cons. change (toc_id (hx_toc c0) :: map toc_id (seq (S (hx_toc c0)) k)) with ([toc_id (hx_toc c0)] ++ map toc_id (seq (S (hx_toc c0)) k)). f_equal.
        assert (Ep : flat_map attr_pairs (with_map [en "id" [lit "toc" ++ dec (hx_toc c0)]] []) = [(lit "id", toc_id (hx_toc c0))]) by (cbn; rewrite app_nil_r; reflexivity).
        rewrite Ep. cbn [map fst snd]. rewrite shown_toc. unfold value_of, heading_tag. destruct (hd_level h) as [|[|[|[|[|[|]]]]]]; reflexivity.
      + intro E0. apply tag_with_inv in E0 as (b & E1 & ->). apply Hm' in E1 as (k & K1 & K2). exists k. split; auto.
        rewrite marks_tag; [|reflexivity|unfold heading_tag; destruct (hd_level h) as [|[|[|[|[|[|]]]]]]; reflexivity].
        rewrite K1. unfold value_of, heading_tag. destruct (hd_level h) as [|[|[|[|[|[|]]]]]]; reflexivity.
    - intros ref Href c0 ns0 c0'. unfold render_footnote. destruct (nth_error (tr_footnotes t) (hx_footnote c0 - 1)) as [es|] eqn:En; [|discriminate].
      intro E0. change (hx_toc c0) with (hx_toc (set_footnote c0 (S (hx_footnote c0)))). revert E0. generalize (set_footnote c0 (S (hx_footnote c0))) as c1. intros c1 E0.
      assert (Hes : numbers (value_of heading_tags (lit "id")) hx_toc toc_id (ref es)) by (apply Href; eapply nth_error_In; eauto).
      match type of E0 with ?m c1 = _ => assert (Y : numbers (value_of heading_tags (lit "id")) hx_toc toc_id m); [|exact (Y _ _ _ E0)] end.
      apply (n_tag_open R); [reflexivity..|]. apply n_seq.
      + apply (n_tag_open R); [reflexivity..|]. apply n_text. reflexivity.
      + apply (n_tag_open R); [reflexivity..|]. apply n_seq; (apply (n_tag_open R); [reflexivity..|]); [apply n_text; reflexivity|exact Hes].
    - right. left. auto. }
  apply X in H as (k & K1 & _). exists k. rewrite <- K1. apply body_marks; reflexivity.
Qed.
Print Assumptions C67_headings.
(** ... so no two are the same. *)
Lemma lit_inj a : forall b, lit a = lit b -> a = b.
Proof.
  induction a as [|x a IH]; intros [|y b] H; try discriminate; auto. cbn in H. injection H as H1 H2. f_equal; [|auto].
  rewrite <- (Ascii.ascii_N_embedding x), <- (Ascii.ascii_N_embedding y). congruence.
Qed.
Lemma dec_inj n m : dec n = dec m -> n = m.
Proof.
  unfold dec. intro H. apply lit_inj in H. apply (f_equal NilZero.uint_of_string) in H.
  assert (X : forall k, Nat.to_uint k <> Decimal.Nil) by (intros k Hk; pose proof (Unsigned.of_to k) as Z; rewrite Hk in Z; cbn in Z; subst k; discriminate).
  rewrite !NilZero.usu in H by apply X. injection H as H. apply (f_equal Nat.of_uint) in H. rewrite !Unsigned.of_to in H. exact H.
Qed.
Theorem C67_headings_distinct : forall E toks t R n body i e, parsed E toks t ->
  proper_names t -> css_contained R t -> mathml_contained R -> mathml_apart R -> html_render R n t = Html body i e -> re_true_ids R = true ->
  NoDup (heading_ids (html_tokens body)).
Proof.
  intros. destruct (C67_headings E toks t R n body i e) as [k ->]; auto. apply FinFun.Injective_map_NoDup; [|apply seq_NoDup].
  intros a b H6. apply app_inv_head in H6. apply dec_inj. exact H6.
Qed.
Print Assumptions C67_headings_distinct.
(** The footnote marks on the page are 1, 2, 3 and so on, in order, wherever they are (in a table, a
    tab, another footnote). *)
Theorem C67_footnote_marks : forall E toks t R n body i e, parsed E toks t ->
  proper_names t -> css_contained R t -> mathml_contained R -> mathml_apart R -> html_render R n t = Html body i e ->
  exists k, footnote_marks (html_tokens body) = map dec (seq 1 k).
Proof.
  intros E toks t R n body i e Hp Hn Hc Hm Ha Hr. destruct (page_nodes _ _ _ _ _ _ _ _ Hp Hn Hc Hm Hr) as (ns & c & H & ->).
  change (exists k, flat_map (value_of mark_tags (lit "data-id")) (dom_tokens (dom_of (NTag (lit "wj-body") (cls "wj-body") (Some ns)))) = map dec (seq (hx_footnote hctx_new) k)).
  assert (X : numbers (value_of mark_tags (lit "data-id")) hx_footnote dec (h_ref R (tr_toc t) (tr_footnotes t) (tr_bibs t) n (tr_elements t))).
  { apply (page_numbers E toks); auto; try reflexivity.
    - intros tg attrs Hs. cbn [value_of]. destruct (smem tg mark_tags) eqn:Et; auto. exfalso. apply not_true_iff_false in Hs. apply Hs, smem_In.
      apply smem_In in Et. unfold special. unfold mark_tags in Et. cbn [map] in *. cbn [In] in *. tauto.
    - intros out Ho. eapply values_math; eauto. apply incl_appr, incl_refl.
    - intros h m Hm' c0 ns0 c0'. cbn [render_container]. unfold render_container_internal. cbn [container_tag].
      assert (Y : forall a c1, hx_footnote c1 = hx_footnote c0 -> tag_with R (heading_tag (hd_level h)) a m c1 = Done ns0 c0' ->
        exists k, marks (value_of mark_tags (lit "data-id")) ns0 = map dec (seq (hx_footnote c0) k) /\ hx_footnote c0' = hx_footnote c0 + k).
      { intros a c1 Hf E0. rewrite <- Hf. revert E0. apply n_tag_open; auto; intros; unfold heading_tag; destruct (hd_level h) as [|[|[|[|[|[|]]]]]]; reflexivity. }
      destruct (hd_has_toc h); [|intro E0; exact (Y _ _ eq_refl E0)]. destruct (re_true_ids R); intro E0; [refine (Y _ _ _ E0)|refine (Y _ _ _ E0)]; reflexivity.
    - intros ref Href c0 ns0 c0'. unfold render_footnote. destruct (nth_error (tr_footnotes t) (hx_footnote c0 - 1)) as [es|] eqn:En; [|discriminate].
      assert (Hes : numbers (value_of mark_tags (lit "data-id")) hx_footnote dec (ref es)) by (apply Href; eapply nth_error_In; eauto). clear En.
      intro E0. apply tag_with_inv in E0 as (b & E0 & ->). rewrite marks_tag by reflexivity.
      apply seq2_inv in E0 as (a1 & c1 & a2 & E1 & E2 & ->). apply tag_with_inv in E1 as (b1 & E1 & ->). injection E1 as <- <-.
      unfold marks. rewrite node_tokens_app, flat_map_app. fold (marks (value_of mark_tags (lit "data-id")) a2).
      fold (marks (value_of mark_tags (lit "data-id")) [NTag (lit "wj-footnote-ref-marker") (own [en "class" [lit "wj-footnote-ref-marker"]; en "role" [lit "link"]; en "aria-label" [get_message "footnote" ++ lit " " ++ dec (hx_footnote c0) ++ lit "."]; en "data-id" [dec (hx_footnote c0)]]) (Some [NText (dec (hx_footnote c0))])]).
      assert (Y : numbers (value_of mark_tags (lit "data-id")) hx_footnote dec (tag_with R "span" (own [en "class" [lit "wj-footnote-ref-tooltip"]; en "aria-hidden" [lit "true"]])
                 (tag_with R "span" (cls "wj-footnote-ref-tooltip-label") (text (get_message "footnote" ++ lit " " ++ dec (hx_footnote c0) ++ lit "."))
                  +++ tag_with R "span" (cls "wj-footnote-ref-contents") (ref es)))).
      { apply n_tag_open; try reflexivity. apply n_seq; (apply n_tag_open; try reflexivity); auto. apply n_text. reflexivity. }
      apply Y in E2 as (k & K1 & K2). cbn [hx_footnote set_footnote] in K1, K2. exists (S k). split; [|lia]. rewrite K1, <- seq_cons.
      match goal with |- ?x ++ ?y ++ ?z = _ => assert (Z : x = [] /\ y = [dec (hx_footnote c0)]); [split|destruct Z as [-> ->]; reflexivity] end; [reflexivity|].
      rewrite marks_tag by reflexivity. set (s := dec (hx_footnote c0)). assert (Z : shown s = s) by apply shown_plain, dec_plain.
      set (l := get_message "footnote" ++ lit " " ++ s ++ lit ".").
      assert (Ep : flat_map attr_pairs (own [en "class" [lit "wj-footnote-ref-marker"]; en "role" [lit "link"]; en "aria-label" [l]; en "data-id" [s]]) =
        [(lit "class", lit "wj-footnote-ref-marker"); (lit "role", lit "link"); (lit "aria-label", l); (lit "data-id", s)]) by (cbn; rewrite !app_nil_r; reflexivity).
      rewrite Ep. cbn [map fst snd]. rewrite Z.
      assert (Q : marks (value_of mark_tags (lit "data-id")) [NText s] = []).
      { unfold marks, node_tokens. cbn [map flat_map dom_of dom_tokens]. rewrite app_nil_r. apply marks_chars. reflexivity. }
      rewrite Q. reflexivity.
    - right. left. auto. }
  apply X in H as (k & K1 & _). exists k. rewrite <- K1. apply body_marks; reflexivity.
Qed.
Print Assumptions C67_footnote_marks.
(** But a mark need not show the footnote written there: one that was read and then given up with the
    text around it (here with the bold text that does not end) still counts, so the mark after "b"
    shows the footnote written after "a", and there is a third footnote without a mark. *)
Definition shifted_page : str := lit "**a[[footnote]]x[[/footnote]]

b[[footnote]]y[[/footnote]]".
Theorem C67_footnote_refuted : exists toks t body i e, parsed (test_env shifted_page) toks t /\ html_render release_renv 5 t = Html body i e /\
  tr_footnotes t = [[EText (lit "x")]; [EText (lit "x")]; [EText (lit "y")]] /\
  footnote_marks (html_tokens body) = [lit "1"; lit "2"] /\
  page_text (html_tokens body) = lit "**a1Footnote 1.xb2Footnote 2.xFootnotes1.x2.x3.y".
Proof.
  enough (X : exists toks t, parsed (test_env shifted_page) toks t /\ exists body i e, html_render release_renv 5 t = Html body i e /\
  tr_footnotes t = [[EText (lit "x")]; [EText (lit "x")]; [EText (lit "y")]] /\
  footnote_marks (html_tokens body) = [lit "1"; lit "2"] /\
  page_text (html_tokens body) = lit "**a1Footnote 1.xb2Footnote 2.xFootnotes1.x2.x3.y").
  { destruct X as (toks & t & Hp & body & i & e & X). exists toks, t, body, i, e. auto. }
  page shifted_page. eauto 10.
Qed.
Print Assumptions C67_footnote_refuted.
(** Likewise the table of contents lists headings that are not on the page, and its links then lead to
    other headings (here "a" leads to the heading "b") or nowhere. *)
Definition astray_page : str := lit "[[iftags +x]]
+ a
[[/iftags]]
+ b
[[toc]]".
Theorem C67_contents_refuted : exists toks t body i e, parsed (test_env astray_page) toks t /\ html_render release_renv 5 t = Html body i e /\
  heading_ids (html_tokens body) = [lit "toc0"] /\
  values_of [lit "a"] (lit "href") (html_tokens body) = [lit "javascript:;"; lit "#toc0"; lit "#toc1"] /\
  page_text (html_tokens body) = lit "bTable of Contentsab".
Proof.
  enough (X : exists toks t, parsed (test_env astray_page) toks t /\ exists body i e, html_render release_renv 5 t = Html body i e /\
  heading_ids (html_tokens body) = [lit "toc0"] /\
  values_of [lit "a"] (lit "href") (html_tokens body) = [lit "javascript:;"; lit "#toc0"; lit "#toc1"] /\
  page_text (html_tokens body) = lit "bTable of Contentsab").
  { destruct X as (toks & t & Hp & body & i & e & X). exists toks, t, body, i, e. auto. }
  page astray_page. eauto 10.
Qed.
Print Assumptions C67_contents_refuted.
Definition numbered_page : str := lit "+ a
+* b
++ c[[footnote]]x[[/footnote]]
[[tabview]]
[[tab One]]
+ d
e[[footnote]]y[[/footnote]]
[[/tab]]
[[/tabview]]
[[footnoteblock]]".
Example C67_case : exists toks t, parsed (test_env numbered_page) toks t /\ proper_names t /\ css_contained release_renv t /\ mathml_contained release_renv /\
  mathml_apart release_renv /\ re_true_ids release_renv = true /\ exists body i e, html_render release_renv 5 t = Html body i e /\
  heading_ids (html_tokens body) = map lit ["toc0"; "toc1"; "toc2"]%string /\ footnote_marks (html_tokens body) = [lit "1"; lit "2"].
Proof.
  enough (X : exists toks t, parsed (test_env numbered_page) toks t /\ easy_page t = true /\ exists body i e, html_render release_renv 5 t = Html body i e /\
  heading_ids (html_tokens body) = map lit ["toc0"; "toc1"; "toc2"]%string /\ footnote_marks (html_tokens body) = [lit "1"; lit "2"]).
  { destruct X as (toks & t & Hp & He & X). apply easy_page_ok in He as (H1 & H2 & H3). exists toks, t. conj; auto.
    intros out tag attrs (f & b & src & Hf & _). discriminate Hf. }
  page numbered_page. eauto 10.
Qed.
