(** PropPage.v -- theorems about whole pages: C40, C41, C48-C55. *)
From Verif Require Import Base BaseLemmas Strings Links Attr SpecAttr AttrLemmas Preproc Includes Lexer SpecLexer LexerLemmas
  Depth Tree TreeLemmas SpecTree Text Toc PState Blocks Rules Parse SpecParse SpecPage ParseInv PStateLemmas ParseLemmas ParseTestEnv PropParse.

(** *** C40 *)
Theorem C40_code_names_unique : forall E toks t, parsed E toks t -> NoDup (names_of (tr_code t)).
Proof. intros E toks t [Ht Hp]. apply (page_shared E toks Ht t Hp). Qed.
Print Assumptions C40_code_names_unique.
Example C40_case : exists toks t, parsed (test_env (lit "[[code name=""a""]]
x
[[/code]]
[[code name=""b""]]
y
[[/code]]
[[code name=""A""]]
z
[[/code]]")) toks t /\ names_of (tr_code t) = [lit "a"; lit "b"].
Proof.
  page (lit "[[code name=""a""]]
x
[[/code]]
[[code name=""b""]]
y
[[/code]]
[[code name=""A""]]
z
[[/code]]").
Qed.

(** *** C41 *)
(** The flag tells the truth after every step of the parse, successful or not. *)
Theorem C41_flag_after_consume : forall E toks p s, extract_all (en_text E) = Some toks ->
  flag_true toks p -> shared_ok E toks s -> (accepts_partial p <> APNone -> has_block toks) ->
  match consume E p s with ROk _ p' _ | RErr _ p' _ => flag_true toks p' | _ => True end.
Proof.
  intros E toks p s Ht Hf Hs Hb. pose proof (consume_at E toks p s Ht Hf Hs Hb) as H. unfold G in H.
  destruct (consume E p s); auto; eapply inv_flag; apply H.
Qed.
Print Assumptions C41_flag_after_consume.
(** So the elements that may only start a line come from tokens that do. *)
Theorem C41_line_start_elements : forall E toks t x, parsed E toks t -> on_page t x ->
  match x with
  | EContainer (CHeader h) _ _ => heading_token toks h
  | EHorizontalRule => line_token toks TTripleDash
  | EClearFloat c => line_token toks (clear_token c)
  | EDefinitionList _ => line_token toks TColon
  | _ => True
  end.
Proof.
  intros E toks t x [Ht Hp] Hx. destruct (on_page_ok E toks Ht t x Hp Hx) as (F & _ & H). destruct x; auto. destruct ctype; auto. apply H.
Qed.
Print Assumptions C41_line_start_elements.
Example C41_case : exists toks t, parsed (test_env (lit "++ a
x ++ b
----")) toks t /\ tr_elements t = [EContainer (CHeader (HD 2 true)) [] [EText (lit "a")];
    EContainer CParagraph [] [EText (lit "x"); EText (lit " "); EText (lit "++"); EText (lit " "); EText (lit "b")];
    EHorizontalRule; EFootnoteBlock None false].
Proof.
  page (lit "++ a
x ++ b
----").
Qed.

(** *** C48: which panics are possible *)
Theorem C48_panics : forall E toks w, extract_all (en_text E) = Some toks -> parse E toks = ParsePanic w -> possible_panic E toks w.
Proof. intros E toks w Ht Hp. pose proof (parse_ok E toks Ht) as H. rewrite Hp in H. auto. Qed.
Print Assumptions C48_panics.
(** In terms of the text: without double opening brackets and double closing parentheses every page parses. *)
Theorem C48_no_panic : forall E toks, extract_all (en_text E) = Some toks ->
  ~ substr (lit "[[") (en_text E) -> ~ substr (lit "))") (en_text E) -> exists t, parse E toks = Parsed t.
Proof.
  intros E toks Ht H1 H2. destruct (C35_parse_terminates E toks Ht) as [H|[w H]]; auto. exfalso.
  assert (Hb : ~ has_block toks).
  { intros [X|X]; apply H1; [eapply (token_in_text E toks Ht TLeftBlock); eauto; cbn; tauto|].
    apply (substr_prefix _ (lit "*")). eapply (token_in_text E toks Ht TLeftBlockStar); eauto. cbn. tauto. }
  assert (Hl : ~ has_link toks).
  { intros [X|X]; apply H1.
    - apply (substr_prefix _ (lit "[")). eapply (token_in_text E toks Ht TLeftLink); eauto. cbn. tauto.
    - apply (substr_prefix _ (lit "[*")). eapply (token_in_text E toks Ht TLeftLinkStar); eauto. cbn. tauto. }
  apply C48_panics in H; auto. destruct w; cbn in H; try contradiction.
  - apply H2. eapply (token_in_text E toks Ht TRightParentheses); eauto. cbn. tauto.
  - destruct H. contradiction.
  - destruct H as [_ [H|H]]; contradiction.
Qed.
Print Assumptions C48_no_panic.
Example C48_case : exists toks t, parsed (test_env (lit "+ a
* **b** [http://x y]
||c||")) toks t /\ length (tr_elements t) = 4 /\ ~ substr (lit "[[") (lit "+ a
* **b** [http://x y]
||c||").
Proof.
  page (lit "+ a
* **b** [http://x y]
||c||"). intros (a & b & H). revert H. do 35 (destruct a as [|? a]; [cbn; discriminate|]). cbn. intro H. apply (f_equal (@length _)) in H. cbn in H. rewrite app_length in H. cbn in H. lia.
Qed.
(** Each of the four is reachable: the claim that parsing never panics is false. *)
Theorem C48_check_step_refuted : exists E toks, extract_all (en_text E) = Some toks /\ parse E toks = ParsePanic PanicCheckStep.
Proof. exists (test_env (lit "a))")). apply panic_check. vm_compute. reflexivity. Qed.
Theorem C48_partial_refuted : exists E toks, extract_all (en_text E) = Some toks /\ parse E toks = ParsePanic PanicPartialSafety.
Proof. exists (test_env (lit "[[ul]][[div]][[li]]x[[/li]][[/div]][[/ul]]")). apply panic_check. vm_compute. reflexivity. Qed.
Theorem C48_block_name_refuted : exists E toks, extract_all (en_text E) = Some toks /\ parse E toks = ParsePanic PanicBlockName.
Proof. exists (test_env (lit "[[div__]]x[[/div]]")). apply panic_check. vm_compute. reflexivity. Qed.
Theorem C48_heading_link_refuted : exists E toks, extract_all (en_text E) = Some toks /\ parse E toks = ParsePanic PanicTextRender.
Proof. exists (test_env (lit "+ [[[http://x| ]]]")). apply panic_check. vm_compute. reflexivity. Qed.
Print Assumptions C48_heading_link_refuted.

(** *** C49: attributes *)
Theorem C49_attributes_safe : forall E toks t x m k v, parsed E toks t -> on_page t x -> In m (attrs_of x) ->
  NoDup (map fst m) /\ (In (k, v) m -> is_safe_attribute k = true /\
    (k = lit "href" \/ k = lit "src" -> exists u, normalize_href (en_word E) (en_normalize E) u = Some v)).
Proof.
  intros E toks t x m k v [Ht Hp] Hx Hm. destruct (on_page_ok E toks Ht t x Hp Hx) as (F & H & _).
  rewrite Forall_forall in H. destruct (H m Hm) as [H1 H2]. split; auto.
  intro Hk. destruct (H2 k v Hk) as (H3 & H4 & H5). split; [exact H3|]. intro Hu.
  assert (Hu' : In (slower k) url_names) by (destruct Hu as [-> | ->]; [left|right; left]; reflexivity).
  assert (Hb : ~ In (slower k) boolean_names) by (intro X; eapply url_bool_disj; eauto).
  destruct H5 as [k q s v _ Hq Hs Hr| |s Hs].
  - assert (Ei : seqb k (lit "id") = false) by (destruct Hu as [-> | ->]; reflexivity). rewrite Ei.
    inversion Hr; subst; try contradiction. eauto.
  - exfalso. destruct Hu as [X|X]; discriminate X.
  - exfalso. destruct Hu as [X|X]; discriminate X.
Qed.
Print Assumptions C49_attributes_safe.
(** Where the attributes come from: quoted strings of the text. *)
Theorem C49_attributes_origin : forall E toks t x m k v, parsed E toks t -> on_page t x -> In m (attrs_of x) -> In (k, v) m ->
  attr_origin E k v.
Proof.
  intros E toks t x m k v [Ht Hp] Hx Hm Hk. destruct (on_page_ok E toks Ht t x Hp Hx) as (F & H & _).
  rewrite Forall_forall in H. destruct (H m Hm) as [_ H2]. apply (H2 k v Hk).
Qed.
Print Assumptions C49_attributes_origin.
(** With isolate_user_ids, every id the author gave is a text of the author's, isolated (C28 says what that means). *)
Definition author_text (E : env) (s : str) : Prop :=
  substr s (en_text E) \/ exists q, substr q (en_text E) /\ parse_string q = Some s.
Theorem C49_ids_isolated : forall E toks t x id, parsed E toks t -> on_page t x ->
  x = EAnchorName id \/ (exists m, In m (attrs_of x) /\ In (lit "id", id) m) ->
  exists s, author_text E s /\ id = if en_isolate E then isolate_ids s else s.
Proof.
  intros E toks t x id Hp Hx [-> |(m & Hm & Hk)].
  - destruct Hp as [Ht Hp]. destruct (on_page_ok E toks Ht t _ Hp Hx) as (F & _ & (s & Hs & ->) & _). exists s. split; [left; exact Hs|reflexivity].
  - pose proof (C49_attributes_origin E toks t x m _ _ Hp Hx Hm Hk) as Ho. inversion Ho; subst.
    assert (Es : s = v).
    { match goal with H : attr_result _ _ _ _ |- _ => inversion H; subst; auto; exfalso end.
      - match goal with H : In (slower (lit "id")) _ |- _ => apply smem_In in H; discriminate H end.
      - match goal with H : In (slower (lit "id")) _ |- _ => apply smem_In in H; discriminate H end. }
    subst v. change (seqb (lit "id") (lit "id")) with true. cbn iota. exists s. split; [right; eauto|reflexivity].
Qed.
Print Assumptions C49_ids_isolated.
Example C49_case : exists toks t, parsed (test_env (lit "[[a href=""javascript:x"" onclick=""y"" class=""c""]]z[[/a]]")) toks t /\
  tr_elements t = [EContainer CParagraph [] [EAnchor None [(lit "class", lit "c"); (lit "href", lit "#invalid-url")] [EText (lit "z")]]; EFootnoteBlock None false].
Proof. page (lit "[[a href=""javascript:x"" onclick=""y"" class=""c""]]z[[/a]]"). Qed.

(** *** C50: paragraphs *)
Theorem C50_paragraph_contents_partial : forall E toks t a es x, parsed E toks t -> on_page t (EContainer CParagraph a es) ->
  In x es -> paragraph_safe x <> Some false.
Proof.
  intros E toks t a es x [Ht Hp] Hx Hin. destruct (on_page_ok E toks Ht t _ Hp Hx) as (F & _ & H). cbn in H.
  rewrite Forall_forall in H. apply H. auto.
Qed.
Print Assumptions C50_paragraph_contents_partial.
Example C50_case : exists toks t, parsed (test_env (lit "a [[span]][[div]]x[[/div]][[/span]]")) toks t /\
  tr_elements t = [EContainer CParagraph [] [EText (lit "a"); EText (lit " ")];
    EContainer CSpan [] [EContainer CDiv [] [EContainer CParagraph [] [EText (lit "x")]]]; EFootnoteBlock None false].
Proof. page (lit "a [[span]][[div]]x[[/div]][[/span]]"). Qed.
(** Deeper down the claim fails: a division (and a paragraph) in a span in a paragraph, because the
    paragraph block looks only at its outermost elements. *)
Theorem C50_nested_refuted : exists E toks t a es x, parsed E toks t /\ on_page t (EContainer CParagraph a es) /\
  occurs_in x es /\ paragraph_safe x = Some false.
Proof.
  enough (X : exists toks t, parsed (test_env (lit "a [[p]][[span]][[div]]x[[/div]][[/span]][[/p]]")) toks t /\
    exists e a x, tr_elements t = [EContainer CParagraph [] [e; a; EContainer CSpan [] [EContainer CDiv [] x]]; EFootnoteBlock None false]).
  { destruct X as (toks & t & Hp & e & a & x & Ht).
    exists (test_env (lit "a [[p]][[span]][[div]]x[[/div]][[/span]][[/p]]")), toks, t, [], [e; a; EContainer CSpan [] [EContainer CDiv [] x]], (EContainer CDiv [] x).
    split; [exact Hp|]. split; [|split].
    - exists (tr_elements t). split; [left; reflexivity|]. exists (EContainer CParagraph [] [e; a; EContainer CSpan [] [EContainer CDiv [] x]]).
      split; [rewrite Ht; left; reflexivity|constructor].
    - exists (EContainer CSpan [] [EContainer CDiv [] x]). split; [right; right; left; reflexivity|].
      eapply occ_child; [left; reflexivity|constructor].
    - reflexivity. }
  page (lit "a [[p]][[span]][[div]]x[[/div]][[/span]][[/p]]"). eauto 10.
Qed.
Print Assumptions C50_nested_refuted.

(** *** C51: footnotes *)
(** Every footnote mark of the page has a footnote, and footnotes contain no marks. *)
Theorem C51_footnotes_exist : forall E toks t, parsed E toks t -> footnote_refs (tr_elements t) <= length (tr_footnotes t).
Proof.
  intros E toks t [Ht Hp]. pose proof (parse_ok E toks Ht) as H. rewrite Hp in H.
  destruct H as [[(body & p & -> & _ & Hb) _ _ _]|(e & -> & -> & _)]; [|cbn; auto].
  rewrite refs_app. destruct (has_footnote_block p); cbn; lia.
Qed.
Print Assumptions C51_footnotes_exist.
Theorem C51_footnotes_flat : forall E toks t es, parsed E toks t -> In es (tr_footnotes t) -> ~ occurs_in EFootnote es.
Proof.
  intros E toks t es [Ht Hp] Hin (e & He & Ho). pose proof (page_shared E toks Ht t Hp) as [_ _ _ _ _ _ H _]. cbn in H.
  rewrite Forall_forall in H. specialize (H es Hin). rewrite Forall_forall in H. specialize (H e He).
  apply (okE_occurs E toks _ _ _ _ _ _ H) in Ho as [_ [Ho _]]. discriminate Ho.
Qed.
Print Assumptions C51_footnotes_flat.
Example C51_case : exists toks t, parsed (test_env (lit "a[[footnote]]b[[/footnote]] c[[footnote]]d[[/footnote]]")) toks t /\
  footnote_refs (tr_elements t) = 2 /\ tr_footnotes t = [[EText (lit "b")]; [EText (lit "d")]].
Proof. page (lit "a[[footnote]]b[[/footnote]] c[[footnote]]d[[/footnote]]"). Qed.

(** *** C52: where text comes from *)
Theorem C52_contents_from_source : forall E toks t x, parsed E toks t -> on_page t x ->
  match x with
  | EText s => substr s (en_text E) \/ In s fixed_texts \/ (exists name, en_entity E name = Some s) \/ (exists c, s = [c])
  | ERaw s => substr s (en_text E) \/ s = lit "@" \/ s = lit "@@"
  | EHtml s | EStyle s | ECode s _ | EMathInline s | EMath _ s => substr s (en_text E)
  | _ => True
  end.
Proof.
  intros E toks t x [Ht Hp] Hx. destruct (on_page_ok E toks Ht t x Hp Hx) as (F & _ & H). destruct x; auto; apply H.
Qed.
Print Assumptions C52_contents_from_source.
Theorem C52_tables_from_source : forall E toks t, parsed E toks t ->
  Forall (fun h => substr h (en_text E)) (tr_html t) /\ Forall (fun b => substr (cb_contents b) (en_text E)) (tr_code t).
Proof.
  intros E toks t [Ht Hp]. pose proof (page_shared E toks Ht t Hp) as [_ H1 H2]. cbn in H1, H2.
  split; (eapply Forall_impl; [|eassumption]); intros x [Hx _]; exact Hx.
Qed.
Print Assumptions C52_tables_from_source.
Example C52_case : exists toks t, parsed (test_env (lit "[[code]]
a < b
[[/code]]")) toks t /\ tr_elements t = [ECode (lit "a < b") None; EFootnoteBlock None false].
Proof.
  page (lit "[[code]]
a < b
[[/code]]").
Qed.

(** *** C53: bibliographies *)
Theorem C53_bibliographies : forall E toks t, parsed E toks t ->
  (forall i title hide, on_page t (EBibliographyBlock i title hide) -> exists b, nth_error (tr_bibs t) i = Some b) /\
  Forall (fun b => NoDup (map fst b)) (tr_bibs t).
Proof.
  intros E toks t [Ht Hp]. split.
  - intros i ti h Hx. destruct (on_page_ok E toks Ht t _ Hp Hx) as (F & _ & H). cbn in H.
    destruct (nth_error (tr_bibs t) i) eqn:En; eauto. apply nth_error_None in En. lia.
  - pose proof (page_shared E toks Ht t Hp) as [_ _ _ _ _ _ _ H]. eapply Forall_impl; [|exact H]. intros b [Hb _]. auto.
Qed.
Print Assumptions C53_bibliographies.
Example C53_case : exists toks t, parsed (test_env (lit "[[bibliography]]
: a : x
: a : y
: b : z
[[/bibliography]]")) toks t /\ map (map fst) (tr_bibs t) = [[lit "a"; lit "b"]] /\ tr_elements t = [EBibliographyBlock 0 None false; EFootnoteBlock None false].
Proof.
  page (lit "[[bibliography]]
: a : x
: a : y
: b : z
[[/bibliography]]").
Qed.

(** *** C54: numbers in range *)
Theorem C54_ranges : forall E toks t x, parsed E toks t -> on_page t x ->
  match x with
  | EContainer (CHeader h) _ _ => 1 <= hd_level h <= 6
  | ETable _ rows => Forall (fun r => Forall (fun c => 1 <= tc_column_span c)%N (tr_cells r)) rows
  | ELineBreaks n => (1 <= n <= 100)%N
  | EIframe _ url => is_url url = true
  | EEmbed e => match e with EmYoutube _ | EmVimeo _ => True | _ => False end
  | _ => True
  end.
Proof.
  intros E toks t x [Ht Hp] Hx. destruct (on_page_ok E toks Ht t x Hp Hx) as (F & _ & H). destruct x; auto; try apply H; [destruct ctype; auto; apply H|destruct e; auto].
Qed.
Print Assumptions C54_ranges.
Theorem C54_toc_depths : forall E toks t, parsed E toks t -> Forall (fun e => fst (fst e) <= 5) (flat_map (toc_reading 0) (tr_toc t)).
Proof.
  intros E toks t [Ht Hp]. pose proof (parse_ok E toks Ht) as H. rewrite Hp in H.
  destruct H as [[_ _ (hs & Hh & Hd) _]|(e & _ & _ & _ & -> & _)]; [|constructor].
  destruct (build_toc_ok hs) as (toc & Hb & Hr). rewrite Hh in Hb. injection Hb as <-. rewrite Hr.
  clear - Hd. assert (X : forall i, Forall (fun e => fst (fst e) <= 5) (expected_toc i hs)); [|apply X].
  induction Hd as [|[d n] hs Hd _ IH]; intro i; cbn [expected_toc]; constructor; auto.
Qed.
Print Assumptions C54_toc_depths.
Example C54_case : exists toks t, parsed (test_env (lit "a[[lines 100]]
|||| a ||
++++++ h")) toks t /\ tr_errors t = [] /\ match tr_elements t with
    | [EContainer CParagraph _ [_; ELineBreaks n]; ETable _ [TR _ [c]]; EContainer (CHeader (HD 6 true)) _ _; _] => n = 100%N /\ tc_column_span c = 2%N | _ => False end.
Proof.
  page (lit "a[[lines 100]]
|||| a ||
++++++ h").
Qed.

(** *** C55: the automatic footnote block *)
(** If the page has a footnote block of its own, none is added. *)
Theorem C55_no_second_footnote_block : forall E toks t p out p' s', parsed E toks t -> parser_new toks = Some p ->
  gather_paragraphs (consume E) "page" None p shared_new = ROk out p' s' ->
  forall title hide, occurs_in (EFootnoteBlock title hide) (su_item out) -> tr_elements t = su_item out.
Proof.
  intros E toks t p out p' s' [Ht Hp] Hn Hg title hide (e & He & Ho).
  pose proof (inv_new E toks Ht p Hn) as Hi.
  assert (HG : G E toks 0 top (gather_paragraphs (consume E) "page" None) p shared_new (fun out p' s' => succ E toks top shared_new p' s' out)).
  { apply G_gather_paragraphs; auto. intros; apply G_consume; auto. discriminate. }
  unfold G in HG. rewrite Hg in HG. destruct HG as (_ & _ & (H & _) & _).
  rewrite Forall_forall in H. specialize (H e He). apply (okE_occurs E toks _ _ _ _ _ _ H) in Ho as [_ Ho]. cbn in Ho.
  unfold parse in Hp. rewrite Hn, Hg in Hp. destruct (build_toc (sh_toc s')); [|discriminate]. injection Hp as <-. cbn. rewrite Ho, app_nil_r. auto.
Qed.
Print Assumptions C55_no_second_footnote_block.
Example C55_case : exists toks t, parsed (test_env (lit "[[footnoteblock]]

a")) toks t /\ tr_elements t = [EFootnoteBlock None false; EContainer CParagraph [] [EText (lit "a")]].
Proof.
  page (lit "[[footnoteblock]]

a").
Qed.
(** Every page has a footnote block: false, when the author's own is dropped by a condition. *)
Theorem C55_always_a_block_refuted : exists E toks t, parsed E toks t /\ tr_footnotes t <> [] /\
  forall title hide, ~ occurs_in (EFootnoteBlock title hide) (tr_elements t).
Proof.
  enough (X : exists toks t, parsed (test_env (lit "a[[footnote]]b[[/footnote]][[iftags +x]][[footnoteblock]][[/iftags]]")) toks t /\
    tr_footnotes t <> [] /\ tr_elements t = [EContainer CParagraph [] [EText (lit "a"); EFootnote]]).
  { destruct X as (toks & t & Hp & Hf & Ht). exists (test_env (lit "a[[footnote]]b[[/footnote]][[iftags +x]][[footnoteblock]][[/iftags]]")), toks, t. conj; [exact Hp|exact Hf|]. rewrite Ht.
    intros title hide (e & [<-|[]] & Ho). inversion Ho as [|? y Hy Ho']; subst. destruct Hy as [<-|[<-|[]]]; inversion Ho' as [|? z Hz]; subst; destruct Hz. }
  page (lit "a[[footnote]]b[[/footnote]][[iftags +x]][[footnoteblock]][[/iftags]]"). discriminate.
Qed.
Print Assumptions C55_always_a_block_refuted.
