(** WritingRender.v -- the HTML and the plain text of the pages of SpecWriting.v. *)
From Verif Require Import Base BaseLemmas Strings Links Attr Html SpecHtml HtmlLemmas Lexer SpecLexer LexerLemmas Depth SpecDepth DepthLemmas DepthBuild Tree Text Toc PState Blocks Rules Parse
  SpecParse SpecPage ParseInv SpecWriting ProseLemmas WritingLex WritingParse WritingBlocks Render SpecReader SpecRender RenderLemmas RenderDom.
Import SpecWriting.

Lemma reads_ne l es : good_line l -> reads l es -> es <> [].
Proof.
  intros (Hne & Hnl & Hn) H. destruct H as [|s cs l es Hc Hr|l es Hr|m i es0 l es Hi Hr]; [congruence| |discriminate|discriminate].
  destruct (Hn (Words s) (or_introl eq_refl)) as [(Hs & _) _]. destruct cs as [|c cs]; [cbn in Hc; congruence|discriminate].
Qed.
Lemma well_nested_inner {K} (k : K) xs : well_nested (Inner k xs) -> Forall well_nested xs.
Proof. intros (_ & _ & H). induction xs as [|y xs IH]; constructor; destruct H; auto. Qed.

(** *** Quotes, for HTML and for plain text. *)
Section Quotes.
Variables (D : elements -> str -> Prop) (br po pc bo bc : str) (f : span -> str).
Hypothesis D_nil : D [] [].
Hypothesis D_app : forall a b x y, D a x -> D b y -> D (a ++ b) (x ++ y).
Hypothesis D_break : D [ELineBreak] br.
Hypothesis D_par : forall es x, D es x -> D [paragraph es] (po ++ x ++ pc).
Hypothesis D_quote : forall es x, D es x -> D [EContainer CBlockquote [] es] (bo ++ x ++ bc).
Hypothesis D_reads : forall l es, reads l es -> D es (flat_map f l).
Fixpoint gq (x : nested unit) : str :=
  match x with
  | Line l => flat_map f l
  | Inner _ xs =>
      bo ++
      (fix go (open : bool) (xs : list (nested unit)) : str :=
         match xs with
         | [] => if open then pc else []
         | Line _ as y :: xs' => (if open then br else po) ++ gq y ++ go true xs'
         | Inner _ _ as y :: xs' => (if open then pc else []) ++ gq y ++ go false xs'
         end) false xs ++ bc
  end.
Fixpoint gqs (open : bool) (xs : list (nested unit)) : str :=
  match xs with
  | [] => if open then pc else []
  | Line _ as y :: xs' => (if open then br else po) ++ gq y ++ gqs true xs'
  | Inner _ _ as y :: xs' => (if open then pc else []) ++ gq y ++ gqs false xs'
  end.
Lemma gq_inner k xs : gq (Inner k xs) = bo ++ gqs false xs ++ bc. Proof. reflexivity. Qed.
Lemma items_fix l : forall st, (fix go (st : pstack) (l : list (depth_item unit (elements * bool))) : pstack := match l with [] => st | x :: l' => go (blockquote_item st x) l' end) st l = blockquote_items st l.
Proof. induction l as [|x l IH]; intro st; [reflexivity|]. cbn [blockquote_items]. apply IH. Qed.
Lemma push_all_safe es : forall cu fi, push_all (PS cu fi) es true = PS (cu ++ es) fi.
Proof. induction es as [|e es IH]; intros cu fi; [cbn; rewrite app_nil_r; reflexivity|]. cbn [push_all]. unfold push_element. cbn [ps_current ps_finished]. rewrite IH, <- app_assoc. reflexivity. Qed.
Lemma pop_last c fi : pop_line_break (PS (c ++ [ELineBreak]) fi) = PS c fi.
Proof. unfold pop_line_break. cbn [ps_current]. rewrite rev_app_distr. cbn [rev app ps_finished]. rewrite rev_involutive. reflexivity. Qed.
(** What the stack holds. *)
Definition drawn (open : bool) (st : pstack) (out : str) : Prop :=
  exists F fo, D F fo /\ if open then exists c co, st = PS (c ++ [ELineBreak]) F /\ c <> [] /\ D c co /\ out = fo ++ po ++ co else st = PS [] F /\ out = fo.
Lemma drawn_end open st out : drawn open st out -> D (into_elements (pop_line_break st)) (out ++ (if open then pc else [])).
Proof.
  intros (F & fo & HF & H). destruct open.
  - destruct H as (c & co & -> & Hc & Hco & ->). rewrite pop_last. destruct c as [|x c]; [congruence|]. unfold into_elements. cbn [end_paragraph build_paragraph ps_current ps_finished].
    rewrite <- !app_assoc. apply D_app; auto.
  - destruct H as [-> ->]. rewrite app_nil_r. exact HF.
Qed.
Lemma push_block st e : push_element st e false = PS [] (into_elements st ++ [e]).
Proof. destruct st as [cu fi]. unfold push_element, into_elements. destruct cu; reflexivity. Qed.
Lemma drawn_items xs : Forall well_nested xs -> Forall (fun x => forall t, well_nested x -> tree_rel (fun t : unit => t) quoted_line x t -> match t with DList _ ts => D [build_blockquote ts] (gq x) | DItem _ => True end) xs ->
  forall ts open st out, Forall2 (tree_rel (fun t : unit => t) quoted_line) xs ts -> drawn open st out -> D (into_elements (pop_line_break (blockquote_items st ts))) (out ++ gqs open xs).
Proof.
  intros Hw HI. induction xs as [|x xs IH]; intros ts open st out H Hd; inversion H as [|? t ? ts' Ht Hts]; subst.
  - cbn [blockquote_items gqs]. apply drawn_end in Hd. exact Hd.
  - inversion Hw as [|? ? Hwx Hws]; subst. inversion HI as [|? ? HIx HIs]; subst. specialize (IH Hws HIs). cbn [blockquote_items]. destruct x as [l|k ys].
    + inversion Ht as [? es Hr|]; subst. cbn [blockquote_item quoted_line gqs gq]. rewrite !app_assoc. apply IH; auto. pose proof (reads_ne l es Hwx Hr) as Hne. specialize (D_reads l es Hr).
      destruct Hd as (F & fo & HF & Hd). exists F, fo. split; auto. destruct open.
      * destruct Hd as (c & co & -> & Hc & Hco & ->). rewrite push_all_safe. exists ((c ++ [ELineBreak]) ++ es), ((co ++ br) ++ flat_map f l). conj; [rewrite <- !app_assoc; reflexivity|destruct c; [congruence|discriminate]| |rewrite <- !app_assoc; reflexivity].
        apply D_app; auto.
      * destruct Hd as [-> ->]. rewrite push_all_safe. exists es, (flat_map f l). conj; auto. rewrite <- !app_assoc. reflexivity.
    + specialize (HIx t Hwx Ht). inversion Ht as [|? ? us Hus]; subst. cbn [blockquote_item gqs]. change (blockquote_of _) with (build_blockquote us). rewrite !app_assoc. apply IH; auto.
      pose proof (drawn_end _ _ _ Hd) as HD. exists (into_elements (pop_line_break st) ++ [build_blockquote us]), ((out ++ (if open then pc else [])) ++ gq (Inner k ys)). split; [apply D_app; auto|].
      rewrite push_block. split; auto.
Qed.
Lemma drawn_quote x : forall t, well_nested x -> tree_rel (fun t : unit => t) quoted_line x t -> match t with DList _ ts => D [build_blockquote ts] (gq x) | DItem _ => True end.
Proof.
  induction x as [l|k xs IH] using nested_all; intros t Hw Ht; inversion Ht as [|? ? ts Hts]; subst; [exact I|].
  unfold build_blockquote, blockquote_of. rewrite gq_inner. apply D_quote. change (gqs false xs) with ([] ++ gqs false xs). apply drawn_items; auto.
  - apply (well_nested_inner k). exact Hw.
  - exists [], []. split; auto.
Qed.
End Quotes.

(** *** HTML *)
Section RenderPage.
Variables (R : renv) (toc : list element) (bibs : list bibliography) (ref : list element -> Render.M).
Notation hes := (h_elements R toc [] bibs ref).
Definition draws (m : Render.M) (out : str) : Prop := forall c, exists ns, m c = Done ns c /\ flat_map dom_text (map dom_of ns) = out.
Lemma draws_nil : draws (hes []) []. Proof. intro c. exists []. auto. Qed.
Lemma draws_seq m1 m2 a b : draws m1 a -> draws m2 b -> draws (m1 +++ m2) (a ++ b).
Proof.
  intros H1 H2 c. destruct (H1 c) as (n1 & E1 & F1), (H2 c) as (n2 & E2 & F2). exists (n1 ++ n2). unfold seq2, Render.bind, Render.ret. rewrite E1, E2. split; auto.
  rewrite map_app, flat_map_app. congruence.
Qed.
Lemma hes_seq a b : forall c c1 c2 n1 n2, hes a c = Done n1 c1 -> hes b c1 = Done n2 c2 -> hes (a ++ b) c = Done (n1 ++ n2) c2.
Proof.
  induction a as [|e a IH]; intros c c1 c2 n1 n2 E1 E2; [cbn in E1; injection E1 as <- <-; exact E2|].
  cbn [h_elements app] in E1 |- *. unfold seq2, Render.bind, Render.ret in *. destruct (h_element R toc [] bibs ref e c) as [m c0| |]; try discriminate.
  destruct (hes a c0) as [m' c'| |] eqn:Ea; try discriminate. injection E1 as <- <-. rewrite (IH c0 c' c2 m' n2 Ea E2). rewrite app_assoc. reflexivity.
Qed.
Lemma hes_app a b x y : draws (hes a) x -> draws (hes b) y -> draws (hes (a ++ b)) (x ++ y).
Proof.
  intros H1 H2 c. destruct (H1 c) as (n1 & E1 & F1), (H2 c) as (n2 & E2 & F2). exists (n1 ++ n2). split; [|rewrite map_app, flat_map_app; congruence]. eapply hes_seq; eauto.
Qed.
Lemma draws_text cs : draws (hes (map EText cs)) (escape (concat cs)).
Proof.
  induction cs as [|x cs IH]; [intro c; exists []; auto|]. cbn [map concat]. rewrite escape_app. change (hes (EText x :: map EText cs)) with (text x +++ hes (map EText cs)).
  apply draws_seq; auto. intro c. exists [NText x]. split; [reflexivity|]. cbn. rewrite app_nil_r. reflexivity.
Qed.
Lemma draws_one e out : draws (h_element R toc [] bibs ref e) out -> draws (hes [e]) out.
Proof. intro H. rewrite <- (app_nil_r out). apply draws_seq; [exact H|exact draws_nil]. Qed.
Ltac plain_tag E F :=
  unfold tag_with; cbn [forallb keys_of filter_entries ad_entries with_map ad_map map filter fst snd en app];
  try (rewrite (proj2 (forallb_forall is_alphanumeric [lit "class"])) by (intros ? [<-|[]]; reflexivity));
  cbn [andb negb]; rewrite ?andb_false_r; unfold Render.bind, Render.ret; rewrite E; eexists; (split; [reflexivity|]);
  cbn [app map flat_map dom_of]; rewrite app_nil_r; cbn [dom_text]; rewrite F; rewrite <- ?app_assoc; reflexivity.
Lemma draws_mark m es out : draws (hes es) out -> draws (hes [EContainer (ct_of m) [] es]) (html_open m ++ out ++ html_close m).
Proof.
  intro H. apply draws_one. intro c. destruct (H c) as (ns & E & F). rewrite h_element_eq. cbn [h_body].
  unfold render_container. destruct m; cbn [ct_of render_container_internal container_tag]; unfold render_container_internal; cbn [container_tag]; plain_tag E F.
Qed.
Lemma draws_break : draws (hes [ELineBreak]) (lit "<br>").
Proof.
  apply draws_one. intro c. cbn [h_element]. unfold Render.ret, tag_empty. cbn [forallb]. cbn [andb negb]. rewrite andb_false_r. eexists. split; [reflexivity|]. reflexivity.
Qed.
Lemma draws_reads l es : reads l es -> draws (hes es) (flat_map html_of l).
Proof.
  induction 1 as [|s cs l es Hc Hr IH|l es Hr IH|m i es0 l es Hi IHi Hr IH]; [apply draws_nil| | |]; cbn [flat_map html_of].
  - subst s. apply hes_app; auto. apply draws_text.
  - change (ELineBreak :: es) with ([ELineBreak] ++ es). apply hes_app; auto. apply draws_break.
  - change (EContainer (ct_of m) [] es0 :: es) with ([EContainer (ct_of m) [] es0] ++ es). apply hes_app; auto. apply draws_mark; auto.
Qed.
Lemma draws_paragraph es out : draws (hes es) out -> draws (hes [paragraph es]) (lit "<p>" ++ out ++ lit "</p>").
Proof. intro H. apply draws_one. intro c. destruct (H c) as (ns & E & F). rewrite h_element_eq. cbn [h_body paragraph]. unfold render_container, render_container_internal; cbn [container_tag]. plain_tag E F. Qed.
Lemma draws_blockquote es out : draws (hes es) out -> draws (hes [EContainer CBlockquote [] es]) (lit "<blockquote>" ++ out ++ lit "</blockquote>").
Proof. intro H. apply draws_one. intro c. destruct (H c) as (ns & E & F). rewrite h_element_eq. cbn [h_body]. unfold render_container, render_container_internal; cbn [container_tag]. plain_tag E F. Qed.
Lemma draws_rule : draws (hes [EHorizontalRule]) (lit "<hr>").
Proof. apply draws_one. intro c. cbn [h_element]. unfold Render.ret, tag_empty. cbn [forallb]. cbn [andb negb]. rewrite andb_false_r. eexists. split; reflexivity. Qed.
Lemma draws_item m out : draws m out -> draws (render_item R [] m) (tag (lit "li") out).
Proof. intros H c. destruct (H c) as (ns & E & F). unfold render_item. plain_tag E F. Qed.
Lemma draws_list (b : bool) m out : draws m out -> draws (render_list R (ltype b) [] m) (tag (if b then lit "ol" else lit "ul") out).
Proof. intros H c. destruct (H c) as (ns & E & F). unfold render_list. destruct b; cbn [ltype]; plain_tag E F. Qed.
Definition item_m (i : list_item) : Render.M := match i with LIElements a es => render_item R a (hes es) | LISubList x => h_element R toc [] bibs ref x end.
Lemma draws_entry x : forall t, tree_rel ltype (fun es => es) x t -> draws (item_m (build_list_item t)) (entry_html x).
Proof.
  induction x as [l|b xs IH] using nested_all; intros t Ht; inversion Ht as [? es Hr|? ? ts Hts]; subst.
  - cbn [build_list_item item_m entry_html]. apply draws_item. apply draws_reads. exact Hr.
  - cbn [build_list_item item_m entry_html]. rewrite h_element_eq. cbn [h_body]. apply draws_list. fold item_m. rewrite map_map. clear Ht. revert ts Hts. induction IH as [|y xs Hy _ IH]; intros ts Hts; inversion Hts as [|? t ? ts' Ht Hts']; subst; [intro c; exists []; auto|].
    cbn [map concatM fold_right flat_map]. apply draws_seq; auto.
Qed.
Lemma draws_lists ls ts : Forall2 (list_rel ltype (fun es => es)) ls ts -> draws (hes (map build_list ts)) (flat_map (fun l => entry_html (Inner (fst l) (snd l))) ls).
Proof.
  induction 1 as [|[b xs] [l is] ls ts [H1 H2] H IH]; [apply draws_nil|]. cbn [fst snd] in H1, H2. subst l. cbn [map flat_map fst snd]. change (build_list (ltype b, is) :: map build_list ts) with ([build_list (ltype b, is)] ++ map build_list ts).
  apply hes_app; auto. apply draws_one. apply (draws_entry (Inner b xs) (DList (ltype b) is)). constructor. exact H2.
Qed.
Lemma draws_quote xs ts : well_nested (Inner tt xs) -> Forall2 (tree_rel (fun t : unit => t) quoted_line) xs ts -> draws (hes [build_blockquote ts]) (quote_html (Inner tt xs)).
Proof.
  intros Hw H. apply (drawn_quote (fun es out => draws (hes es) out) (lit "<br>") (lit "<p>") (lit "</p>") (lit "<blockquote>") (lit "</blockquote>") html_of draws_nil (fun a b x y => hes_app a b x y) draws_break draws_paragraph draws_blockquote draws_reads (Inner tt xs) (DList tt ts) Hw).
  constructor. exact H.
Qed.
(** Headings count. *)
Definition counted (k : nat) (c : hctx) : Prop := hx_toc c = k /\ (re_true_ids R = false -> hx_random c = k) /\ hx_internal c = [] /\ hx_external c = [].
Definition heading_id (k : nat) : str := if re_true_ids R then lit "toc" ++ dec k else re_random R k.
Definition draws_from (k k' : nat) (m : Render.M) (out : str) : Prop := forall c, counted k c -> exists ns c', m c = Done ns c' /\ counted k' c' /\ flat_map dom_text (map dom_of ns) = out.
Lemma draws_same k m out : draws m out -> draws_from k k m out.
Proof. intros H c Hc. destruct (H c) as (ns & E & F). exists ns, c. auto. Qed.
Lemma from_app k1 k2 k3 a b x y : draws_from k1 k2 (hes a) x -> draws_from k2 k3 (hes b) y -> draws_from k1 k3 (hes (a ++ b)) (x ++ y).
Proof.
  intros H1 H2 c Hc. destruct (H1 c Hc) as (n1 & c1 & E1 & C1 & F1), (H2 c1 C1) as (n2 & c2 & E2 & C2 & F2). exists (n1 ++ n2), c2. conj; [eapply hes_seq; eauto|auto|rewrite map_app, flat_map_app; congruence].
Qed.
Hypothesis random_ids : re_true_ids R = false -> forall k, re_random R k <> [].
Lemma id_text x : x <> [] -> flat_map single_text (flat_map attr_pairs (with_map [en "id" [x]] [])) = lit " id=" ++ [34%N] ++ escape x ++ [34%N].
Proof. intro Hx. destruct x as [|c x]; [congruence|]. assert (X : flat_map attr_pairs (with_map [en "id" [c :: x]] []) = [(lit "id", (c :: x) ++ [])]) by reflexivity. rewrite X, app_nil_r. cbn [flat_map]. rewrite app_nil_r. reflexivity. Qed.
Lemma heading_void n : smem (heading_name n) void_tags = false. Proof. destruct n as [|[|[|[|[|[|]]]]]]; reflexivity. Qed.
Lemma draws_heading k n (b : bool) es out : draws (hes es) out ->
  draws_from k (if b then S k else k) (hes [EContainer (CHeader (HD n b)) [] es])
    (lit "<" ++ heading_name n ++ (if b then lit " id=" ++ [34%N] ++ escape (heading_id k) ++ [34%N] else []) ++ lit ">" ++ out ++ lit "</" ++ heading_name n ++ lit ">").
Proof.
  intros H c (Hk & Hr & Hi & He). assert (Hn : lit (heading_tag n) = heading_name n) by (destruct n as [|[|[|[|[|[|]]]]]]; reflexivity).
  cbn [h_elements]. unfold seq2, Render.bind, Render.ret. rewrite h_element_eq. cbn [h_body]. unfold render_container, render_container_internal. cbn [container_tag hd_has_toc hd_level]. destruct b.
  - unfold heading_id. destruct (re_true_ids R) eqn:T; unfold tag_with; cbn [forallb keys_of filter_entries ad_entries with_map ad_map map filter fst snd en app];
      change (is_alphanumeric (lit "id")) with true; cbn [andb negb]; rewrite ?andb_false_r; unfold Render.bind, Render.ret.
    + destruct (H (set_toc c (S (hx_toc c)))) as (ns & E & F). rewrite E. eexists; eexists. split; [reflexivity|]. split; [split; [cbn; lia|split; [congruence|auto]]|].
      cbn [app map flat_map dom_of]; rewrite app_nil_r; cbn [dom_text]; rewrite F, Hn. subst k. rewrite heading_void; rewrite ?id_text by (auto; discriminate); repeat (rewrite <- ?app_assoc; cbn [app]); reflexivity.
    + destruct (H (set_random (set_toc c (S (hx_toc c))) (S (hx_random (set_toc c (S (hx_toc c))))))) as (ns & E & F). rewrite E. eexists; eexists. split; [reflexivity|]. specialize (Hr eq_refl). split; [split; [cbn; lia|split; [cbn; lia|auto]]|].
      cbn [app map flat_map dom_of]; rewrite app_nil_r; cbn [dom_text]; rewrite F, Hn. cbn [hx_random set_toc]. rewrite Hr. rewrite heading_void; rewrite ?id_text by (auto; discriminate); repeat (rewrite <- ?app_assoc; cbn [app]); reflexivity.
  - destruct (H c) as (ns & E & F). unfold tag_with; cbn [forallb keys_of filter_entries ad_entries with_map ad_map map filter fst snd en app]. cbn [andb negb]; rewrite ?andb_false_r; unfold Render.bind, Render.ret. rewrite E. eexists; eexists. split; [reflexivity|].
    split; [split; auto|]. cbn [app map flat_map dom_of]; rewrite app_nil_r; cbn [dom_text]; rewrite F, Hn. rewrite heading_void; rewrite ?id_text by (auto; discriminate); repeat (rewrite <- ?app_assoc; cbn [app]); reflexivity.
Qed.
Lemma draws_block k b es : good_block b -> block_reads b es -> draws_from k (if is_listed b then S k else k) (hes es) (block_html (heading_id k) b).
Proof.
  intros Hg H. destruct H as [p es Hr|n b l es Hr|d|ls ts Hts Hne|xs ts Hts]; cbn [is_listed block_html].
  - apply draws_same. apply draws_paragraph, draws_reads. exact Hr.
  - apply draws_heading, draws_reads. exact Hr.
  - apply draws_same, draws_rule.
  - apply draws_same, draws_lists. exact Hts.
  - apply draws_same, draws_quote; auto. exact (proj1 Hg).
Qed.
Lemma draws_blocks bs ess : Forall2 block_reads bs ess -> Forall good_block bs -> forall k, exists k', draws_from k k' (hes (concat ess)) (blocks_html heading_id k bs).
Proof.
  induction 1 as [|b es bs ess Hb H IH]; intros Hg k; [exists k; apply draws_same, draws_nil|]. inversion Hg; subst. destruct (IH H3 (if is_listed b then S k else k)) as (k' & Hk). exists k'.
  cbn [concat blocks_html]. eapply from_app; [apply draws_block; auto|exact Hk].
Qed.
End RenderPage.
Lemma page_render R n bs ess els toc len html code bibs : (re_true_ids R = false -> forall k, re_random R k <> []) -> Forall2 block_reads bs ess -> Forall good_block bs -> els = concat ess -> 1 <= n ->
  html_render R n (TREE (els ++ [EFootnoteBlock None false]) toc html code [] bibs len []) =
  Html (lit "<wj-body class=" ++ [34%N] ++ lit "wj-body" ++ [34%N] ++ lit ">" ++ blocks_html (heading_id R) 0 bs ++ lit "</wj-body>") [] [].
Proof.
  intros Hid H Hg -> Hn. destruct n as [|n]; [lia|]. unfold html_render, body_nodes, tag_with, cls, own. cbn [forallb keys_of filter_entries ad_entries ad_map map filter fst snd en app].
  change (is_alphanumeric (lit "class")) with true. cbn [andb negb]; rewrite ?andb_false_r. unfold Render.bind, Render.ret. cbn [tr_toc tr_footnotes tr_bibs tr_elements h_ref].
  destruct (draws_blocks R toc bibs (h_ref R toc [] bibs n) Hid bs ess H Hg 0) as (k' & Hk).
  assert (Hf : draws_from R k' k' (h_elements R toc [] bibs (h_ref R toc [] bibs n) [EFootnoteBlock None false]) []) by (apply draws_same; intro c; exists []; auto).
  destruct (from_app _ _ _ _ _ _ _ _ _ _ _ Hk Hf hctx_new) as (ns & c' & E & C & F); [split; [reflexivity|split; auto]|]. rewrite E. destruct C as (_ & _ & -> & ->). rewrite write_nodes_dom. cbn [app map flat_map dom_of]; rewrite app_nil_r; cbn [dom_text]; rewrite F.
  rewrite app_nil_r, <- ?app_assoc. reflexivity.
Qed.

(** *** Plain text *)
Lemma quote_text_eq x : quote_text x = gq [10%N] [10%N] [10%N] [10%N] [10%N] text_of x.
Proof.
  induction x as [l|k xs IH] using nested_all; [reflexivity|]. cbn [quote_text gq]. f_equal. f_equal.
  assert (X : forall open, (fix go (open : bool) (xs : list (nested unit)) : str :=
         match xs with
         | [] => if open then [10%N] else []
         | Line _ as y :: xs' => [10%N] ++ quote_text y ++ go true xs'
         | Inner _ _ as y :: xs' => (if open then [10%N] else []) ++ quote_text y ++ go false xs'
         end) open xs = gqs [10%N] [10%N] [10%N] [10%N] [10%N] text_of open xs).
  { induction IH as [|y xs Hy _ IH]; intro open; [reflexivity|]. destruct y as [l|k' ys].
    - cbn [gqs]. rewrite <- IH, <- Hy. destruct open; reflexivity.
    - cbn [gqs]. rewrite <- IH, <- Hy. reflexivity. }
  apply X.
Qed.
Section TextPage.
Variables (site : str) (df : date_item -> option str).
Notation tes := (t_elements site df).
Lemma says_around es s t : (forall c, t_element site df t c = match tes es (t_newline c) with Some c => Some (t_newline c) | None => None end) -> says site df es s -> says site df [t] ([10%N] ++ s ++ [10%N]).
Proof.
  intros Ht H. apply says_one. intros out sc. rewrite Ht. unfold t_newline at 1, t_write. cbn [tx_out tx_invisible tx_scopes]. rewrite H. unfold t_newline, t_write. cbn [tx_out tx_invisible tx_scopes]. rewrite <- !app_assoc. reflexivity.
Qed.
Lemma says_paragraph es s : says site df es s -> says site df [paragraph es] ([10%N] ++ s ++ [10%N]).
Proof. apply says_around. intro c. unfold paragraph. cbn [t_element]. rewrite tes_fix. reflexivity. Qed.
Lemma says_blockquote es s : says site df es s -> says site df [EContainer CBlockquote [] es] ([10%N] ++ s ++ [10%N]).
Proof. apply says_around. intro c. cbn [t_element]. rewrite tes_fix. reflexivity. Qed.
Lemma says_heading h es s : says site df es s -> says site df [EContainer (CHeader h) [] es] ([10%N] ++ s ++ [10%N]).
Proof. apply says_around. intro c. cbn [t_element]. rewrite tes_fix. reflexivity. Qed.
Lemma says_quote xs ts : well_nested (Inner tt xs) -> Forall2 (tree_rel (fun t : unit => t) quoted_line) xs ts -> says site df [build_blockquote ts] (quote_text (Inner tt xs)).
Proof.
  intros Hw H. rewrite quote_text_eq. apply (drawn_quote (says site df) [10%N] [10%N] [10%N] [10%N] [10%N] text_of (says_nil site df) (fun a b x y => says_app site df a b x y)
    (says_one site df ELineBreak [10%N] (fun out sc => eq_refl)) says_paragraph says_blockquote (says_reads site df) (Inner tt xs) (DList tt ts) Hw). constructor. exact H.
Qed.
Lemma ends_last out : ends_with [10%N] out = ceqb (last out 0%N) 10.
Proof.
  unfold ends_with. cbn [rev app]. destruct out as [|c out] using rev_ind; [reflexivity|]. rewrite last_last, rev_app_distr. unfold starts_with. cbn [rev app strip_prefix]. unfold ceqb. rewrite (N.eqb_sym 10 c). destruct (N.eqb c 10); reflexivity.
Qed.
Lemma fresh_eq out sc : t_fresh_line (TX out 0 sc) = TX (fresh_line out) 0 sc.
Proof. unfold t_fresh_line, t_ends_nl, fresh_line, t_newline, t_write. cbn [tx_out tx_invisible tx_scopes]. rewrite ends_last. destruct (ceqb (last out 0%N) 10); reflexivity. Qed.
Fixpoint t_items (items : list list_item) (c : tctx) : option tctx :=
  match items with
  | [] => Some c
  | LISubList x :: items' => match t_element site df x c with Some c => t_items items' c | None => None end
  | LIElements _ [] :: items' => t_items items' c
  | LIElements _ es :: items' => match tes es c with Some c => t_items items' (t_newline c) | None => None end
  end.
Lemma t_list_eq lt a items c : t_element site df (EList lt a items) c = t_items items (t_fresh_line c).
Proof.
  cbn [t_element]. generalize (t_fresh_line c). clear c. induction items as [|[a' es|x] items IH]; intro c; cbn [t_items]; [reflexivity| |].
  - destruct es as [|e es]; [apply IH|]. rewrite <- tes_fix. cbn iota beta fix match. match goal with |- match ?x with _ => _ end = match ?y with _ => _ end => change y with x; destruct x; auto end.
  - destruct (t_element site df x c); auto.
Qed.
Fixpoint entries (out : str) (xs : list (nested bool)) : str := match xs with [] => out | y :: xs' => entries (entry_text out y) xs' end.
Lemma entry_inner out b xs : entry_text out (Inner b xs) = entries (fresh_line out) xs. Proof. reflexivity. Qed.
Lemma text_entry x : forall t, well_nested x -> tree_rel ltype (fun es => es) x t -> forall items out sc, t_items (build_list_item t :: items) (TX out 0 sc) = t_items items (TX (entry_text out x) 0 sc).
Proof.
  induction x as [l|b xs IH] using nested_all; intros t Hw Ht items out sc; inversion Ht as [? es Hr|? ? ts Hts]; subst; cbn [build_list_item].
  - cbn [t_items]. pose proof (reads_ne l es Hw Hr) as Hne. destruct es as [|e es]; [congruence|]. rewrite (says_reads site df l _ Hr out sc). unfold t_newline, t_write. cbn [tx_out tx_invisible tx_scopes entry_text]. rewrite <- app_assoc. reflexivity.
  - cbn [t_items]. rewrite t_list_eq, fresh_eq, entry_inner. assert (X : forall out, t_items (map build_list_item ts) (TX out 0 sc) = Some (TX (entries out xs) 0 sc)).
    { apply well_nested_inner in Hw. clear Ht out items. revert ts Hts. induction IH as [|y xs Hy _ IH]; intros ts Hts out; inversion Hts as [|? t ? ts' Ht Hts']; subst; [reflexivity|]. inversion Hw; subst.
      cbn [map]. rewrite (Hy t) by auto. cbn [entries]. apply IH; auto. }
    rewrite X. reflexivity.
Qed.
Lemma text_lists ls ts : Forall2 (list_rel ltype (fun es => es)) ls ts -> (forall l, In l ls -> well_nested (Inner (fst l) (snd l))) -> forall out sc,
  tes (map build_list ts) (TX out 0 sc) = Some (TX (fold_left (fun out l => entry_text out (Inner (fst l) (snd l))) ls out) 0 sc).
Proof.
  induction 1 as [|[b xs] [l is] ls ts [H1 H2] H IH]; intros Hw out sc; [reflexivity|]. cbn [fst snd] in H1, H2. subst l. cbn [map fold_left fst snd t_elements].
  assert (Ht : tree_rel ltype (fun es => es) (Inner b xs) (DList (ltype b) is)) by (constructor; exact H2).
  pose proof (text_entry _ _ (Hw (b, xs) (or_introl eq_refl)) Ht [] out sc) as X. cbn [fst snd build_list_item t_items] in X. unfold build_list. cbn [fst snd].
  destruct (t_element site df (EList (ltype b) [] (map build_list_item is)) (TX out 0 sc)) as [c|]; [|discriminate]. injection X as ->. apply IH. intros l Hl. apply Hw. right. exact Hl.
Qed.
Lemma text_block b es : good_block b -> block_reads b es -> forall out sc, tes es (TX out 0 sc) = Some (TX (block_text out b) 0 sc).
Proof.
  intros Hg H out sc. destruct H as [p es Hr|n b l es Hr|d|ls ts Hts Hne|xs ts Hts]; cbn [block_text].
  - apply says_paragraph. apply says_reads. exact Hr.
  - apply says_heading. apply says_reads. exact Hr.
  - reflexivity.
  - apply text_lists; auto. apply Hg.
  - apply says_quote; auto. apply Hg.
Qed.
Lemma text_page bs ess : Forall2 block_reads bs ess -> Forall good_block bs -> text_render site df (concat ess ++ [EFootnoteBlock None false]) = Some (SpecWriting.strip_newlines (fold_left block_text bs [])).
Proof.
  intros H Hg. unfold text_render. assert (X : forall out, tes (concat ess ++ [EFootnoteBlock None false]) (TX out 0 []) = Some (TX (fold_left block_text bs out) 0 [])).
  { induction H as [|b es bs ess Hb H IH]; intro out; [reflexivity|]. inversion Hg; subst. cbn [concat fold_left]. rewrite <- app_assoc, tes_app, (text_block b es) by auto. apply IH. auto. }
  rewrite X. cbn [tx_out]. unfold SpecWriting.strip_newlines. rewrite !drop_skip. reflexivity.
Qed.
End TextPage.
