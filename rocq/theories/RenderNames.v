(** RenderNames.v -- the tags, attributes and raw text rendering can write, and where they come from. *)
From Verif Require Import Base BaseLemmas Strings Links LinksLemmas Attr Html SpecHtml Tree Text Toc PState Parse SpecParse SpecPage ParseInv
  Render SpecReader SpecRender RenderLemmas.

Section Names.
Variable R : renv.
Variable t : tree.
Notation here := (here t).
Notation own_attr := (own_attr R t).
Definition legit_added (tag : str) (a : added) : Prop :=
  NoDup (map (fun e => fst (fst e)) (ad_entries a)) /\
  Forall (fun e => own_attr tag (fst (fst e)) (concat (snd (fst e)))) (ad_entries a) /\
  match ad_map a with
  | Some m => (exists x, here x /\ In m (attrs_of x)) /\ forallb (fun e => negb (seqb (fst (fst e)) (lit "href"))) (ad_entries a) = true
  | None => True
  end.
Inductive legit : node -> Prop :=
| lg_text s : legit (NText s)
| lg_raw s : Forall (fun c => ~ In c [60; 62; 38; 34; 39; 0]%N) s -> legit (NRaw s)
| lg_module m : here (EModule m) -> legit (NRaw (lit "<p>TODO: module " ++ module_name m ++ lit "</p>"))
| lg_style src out : here (EStyle src) -> re_css R src = CssOut out -> legit (NTag (lit "style") [] (Some [NRaw out]))
| lg_script e : here (EEmbed e) -> embed_tag e = lit "script" -> legit (NTag (lit "script") (own [en "src" [embed_src e]]) None)
| lg_math f b src out : re_mathml R = Some f -> f b src = inl out ->
    legit (NTag (lit "wj-math-ml") (cls "wj-math-ml") (Some [NRaw out]))
| lg_tag tag attrs kids : In tag our_tags -> attrs = [] \/ (exists a, attrs = [a] /\ legit_added tag a) ->
    (In tag (void_tags ++ raw_tags) -> kids = None) -> (forall ns, kids = Some ns -> Forall legit ns) -> legit (NTag tag attrs kids).
Definition makes (m : M) : Prop := forall c ns c', m c = Done ns c' -> Forall legit ns.

Lemma makes_ret ns : Forall legit ns -> makes (ret ns).
Proof. intros H c ns' c' [= <- _]. exact H. Qed.
Lemma makes_nil : makes (ret []). Proof. apply makes_ret. constructor. Qed.
Lemma makes_text s : makes (text s). Proof. apply makes_ret. repeat constructor. Qed.
Lemma makes_raw s : Forall (fun c => ~ In c [60; 62; 38; 34; 39; 0]%N) s -> makes (raw s).
Proof. intro H. apply makes_ret. constructor; [|constructor]. apply lg_raw. exact H. Qed.
Lemma makes_panic w : makes (panic w). Proof. intros c ns c' H. discriminate. Qed.
Lemma makes_seq m m' : makes m -> makes m' -> makes (m +++ m').
Proof.
  intros H1 H2 c ns c' H. unfold seq2, bind in H. destruct (m c) as [a c1|w|] eqn:E1; try discriminate.
  destruct (m' c1) as [b c2|w|] eqn:E2; try discriminate. injection H as <- <-. apply Forall_app. eauto.
Qed.
Definition fine_attrs (tg : string) (a : list added) : Prop := a = [] \/ exists x, a = [x] /\ legit_added (lit tg) x.
Lemma makes_tag tg a m : smem (lit tg) our_tags = true -> fine_attrs tg a -> smem (lit tg) (void_tags ++ raw_tags) = false ->
  makes m -> makes (tag_with R tg a m).
Proof.
  intros Ht Ha Hv Hm c ns c' H. unfold tag_with in H. destruct (re_debug R && _); [discriminate|].
  unfold bind in H. destruct (m c) as [b c1|w|] eqn:E1; try discriminate. injection H as <- <-. constructor; [|constructor].
  apply lg_tag; auto.
  - apply smem_In. auto.
  - intro X. apply smem_In in X. congruence.
  - intros ns [= <-]. eauto.
Qed.
Lemma makes_leaf tg a : smem (lit tg) our_tags = true -> fine_attrs tg a -> makes (tag_empty R tg a).
Proof.
  intros Ht Ha c ns c' H. unfold tag_empty in H. destruct (re_debug R && _); [discriminate|]. injection H as <- <-.
  constructor; [|constructor]. apply lg_tag; auto; [apply smem_In; auto|discriminate].
Qed.
Lemma makes_concat {A} (f : A -> M) l : (forall x, In x l -> makes (f x)) -> makes (concatM (map f l)).
Proof.
  induction l as [|x l IH]; intro H; [apply makes_nil|]. cbn [map concatM fold_right]. apply makes_seq; [apply H; left; auto|].
  apply IH. intros y Hy. apply H. right. auto.
Qed.
Fixpoint nodupb (l : list str) : bool := match l with [] => true | x :: l' => negb (smem x l') && nodupb l' end.
Lemma nodupb_ok l : nodupb l = true -> NoDup l.
Proof.
  induction l as [|x l IH]; intro H; [constructor|]. cbn in H. apply andb_true_iff in H as [H1 H2]. constructor; auto.
  intro X. apply smem_In in X. rewrite X in H1. discriminate.
Qed.
Lemma fine_own tg es : nodupb (map (fun e => fst (fst e)) es) = true -> Forall (fun e => own_attr (lit tg) (fst (fst e)) (concat (snd (fst e)))) es ->
  fine_attrs tg (own es).
Proof. intros H1 H2. right. eexists. split; [reflexivity|]. unfold legit_added. cbn [ad_entries ad_map]. conj; auto. apply nodupb_ok. auto. Qed.
Lemma fine_map tg es m : nodupb (map (fun e => fst (fst e)) es) && forallb (fun e => negb (seqb (fst (fst e)) (lit "href"))) es = true -> Forall (fun e => own_attr (lit tg) (fst (fst e)) (concat (snd (fst e)))) es ->
  (exists x, here x /\ In m (attrs_of x)) -> fine_attrs tg (with_map es m).
Proof.
  intros H1 H2 H3. apply andb_true_iff in H1 as [H1 H4]. right. eexists. split; [reflexivity|]. unfold legit_added. cbn [ad_entries ad_map]. conj; auto. apply nodupb_ok; auto.
Qed.
Lemma plain_ok tag k v : smem k plain_names = true -> own_attr tag k v.
Proof. intro H. apply oa_plain. apply smem_In. auto. Qed.
Lemma id_ok tag s : page_id R s -> own_attr tag (lit "id") (concat [s]).
Proof. intro H. apply oa_id. cbn [concat]. rewrite app_nil_r. apply (oi_page R t [s]). auto. Qed.
Lemma toc_id_ok tag s : smem s (map lit ["wj-toc"; "wj-toc-action-bar"; "wj-toc-list"]%string) = true -> own_attr tag (lit "id") (concat [s]).
Proof. intro H. apply id_ok, pi_toc, smem_In, H. Qed.
Lemma anchor_id_ok tag s : here (EAnchorName s) -> own_attr tag (lit "id") (concat [s]).
Proof. intro H. apply oa_id. cbn [concat]. rewrite app_nil_r. apply oi_anchor, H. Qed.
Lemma bib_id_ok tag n m : own_attr tag (lit "id") (concat [lit "wj-bibliography-item-" ++ (dec n ++ lit "-" ++ dec m) ++ lit " bibitem-" ++ (dec n ++ lit "-" ++ dec m)]).
Proof.
  apply oa_id. cbn [concat]. rewrite app_nil_r.
  match goal with |- own_id _ _ ?x => replace x with (join [32%N] [lit "wj-bibliography-item-" ++ dec n ++ lit "-" ++ dec m; lit "bibitem-" ++ dec n ++ lit "-" ++ dec m]) end.
  - apply oi_page. constructor; [apply pi_bibitem|]. constructor; [apply pi_bibitem2|constructor].
  - cbn [join]. rewrite <- !app_assoc. reflexivity.
Qed.
Ltac pl := repeat (apply Forall_cons; [try (cbn [fst snd]; first [apply plain_ok; reflexivity | apply toc_id_ok; reflexivity | apply bib_id_ok | apply anchor_id_ok; assumption | apply id_ok; solve [auto using pi_heading, pi_random] ])|]); try apply Forall_nil.
Ltac fa := first [left; reflexivity | apply fine_own; [reflexivity|pl] | apply fine_map; [reflexivity|pl|]].
Ltac mk := repeat first
  [ apply makes_text | apply makes_nil | apply makes_leaf; [reflexivity|solve [fa]]
  | apply makes_tag; [reflexivity|solve [fa]|reflexivity|] | apply makes_seq ].

Lemma makes_sprite id : In (lit id) (map lit ["wj-karma"; "wj-clipboard"; "wj-clipboard-success"]%string) -> makes (sprite R id).
Proof.
  intro H. unfold sprite. apply makes_tag; [reflexivity|fa|reflexivity|]. apply makes_leaf; [reflexivity|]. fa. apply oa_href.
  cbn [fst snd concat en]. rewrite app_nil_r. apply oh_sprite. exact H.
Qed.
Lemma makes_fun (k : hctx -> M) (f : hctx -> hctx) : (forall c, makes (k c)) -> makes (fun c => k c (f c)).
Proof. intros H c ns c' E. exact (H c _ _ _ E). Qed.
Lemma makes_container ty a m : (exists x, here x /\ In a (attrs_of x)) -> makes m -> makes (render_container R ty a m).
Proof.
  intros Ha Hm.
  assert (Hi : makes (render_container_internal R ty a m)).
  { intros c ns c'. unfold render_container_internal. destruct (container_tag ty c) as [spec c1] eqn:Et.
    assert (Ht : exists tg, html_tag_name spec = tg /\ smem (lit tg) our_tags = true /\ smem (lit tg) (void_tags ++ raw_tags) = false).
    { eexists. split; [reflexivity|]. destruct ty; cbn [container_tag] in Et; try (injection Et as <- _; conj; reflexivity).
      destruct (hd_has_toc h); injection Et as <- _; cbn [html_tag_name]; unfold heading_tag;
        destruct (hd_level h) as [|[|[|[|[|[|]]]]]]; conj; reflexivity. }
    assert (Hid : forall tg id, spec = HTagId tg id -> page_id R id).
    { intros tg id ->. destruct ty; cbn [container_tag] in Et; try discriminate. destruct (hd_has_toc h); [|discriminate]. injection Et as _ <- _. apply pi_heading. }
    destruct Ht as (tg & Etg & H1 & H2). destruct spec as [tg'|tg' cl|tg' id]; cbn [html_tag_name] in Etg; subst tg'.
    - intro E. refine (makes_tag tg _ m H1 _ H2 Hm _ _ _ E). apply fine_map; [reflexivity|pl|auto].
    - intro E. refine (makes_tag tg _ m H1 _ H2 Hm _ _ _ E). apply fine_map; [reflexivity|pl|auto].
    - specialize (Hid _ _ eq_refl). destruct (re_true_ids R); intro E; refine (makes_tag tg _ m H1 _ H2 Hm _ _ _ E); (apply fine_map; [reflexivity|pl|auto]). }
  destruct ty; cbn [render_container]; auto. apply makes_seq; [mk|]. apply makes_seq; auto. mk.
Qed.
Lemma makes_tabs tabs : Forall (fun x => makes (snd x)) tabs -> makes (render_tabview R tabs).
Proof.
  intro H. unfold render_tabview.
  refine (makes_fun (fun c => tag_with R "wj-tabs" _ (_ +++ _)) (fun c => set_random c (hx_random c + length tabs + length tabs)) _).
  intro c.
  assert (Hids : forall k n, Forall (page_id R) (map (re_random R) (seq k n))).
  { intros k n. apply Forall_forall. intros x Hx. apply in_map_iff in Hx as (i & <- & _). apply pi_random. }
  pose proof (Hids (hx_random c) (length tabs)) as Hbs. pose proof (Hids (hx_random c + length tabs) (length tabs)) as Hts. clear Hids.
  revert Hbs Hts. generalize (map (re_random R) (seq (hx_random c) (length tabs))) as bs.
  generalize (map (re_random R) (seq (hx_random c + length tabs) (length tabs))) as ts. intros ts bs Hbs Hts.
  apply makes_tag; [reflexivity|fa|reflexivity|]. apply makes_seq; (apply makes_tag; [reflexivity|fa|reflexivity|]).
  - generalize 0 as i. revert bs ts Hbs Hts. induction tabs as [|[l m] tabs IH]; intros bs ts Hbs Hts i; [apply makes_nil|].
    cbn [tab_buttons]. destruct bs, ts; try apply makes_panic. inversion H; subst. inversion Hbs; subst. inversion Hts; subst. destruct (Nat.eqb i 0); (apply makes_seq; [mk|apply IH; auto]).
  - generalize 0 as i. revert bs ts Hbs Hts. induction tabs as [|[l m] tabs IH]; intros bs ts Hbs Hts i; [apply makes_nil|].
    cbn [tab_panels]. destruct bs, ts; try apply makes_panic. inversion H; subst. inversion Hbs; subst. inversion Hts; subst. apply makes_seq; [|apply IH; auto].
    apply makes_tag; [reflexivity|fa|reflexivity|]. auto.
Qed.
Lemma makes_defs items : Forall (fun x => makes (fst x) /\ makes (snd x)) items -> makes (render_definition_list R items).
Proof.
  intro H. apply makes_tag; [reflexivity|fa|reflexivity|]. induction H as [|[k v] items [Hk Hv] _ IH]; [apply makes_nil|]. cbn [fold_right].
  apply makes_seq; [apply makes_tag; [reflexivity|fa|reflexivity|auto]|]. apply makes_seq; [apply makes_tag; [reflexivity|fa|reflexivity|auto]|]. exact IH.
Qed.
Lemma makes_include v m : makes m -> makes (render_include v m).
Proof.
  intros H c ns c'. unfold render_include. destruct (m (set_scopes c (v :: hx_scopes c))) as [a c1|w|] eqn:E; try discriminate.
  destruct (hx_scopes c1); [discriminate|]. intros [= <- _]. eauto.
Qed.
Lemma dec_plain n : Forall (fun c => ~ In c [60; 62; 38; 34; 39; 0]%N) (dec n).
Proof.
  unfold dec. assert (X : forall u, Forall (fun c => ~ In c [60; 62; 38; 34; 39; 0]%N) (lit (DecimalString.NilEmpty.string_of_uint u))).
  { induction u; cbn; constructor; auto; cbn; intuition discriminate. }
  unfold DecimalString.NilZero.string_of_uint. destruct (Nat.to_uint n) eqn:E; try (rewrite <- E; apply X); try exact (X _).
  repeat constructor. cbn. intuition discriminate.
Qed.
Lemma makes_link ty l ex lb tg : here (ELink ty l ex lb tg) -> makes (render_link R l ex lb tg ty).
Proof.
  intros Hh c ns c'. unfold render_link. destruct (link_href R l) as [url|] eqn:Eu; [|discriminate].
  destruct (link_class R l (add_link l c)) as [cl c1]. intro E. eapply makes_tag in E; eauto; try reflexivity.
  - apply fine_own; [reflexivity|]. pl. cbn [fst snd concat en]. rewrite app_nil_r. apply oa_href. eapply oh_link; eauto.
  - destruct (get_link_label (re_site R) l lb); [apply makes_text|apply makes_panic].
Qed.
Lemma makes_breaks n : makes (line_breaks R n).
Proof. induction n as [|n IH]; [apply makes_nil|]. cbn [line_breaks]. apply makes_seq; auto. mk. Qed.
Lemma makes_mathml f b src out : re_mathml R = Some f -> f b src = inl out -> makes (tag_with R "wj-math-ml" (cls "wj-math-ml") (raw out)).
Proof.
  intros H1 H2 c ns c' E. unfold tag_with in E. destruct (re_debug R && _); [discriminate|]. injection E as <- _.
  constructor; [|constructor]. eapply lg_math; eauto.
Qed.
Lemma makes_latex b name i src : makes (render_latex R b name i src).
Proof.
  assert (Hx : makes (match re_mathml R with
         | None => ret []
         | Some f => match f b src with
                     | inl mathml => tag_with R "wj-math-ml" (cls "wj-math-ml") (raw mathml)
                     | inr error => tag_with R "span" (cls (if b then "wj-error-inline" else "wj-error-block")) (text error)
                     end
         end)).
  { destruct (re_mathml R) as [f|] eqn:Ef; [|apply makes_nil]. destruct (f b src) eqn:Es; [eapply makes_mathml; eauto|].
    apply makes_tag; [reflexivity|fa|reflexivity|mk]. }
  unfold render_latex. assert (Ht : forall m, makes m -> makes (tag_with R (if b then "span" else "div")
    (own [en "class" [lit "wj-math "; lit (if b then "wj-math-inline" else "wj-math-block")];
          en_if "data-name" [or_else name []] (is_some name)]) m)).
  { intros m Hm. destruct b; (apply makes_tag; [reflexivity|fa|reflexivity|exact Hm]). }
  apply Ht. clear Ht. apply makes_seq; [|apply makes_seq; [mk|exact Hx]].
  destruct i as [i|]; [|apply makes_nil]. apply makes_tag; [reflexivity|fa|reflexivity|]. apply makes_seq; [mk|]. apply makes_seq; [|mk].
  apply makes_raw. apply dec_plain.
Qed.

Lemma makes_script e : here (EEmbed e) -> embed_tag e = lit "script" -> makes (tag_empty R "script" (own [en "src" [embed_src e]])).
Proof.
  intros H1 H2 c ns c' E. unfold tag_empty in E. destruct (re_debug R && _); [discriminate|]. injection E as <- _.
  constructor; [|constructor]. apply lg_script; auto.
Qed.

Variable ref : list element -> M.
Hypothesis Href : forall x, here x -> forall L, In L (referenced t x) -> makes (ref L).
Theorem makes_elements es : (forall x, occurs_in x es -> here x) ->
  makes (h_elements R (tr_toc t) (tr_footnotes t) (tr_bibs t) ref es).
Proof.
  intro Hg. revert Hg. pose (P := fun es m => (forall x, occurs_in x es -> here x) -> makes m).
  change (P es (h_elements R (tr_toc t) (tr_footnotes t) (tr_bibs t) ref es)). apply h_induct; unfold P; clear es P.
  - intros _. apply makes_nil.
  - intros e es m m' H1 H2 Hg. apply makes_seq.
    + apply H1. intros x (y & [<-|[]] & Ho). apply Hg. exists e. split; auto. left. auto.
    + apply H2. intros x (y & Hy & Ho). apply Hg. exists y. split; auto. right. auto.
  - intros e IHl IHx Hg.
    assert (Ge : here e) by (apply Hg; exists e; split; [left; auto|constructor]).
    assert (Gc : forall x, In x (children e) -> forall y, occurs y x -> here y).
    { intros x Hx y Hy. apply Hg. exists e. split; [left; auto|]. econstructor; eauto. }
    assert (Hl : forall es, sublist_of es e -> makes (h_elements R (tr_toc t) (tr_footnotes t) (tr_bibs t) ref es)).
    { intros es Hs. apply IHl; auto. intros x (y & Hy & Ho). eapply Gc; eauto. }
    assert (Hx : forall x, In x (children e) -> makes (h_element R (tr_toc t) (tr_footnotes t) (tr_bibs t) ref x)).
    { intros x Hx. apply IHx; auto. intros y (z & [<-|[]] & Ho). eapply Gc; eauto. }
    clear IHl IHx Hg Gc.
    assert (Hf : forall m, In m (attrs_of e) -> exists x, here x /\ In m (attrs_of x)) by (intros m Hm; exists e; auto).
    pose proof (Href e Ge) as Hr.
    rewrite h_element_eq. destruct e; cbn [h_body h_element] in *.
    + apply makes_container; [apply Hf; left; auto|]. apply Hl, incl_refl.
    + apply makes_ret. constructor; [|constructor]. apply lg_module. exact Ge.
    + mk.
    + unfold render_wikitext_raw. mk.
    + intros c. apply (makes_text _ c).
    + unfold render_email. mk.
    + unfold render_table. apply makes_tag; [reflexivity|fa; apply Hf; left; auto|reflexivity|]. apply makes_tag; [reflexivity|fa|reflexivity|]. apply makes_concat. intros r Hrr.
      unfold render_row. apply makes_tag; [reflexivity| |reflexivity|].
      { fa. apply Hf. right. apply in_flat_map. exists r. split; auto. left. auto. }
      apply makes_concat. intros x Hxx. unfold render_cell.
      assert (Ht : forall m, makes m -> makes (tag_with R (if tc_header x then "th" else "td")
        (with_map [en_if "colspan" [dec (N.to_nat (tc_column_span x))] (1 <? tc_column_span x)%N;
               en_if "class" [match tc_align x with Some a => align_class a | None => [] end] (is_some (tc_align x))]
              (tc_attributes x)) m)).
      { intros m Hm. assert (Hm' : exists y, here y /\ In (tc_attributes x) (attrs_of y)).
        { apply Hf. right. apply in_flat_map. exists r. split; auto. right. apply in_map. auto. }
        destruct (tc_header x); (apply makes_tag; [reflexivity|apply fine_map; [reflexivity|pl|exact Hm']|reflexivity|exact Hm]). }
      apply Ht. apply Hl. eapply sub_cell; eauto.
    + apply makes_tabs. apply Forall_forall. intros x Hxx. apply in_map_iff in Hxx as (tb & <- & Ht). cbn [snd]. apply Hl. apply sub_tab; auto.
    + unfold render_anchor. apply makes_tag; [reflexivity|fa; apply Hf; left; auto|reflexivity|]. apply Hl, incl_refl.
    + mk.
    + apply makes_link. exact Ge.
    + unfold render_image. destruct (get_image_link R source) as [url|] eqn:Eu; [|mk].
      assert (Hi : makes (tag_empty R "img" (with_map [en "class" [lit "wj-image"]; en "src" [url]; en "crossorigin" []] attributes))).
      { apply makes_leaf; [reflexivity|]. fa; [|apply Hf; left; auto]. apply oa_src. cbn [fst snd concat en]. rewrite app_nil_r. eapply os_image; eauto. }
      destruct alignment as [al|]; (apply makes_tag; [reflexivity|fa|reflexivity|]); (destruct link as [l|]; [|exact Hi]);
        (destruct (link_href R l) as [h|] eqn:Eh; [|apply makes_panic]); (apply makes_tag; [reflexivity| |reflexivity|exact Hi]);
        (apply fine_own; [reflexivity|]; pl; cbn [fst snd concat en]; rewrite app_nil_r; apply oa_href; eapply oh_image; eauto).
    + unfold render_list. assert (Ht : forall m, makes m -> makes (tag_with R (match ltype with LNumbered => "ol" | _ => "ul" end) (with_map [] attributes) m)).
      { intros m Hm. destruct ltype; (apply makes_tag; [reflexivity|fa; apply Hf; left; auto|reflexivity|exact Hm]). }
      apply Ht. apply makes_concat. intros [b es|x] Hi.
      * apply makes_tag; [reflexivity| |reflexivity|].
        { fa. apply Hf. right. apply in_flat_map. exists (LIElements b es). split; auto. left. auto. }
        apply Hl. eapply sub_item; eauto.
      * apply Hx. eapply (sub_sublist ltype attributes); eauto.
    + apply makes_defs. apply Forall_forall. intros x Hxx. apply in_map_iff in Hxx as (d & <- & Hd). cbn [fst snd]. split; apply Hl; [apply sub_key|apply sub_value]; auto.
    + unfold render_radio_button. apply makes_leaf; [reflexivity|]. fa. apply Hf. left. auto.
    + unfold render_checkbox. apply makes_leaf; [reflexivity|]. fa. apply Hf. left. auto.
    + unfold render_collapsible. apply makes_tag; [reflexivity|fa; apply Hf; left; auto|reflexivity|].
      apply makes_seq; [mk|]. apply makes_seq.
      * apply makes_tag; [reflexivity|fa|reflexivity|]. apply Hl, incl_refl.
      * destruct show_bottom; mk.
    + unfold render_table_of_contents. assert (Ht : makes (ref (tr_toc t))) by (apply Hr; left; auto).
      apply makes_tag; [reflexivity|fa; apply Hf; left; auto|reflexivity|].
      apply makes_seq.
      { apply makes_tag; [reflexivity|fa|reflexivity|]. apply makes_leaf; [reflexivity|]. apply fine_own; [reflexivity|]. constructor; [|constructor; [|constructor]].
        - apply oa_href. apply oh_toc.
        - apply oa_click. reflexivity. }
      apply makes_seq; [mk|]. apply makes_tag; [reflexivity|fa|reflexivity|]. exact Ht.
    + intros c ns c'. unfold render_footnote. destruct (nth_error (tr_footnotes t) (hx_footnote c - 1)) as [es|] eqn:En; [|discriminate].
      assert (Hes : makes (ref es)) by (apply Hr; eapply nth_error_In; eauto). generalize (set_footnote c (S (hx_footnote c))) as c1. intros c1 E.
      revert E. apply makes_tag; [reflexivity|fa|reflexivity|]. apply makes_seq; [mk|]. apply makes_tag; [reflexivity|fa|reflexivity|].
      apply makes_seq; [mk|]. apply makes_tag; [reflexivity|fa|reflexivity|]. exact Hes.
    + destruct (tr_footnotes t) as [|f fs'] eqn:Ef; [apply makes_nil|]. destruct hide; [apply makes_nil|]. rewrite <- Ef in *. unfold render_footnote_block.
      apply makes_tag; [reflexivity|fa|reflexivity|]. apply makes_seq; [mk|]. apply makes_tag; [reflexivity|fa|reflexivity|]. clear Ef.
      assert (Y : forall l i, (forall L, In L l -> makes (ref L)) -> makes (footnote_items R ref i l)); [|apply Y; exact Hr].
      clear. induction l as [|x l IH]; intros i H; [apply makes_nil|]. cbn [footnote_items]. apply makes_seq.
      * apply makes_tag; [reflexivity|fa|reflexivity|]. apply makes_seq; [|apply makes_tag; [reflexivity|fa|reflexivity|]; apply H; left; auto].
        apply makes_tag; [reflexivity|fa|reflexivity|]. apply makes_seq; [apply makes_raw, dec_plain|mk].
      * apply IH. intros L HL. apply H. right. auto.
    + unfold render_bibcite. cbn [referenced] in Hr. destruct (bibs_get (tr_bibs t) label) as [[i es]|]; [|mk].
      assert (Hes : makes (ref es)) by (apply Hr; left; auto).
      assert (Hbr : forall c, In c [91; 93]%N -> makes (if brackets then raw [c] else ret [])).
      { intros c Hc. destruct brackets; [|apply makes_nil]. apply makes_raw. constructor; [|constructor]. cbn in *. intuition subst; discriminate. }
      apply makes_tag; [reflexivity|fa|reflexivity|]. apply makes_seq; [apply Hbr; left; auto|]. apply makes_seq; [mk|]. apply makes_seq; [apply Hbr; right; left; auto|].
      apply makes_tag; [reflexivity|fa|reflexivity|]. apply makes_seq; [mk|]. apply makes_tag; [reflexivity|fa|reflexivity|]. exact Hes.
    + destruct hide; [apply makes_nil|]. cbn [referenced] in Hr. destruct (nth_error (tr_bibs t) index) as [b|] eqn:Eb; [|apply makes_panic].
      unfold render_bibliography. apply makes_tag; [reflexivity|fa|reflexivity|]. apply makes_seq; [mk|].
      assert (Y : forall l bi i, (forall L, In L (map snd l) -> makes (ref L)) -> makes (bibliography_items R ref bi i l)); [|apply Y; exact Hr].
      clear. induction l as [|[la x] l IH]; intros bi i H; [apply makes_nil|]. cbn [bibliography_items]. apply makes_seq.
      * apply makes_tag; [reflexivity|fa|reflexivity|]. apply makes_seq; [|apply H; left; auto].
        apply makes_tag; [reflexivity|fa|reflexivity|]. apply makes_seq; [apply makes_raw, dec_plain|mk].
      * apply IH. intros L HL. apply H. right. auto.
    + unfold render_user. apply makes_tag; [reflexivity|fa|reflexivity|]. apply makes_tag; [reflexivity| |reflexivity|].
      { apply fine_own; [reflexivity|]. pl. apply oa_href. cbn [fst snd concat en]. rewrite app_nil_r. eapply oh_user; eauto. }
      apply makes_seq; [|mk]. destruct show_avatar; [|apply makes_nil]. apply makes_seq.
      * apply makes_tag; [reflexivity|fa|reflexivity|]. apply makes_sprite. left. auto.
      * apply makes_leaf; [reflexivity|]. apply fine_own; [reflexivity|]. pl. apply oa_src. cbn [fst snd concat en]. rewrite app_nil_r. apply os_avatar.
    + unfold render_date. destruct hover; mk.
    + unfold render_color. apply makes_tag; [reflexivity| |reflexivity|apply Hl, incl_refl]. apply fine_own; [reflexivity|]. constructor; [|constructor].
      cbn [fst snd concat en]. rewrite app_nil_r. eapply oa_style; eauto.
    + unfold render_code. refine (makes_fun (fun _ => _) (fun c => set_code c (S (hx_code c))) _). intros _.
      apply makes_tag; [reflexivity|fa|reflexivity|]. apply makes_seq; [|mk]. apply makes_tag; [reflexivity|fa|reflexivity|]. apply makes_seq; [|mk].
      apply makes_tag; [reflexivity|fa|reflexivity|]. apply makes_seq; apply makes_sprite; cbn; auto.
    + unfold render_math_block. refine (makes_fun (fun c => render_latex R false name (Some (hx_equation c)) latex_source)
        (fun c => set_equation c (S (hx_equation c))) _). intro c. apply makes_latex.
    + apply makes_latex.
    + unfold render_equation_reference. mk.
    + unfold render_embed. apply makes_tag; [reflexivity|fa|reflexivity|]. pose proof (os_embed R t e Ge) as He.
      destruct e; cbn [embed_tag embed_src] in He;
        try (apply makes_leaf; [reflexivity|]; apply fine_own; [reflexivity|]; pl; apply oa_src; cbn [fst snd concat en]; rewrite app_nil_r; exact He).
      * exact (makes_script _ Ge eq_refl).
      * exact (makes_script _ Ge eq_refl).
    + unfold render_html. apply makes_leaf; [reflexivity|]. apply fine_own; [reflexivity|]. pl. apply oa_src. eapply os_html; eauto.
    + unfold render_iframe. apply makes_leaf; [reflexivity|]. fa; [|apply Hf; left; auto]. apply oa_src. cbn [fst snd concat en]. rewrite app_nil_r. eapply os_iframe; eauto.
    + apply makes_include. apply Hl, incl_refl.
    + unfold render_style. destruct (re_css R s) as [out| |] eqn:Ec; [|apply makes_nil|apply makes_panic].
      intros c ns c' E. unfold tag_with in E. destruct (re_debug R && _); [discriminate|]. injection E as <- _. constructor; [|constructor]. eapply lg_style; eauto.
    + mk.
    + apply makes_breaks.
    + mk.
    + mk.
    + apply makes_panic.
Qed.
End Names.
