(** RenderNumbers.v -- numbers given out while rendering: each kind of tag takes the next ones. *)
From Verif Require Import Base BaseLemmas Strings StringsLemmas Links LinksLemmas Attr Html SpecHtml HtmlLemmas Tree Text Toc PState Parse
  SpecParse SpecPage ParseInv Render SpecReader SpecRender RenderLemmas RenderDom RenderNames SpecText SpecShown RenderWords.

Definition node_tokens (ns : list node) : list htoken := flat_map dom_tokens (map dom_of ns).
Lemma node_tokens_app a b : node_tokens (a ++ b) = node_tokens a ++ node_tokens b.
Proof. unfold node_tokens. rewrite map_app, flat_map_app. auto. Qed.
Lemma node_tokens_tag tg a ns : smem tg raw_tags = false -> node_tokens [NTag tg a (Some ns)] =
  TkOpen tg (map (fun kv => (fst kv, shown (snd kv))) (flat_map attr_pairs a)) :: node_tokens ns ++ (if smem tg void_tags then [] else [TkClose tg]).
Proof. intro H. unfold node_tokens. cbn [map flat_map dom_of dom_tokens]. rewrite H, app_nil_r. reflexivity. Qed.

(** The tags that take numbers. *)
Definition special : list str := map lit ["h1"; "h2"; "h3"; "h4"; "h5"; "h6"; "wj-footnote-ref-marker"]%string.
Lemma tag_with_inv R tg a m c ns c' : tag_with R tg a m c = Done ns c' -> exists b, m c = Done b c' /\ ns = [NTag (lit tg) a (Some b)].
Proof.
  unfold tag_with. destruct (re_debug R && _); [discriminate|]. unfold bind. destruct (m c) as [b c1|w|]; try discriminate. intros [= <- <-]. eauto.
Qed.
Lemma seq2_inv m m' c ns c' : (m +++ m') c = Done ns c' -> exists a c1 b, m c = Done a c1 /\ m' c1 = Done b c' /\ ns = a ++ b.
Proof.
  unfold seq2, bind. destruct (m c) as [a c1|w|]; try discriminate. destruct (m' c1) as [b c2|w|] eqn:E2; try discriminate. intros [= <- <-]. exists a, c1, b. auto.
Qed.
Section Numbers.
Variable R : renv.
Variable mark : htoken -> list str.          (* what is read of a tag *)
Variable get : hctx -> nat.                  (* the counter *)
Variable name : nat -> str.                  (* how a number is written *)
Hypothesis mark_char : forall c, mark (TkChar c) = [].
Hypothesis mark_close : forall tg, mark (TkClose tg) = [].
Hypothesis mark_open : forall tg attrs, smem tg special = false -> mark (TkOpen tg attrs) = [].
Hypothesis mark_math : forall out, mathml_output R out -> flat_map mark (html_tokens out) = [].
Hypothesis get_code : forall c n, get (set_code c n) = get c.
Hypothesis get_equation : forall c n, get (set_equation c n) = get c.
Hypothesis get_random : forall c n, get (set_random c n) = get c.
Hypothesis get_scopes : forall c n, get (set_scopes c n) = get c.
Hypothesis get_internal : forall c n, get (add_internal c n) = get c.
Hypothesis get_external : forall c n, get (add_external c n) = get c.
Hypothesis get_page : forall c r b, get (add_page c r b) = get c.

Definition marks (ns : list node) : list str := flat_map mark (node_tokens ns).
Definition numbers (m : M) : Prop := forall c ns c', m c = Done ns c' ->
  exists k, marks ns = map name (seq (get c) k) /\ get c' = get c + k.
Lemma marks_chars s : flat_map mark (chars s) = [].
Proof. induction s as [|c s IH]; [reflexivity|]. cbn. rewrite mark_char. exact IH. Qed.
Lemma none (m : M) : (forall c ns c', m c = Done ns c' -> marks ns = [] /\ get c' = get c) -> numbers m.
Proof. intros H c ns c' E. apply H in E as [-> ->]. exists 0. split; auto. Qed.
Lemma n_nil : numbers (ret []). Proof. apply none. intros c ns c' [= <- <-]. auto. Qed.
Lemma n_text s : numbers (text s).
Proof. apply none. intros c ns c' [= <- <-]. split; auto. unfold marks, node_tokens. cbn [map flat_map dom_of dom_tokens]. rewrite app_nil_r. apply marks_chars. Qed.
Lemma n_plain s : Forall (fun c => ~ In c [60; 62; 38; 34; 39; 0]%N) s -> flat_map mark (html_tokens s) = [].
Proof.
  intro H. assert (X : hrun SData s = (SData, chars s)).
  { induction H as [|c s Hc _ IH]; [reflexivity|]. change (TkChar c :: map TkChar s) with ([TkChar c] ++ chars s). unfold chars. cbn [map]. change (TkChar c :: map TkChar s) with ([TkChar c] ++ chars s).
    eapply hrun_cons; [|exact IH]. unfold hstep, in_data. rewrite (ceqb_out c _ 60%N Hc), (ceqb_out c _ 38%N Hc); cbn; auto. }
  unfold html_tokens. rewrite X. apply marks_chars.
Qed.
Lemma n_raw s : flat_map mark (html_tokens s) = [] -> numbers (raw s).
Proof. intro H. apply none. intros c ns c' [= <- <-]. split; auto. unfold marks, node_tokens. cbn [map flat_map dom_of dom_tokens]. rewrite app_nil_r. exact H. Qed.
Lemma n_panic w : numbers (panic w). Proof. intros c ns c' H. discriminate. Qed.
Lemma n_seq m m' : numbers m -> numbers m' -> numbers (m +++ m').
Proof.
  intros H1 H2 c ns c' H. unfold seq2, bind in H. destruct (m c) as [a c1|w|] eqn:E1; try discriminate.
  destruct (m' c1) as [b c2|w|] eqn:E2; try discriminate. injection H as <- <-.
  apply H1 in E1 as (k1 & A1 & A2). apply H2 in E2 as (k2 & B1 & B2). exists (k1 + k2). split; [|lia].
  unfold marks in *. rewrite node_tokens_app, flat_map_app, A1, B1, A2, seq_app, map_app. auto.
Qed.
Lemma marks_tag tg a ns : smem tg raw_tags = false -> marks [NTag tg a (Some ns)] = mark (TkOpen tg (map (fun kv => (fst kv, shown (snd kv))) (flat_map attr_pairs a))) ++ marks ns.
Proof.
  intro H. unfold marks. rewrite node_tokens_tag by auto. cbn [flat_map]. rewrite flat_map_app. f_equal. destruct (smem tg void_tags); cbn; rewrite ?mark_close; apply app_nil_r.
Qed.
Lemma n_tag_open tg a m : smem (lit tg) raw_tags = false -> (forall attrs, mark (TkOpen (lit tg) attrs) = []) -> numbers m -> numbers (tag_with R tg a m).
Proof. intros Ht Ho Hm c ns c' H. apply tag_with_inv in H as (b & H & ->). rewrite marks_tag, Ho by auto. eauto. Qed.
Lemma n_tag tg a m : smem (lit tg) (special ++ raw_tags) = false -> numbers m -> numbers (tag_with R tg a m).
Proof.
  intros Ht Hm. assert (X : smem (lit tg) special = false /\ smem (lit tg) raw_tags = false).
  { split; apply not_true_iff_false; intro X; apply smem_In in X; apply not_true_iff_false in Ht; apply Ht, smem_In, in_or_app; auto. }
  destruct X as [X1 X2]. apply n_tag_open; auto.
Qed.
Lemma n_leaf tg a : smem (lit tg) special = false -> numbers (tag_empty R tg a).
Proof.
  intro Ht. apply none. intros c ns c' H. unfold tag_empty in H. destruct (re_debug R && _); [discriminate|]. injection H as <- <-. split; auto.
  unfold marks, node_tokens. cbn [map flat_map dom_of dom_tokens]. rewrite app_nil_r.
  match goal with |- flat_map mark (?x :: ?y) = [] => change (mark x ++ flat_map mark y = []) end. rewrite mark_open by auto.
  destruct (smem (lit tg) raw_tags), (smem (lit tg) void_tags); cbn; rewrite ?mark_close; auto.
Qed.
Lemma n_concat {A} (f : A -> M) l : (forall x, In x l -> numbers (f x)) -> numbers (concatM (map f l)).
Proof.
  induction l as [|x l IH]; intro H; [apply n_nil|]. cbn [map concatM fold_right]. apply n_seq; [apply H; left; auto|].
  apply IH. intros y Hy. apply H. right. auto.
Qed.
Lemma n_in (k : hctx -> M) (f : hctx -> hctx) : (forall c, get (f c) = get c) -> (forall c, numbers (k c)) -> numbers (fun c => k c (f c)).
Proof. intros Hf H c ns c' E. apply H in E. rewrite Hf in E. exact E. Qed.
Lemma n_include v m : numbers m -> numbers (render_include v m).
Proof.
  intros H c ns c'. unfold render_include. destruct (m (set_scopes c (v :: hx_scopes c))) as [a c1|w|] eqn:E; try discriminate.
  apply H in E as (k & E1 & E2). rewrite get_scopes in *. destruct (hx_scopes c1); [discriminate|]. intros [= <- <-]. exists k. rewrite get_scopes. auto.
Qed.
Ltac sw := repeat first [apply n_text | apply n_nil | apply n_leaf; reflexivity | apply n_panic | apply n_tag; [reflexivity|] | apply n_seq].
Lemma n_sprite id : numbers (sprite R id).
Proof. unfold sprite. sw. Qed.
Lemma n_container ty a m : numbers m -> (forall h, ty <> CHeader h) -> numbers (render_container R ty a m).
Proof.
  intros Hm Hk.
  assert (Hi : numbers (render_container_internal R ty a m)).
  { intros c ns c'. unfold render_container_internal. destruct (container_tag ty c) as [spec c1] eqn:Et.
    assert (Ht : smem (lit (html_tag_name spec)) (special ++ raw_tags) = false /\ c1 = c).
    { destruct ty; cbn [container_tag] in Et; try (injection Et as <- <-; split; reflexivity). exfalso. eapply Hk. reflexivity. }
    destruct Ht as [Ht ->]. destruct spec as [tg|tg cl|tg id]; cbn [html_tag_name] in Ht.
    - intro E. exact (n_tag tg _ m Ht Hm _ _ _ E).
    - intro E. exact (n_tag tg _ m Ht Hm _ _ _ E).
    - destruct (re_true_ids R); intro E; [exact (n_tag tg _ m Ht Hm _ _ _ E)|]. apply (n_tag tg _ m Ht Hm) in E. rewrite get_random in E. exact E. }
  destruct ty; cbn [render_container]; auto. apply n_seq; [sw|]. apply n_seq; [exact Hi|sw].
Qed.
Lemma n_tabs tabs : Forall (fun x => numbers (snd x)) tabs -> numbers (render_tabview R tabs).
Proof.
  intro H. unfold render_tabview.
  refine (n_in (fun c => tag_with R "wj-tabs" _ (_ +++ _)) (fun c => set_random c (hx_random c + length tabs + length tabs)) _ _); [auto|].
  intro c. generalize (map (re_random R) (seq (hx_random c) (length tabs))) as bs.
  generalize (map (re_random R) (seq (hx_random c + length tabs) (length tabs))) as ts. intros ts bs.
  apply n_tag; [reflexivity|]. apply n_seq; (apply n_tag; [reflexivity|]).
  - generalize 0 as i. revert bs ts. induction tabs as [|[l m] tabs IH]; intros bs ts i; [apply n_nil|]. inversion H; subst.
    cbn [tab_buttons]. destruct bs, ts; try apply n_panic. destruct (Nat.eqb i 0); (apply n_seq; [sw|apply IH; auto]).
  - generalize 0 as i. revert bs ts. induction tabs as [|[l m] tabs IH]; intros bs ts i; [apply n_nil|]. inversion H; subst.
    cbn [tab_panels]. destruct bs, ts; try apply n_panic. apply n_seq; [|apply IH; auto]. apply n_tag; [reflexivity|]. auto.
Qed.
Lemma n_defs items : Forall (fun x => numbers (fst x) /\ numbers (snd x)) items -> numbers (render_definition_list R items).
Proof.
  intro H. apply n_tag; [reflexivity|]. induction H as [|[k v] items [Hk Hv] _ IH]; [apply n_nil|]. cbn [fold_right]. sw; auto.
Qed.
Lemma get_link l c : get (snd (link_class R l (add_link l c))) = get c.
Proof.
  transitivity (get (add_link l c)).
  - unfold link_class. destruct l as [r|u]; [|reflexivity]. unfold page_exists.
    destruct (pages_get _ r); [reflexivity|]. destruct (pr_fields_or r (re_site R)). apply get_page.
  - unfold add_link. destruct l as [r|u]; [apply get_internal|]. destruct (seqb u _); [reflexivity|]. destruct u as [|ch u]; [destruct (is_url []); auto|].
    destruct (ceqb ch 47); (destruct (is_url _); auto).
Qed.
Lemma n_link ty l ex lb tg : numbers (render_link R l ex lb tg ty).
Proof.
  intros c ns c'. unfold render_link. destruct (link_href R l) as [url|] eqn:Eu; [|discriminate].
  pose proof (get_link l c) as Es. destruct (link_class R l (add_link l c)) as [cl c1] eqn:Ec. cbn [snd] in Es.
  intro E. rewrite <- Es. refine (n_tag "a" _ _ eq_refl _ _ _ _ E). destruct (get_link_label (re_site R) l lb); sw.
Qed.
Lemma n_breaks n : numbers (line_breaks R n).
Proof. induction n as [|n IH]; [apply n_nil|]. cbn [line_breaks]. apply n_seq; auto. sw. Qed.
Lemma n_dec n : numbers (raw (dec n)). Proof. apply n_raw, n_plain, dec_plain. Qed.
Lemma n_latex b nm i src : numbers (render_latex R b nm i src).
Proof.
  unfold render_latex. apply n_tag; [destruct b; reflexivity|]. apply n_seq; [destruct i as [i|]; sw; apply n_dec|]. apply n_seq; [sw|].
  destruct (re_mathml R) as [f|] eqn:Ef; [|sw]. destruct (f b src) as [out|err] eqn:Es; [|sw]. apply n_tag; [reflexivity|]. apply n_raw. apply mark_math. exists f, b, src. auto.
Qed.

Variable t : tree.
Variable ref : list element -> M.
Hypothesis Href : forall x, here t x -> forall L, In L (referenced t x) -> numbers (ref L).
Hypothesis Hhead : forall h m, numbers m -> numbers (render_container R (CHeader h) [] m).
Hypothesis Hfoot : here t EFootnote -> numbers (render_footnote R (tr_footnotes t) ref).
Hypothesis Hplain : forall h a es, here t (EContainer (CHeader h) a es) -> a = [].
Theorem n_elements es : (forall x, occurs_in x es -> here t x) ->
  numbers (h_elements R (tr_toc t) (tr_footnotes t) (tr_bibs t) ref es).
Proof.
  intro Hg. revert Hg. pose (P := fun es m => (forall x, occurs_in x es -> here t x) -> numbers m).
  change (P es (h_elements R (tr_toc t) (tr_footnotes t) (tr_bibs t) ref es)). apply h_induct; unfold P; clear es P.
  - intros _. apply n_nil.
  - intros e es m m' H1 H2 Hg. apply n_seq.
    + apply H1. intros x (y & [<-|[]] & Ho). apply Hg. exists e. split; auto. left. auto.
    + apply H2. intros x (y & Hy & Ho). apply Hg. exists y. split; auto. right. auto.
  - intros e IHl IHx Hg.
    assert (Ge : here t e) by (apply Hg; exists e; split; [left; auto|constructor]).
    assert (Gc : forall x, In x (children e) -> forall y, occurs y x -> here t y).
    { intros x Hx y Hy. apply Hg. exists e. split; [left; auto|]. econstructor; eauto. }
    assert (Hl : forall es, sublist_of es e -> numbers (h_elements R (tr_toc t) (tr_footnotes t) (tr_bibs t) ref es)).
    { intros es Hs. apply IHl; auto. intros x (y & Hy & Ho). eapply Gc; eauto. }
    assert (Hx : forall x, In x (children e) -> numbers (h_element R (tr_toc t) (tr_footnotes t) (tr_bibs t) ref x)).
    { intros x Hx. apply IHx; auto. intros y (z & [<-|[]] & Ho). eapply Gc; eauto. }
    clear IHl IHx Hg Gc. pose proof (Href e Ge) as Hr.
    rewrite h_element_eq. destruct e; cbn [h_body h_element] in *.
    + assert (X : (exists h, ctype = CHeader h) \/ forall h, ctype <> CHeader h) by (destruct ctype; try (right; intros ?; discriminate); left; eauto).
      destruct X as [[h ->]|X]; [|apply n_container; auto; apply Hl, incl_refl]. rewrite (Hplain _ _ _ Ge). apply Hhead. apply Hl, incl_refl.
    + apply none. intros c ns c' [= <- <-]. split; auto. unfold marks, node_tokens, render_module. cbn [map flat_map dom_of]. rewrite app_nil_r.
      assert (Hs : dom_tokens (DRaw (lit "<p>TODO: module " ++ module_name m ++ lit "</p>")) =
        TkOpen (lit "p") [] :: chars (lit "TODO: module " ++ module_name m) ++ [TkClose (lit "p")]) by (destruct m; vm_compute; reflexivity).
      rewrite Hs. cbn [flat_map]. rewrite flat_map_app, marks_chars. cbn. rewrite mark_close, mark_open; reflexivity.
    + sw.
    + unfold render_wikitext_raw. sw.
    + intros c. apply (n_text _ c).
    + unfold render_email. sw.
    + unfold render_table. sw. apply n_concat. intros r Hrr.
      unfold render_row. sw. apply n_concat. intros x Hxx. unfold render_cell. apply n_tag; [destruct (tc_header x); reflexivity|]. apply Hl. eapply sub_cell; eauto.
    + apply n_tabs. apply Forall_forall. intros x Hxx. apply in_map_iff in Hxx as (tb & <- & Ht). cbn [snd]. apply Hl. apply sub_tab; auto.
    + unfold render_anchor. sw. apply Hl, incl_refl.
    + sw.
    + apply n_link.
    + unfold render_image. destruct (get_image_link R source) as [url|] eqn:Eu; [|sw].
      destruct alignment as [al|]; sw; (destruct link as [l|]; [|sw]); (destruct (link_href R l) as [h|] eqn:Eh; sw).
    + unfold render_list. apply n_tag; [destruct ltype; reflexivity|]. apply n_concat. intros [b es|x] Hi.
      * unfold render_item. sw. apply Hl. eapply sub_item; eauto.
      * apply Hx. eapply (sub_sublist ltype attributes); eauto.
    + apply n_defs. apply Forall_forall. intros x Hxx. apply in_map_iff in Hxx as (d & <- & Hd). cbn [fst snd]. split; apply Hl; [apply sub_key|apply sub_value]; auto.
    + unfold render_radio_button. sw.
    + unfold render_checkbox. sw.
    + unfold render_collapsible. apply n_tag; [reflexivity|]. apply n_seq; [sw|]. apply n_seq; [apply n_tag; [reflexivity|]; apply Hl, incl_refl|]. destruct show_bottom; sw.
    + unfold render_table_of_contents. assert (Ht : numbers (ref (tr_toc t))) by (apply Hr; left; auto). sw. exact Ht.
    + apply Hfoot. exact Ge.
    + destruct (tr_footnotes t) as [|f fs'] eqn:Ef; [apply n_nil|]. destruct hide; [apply n_nil|]. rewrite <- Ef in *. unfold render_footnote_block.
      apply n_tag; [reflexivity|]. apply n_seq; [sw|]. apply n_tag; [reflexivity|]. clear Ef.
      assert (Y : forall l i, (forall L, In L l -> numbers (ref L)) -> numbers (footnote_items R ref i l)); [|apply Y; exact Hr].
      induction l as [|x l IH]; intros i H; [apply n_nil|]. cbn [footnote_items]. apply n_seq.
      * apply n_tag; [reflexivity|]. apply n_seq; [|apply n_tag; [reflexivity|]; apply H; left; auto]. apply n_tag; [reflexivity|]. apply n_seq; [apply n_dec|sw].
      * apply IH. intros L HL. apply H. right. auto.
    + unfold render_bibcite. cbn [referenced] in Hr. destruct (bibs_get (tr_bibs t) label) as [[i es]|]; [|sw].
      assert (Hes : numbers (ref es)) by (apply Hr; left; auto).
      assert (Hbr : forall c, In c [91; 93]%N -> numbers (if brackets then raw [c] else ret [])).
      { intros c Hc. destruct brackets; [|apply n_nil]. apply n_raw, n_plain. constructor; [|constructor]. cbn in *. intuition subst; discriminate. }
      apply n_tag; [reflexivity|]. apply n_seq; [apply Hbr; left; auto|]. apply n_seq; [sw|]. apply n_seq; [apply Hbr; right; left; auto|]. sw. exact Hes.
    + destruct hide; [apply n_nil|]. cbn [referenced] in Hr. destruct (nth_error (tr_bibs t) index) as [b|] eqn:Eb; [|apply n_panic].
      unfold render_bibliography. apply n_tag; [reflexivity|]. apply n_seq; [sw|].
      assert (Y : forall l bi i, (forall L, In L (map snd l) -> numbers (ref L)) -> numbers (bibliography_items R ref bi i l)); [|apply Y; exact Hr].
      induction l as [|[la x] l IH]; intros bi i H; [apply n_nil|]. cbn [bibliography_items]. apply n_seq.
      * apply n_tag; [reflexivity|]. apply n_seq; [|apply H; left; auto]. apply n_tag; [reflexivity|]. apply n_seq; [apply n_dec|sw].
      * apply IH. intros L HL. apply H. right. auto.
    + unfold render_user. apply n_tag; [reflexivity|]. apply n_tag; [reflexivity|]. apply n_seq; [|sw]. destruct show_avatar; [|apply n_nil]. apply n_seq; [|sw].
      apply n_tag; [reflexivity|]. apply n_sprite.
    + unfold render_date. destruct hover; sw.
    + unfold render_color. apply n_tag; [reflexivity|]. apply Hl, incl_refl.
    + unfold render_code. refine (n_in (fun _ => _) (fun c => set_code c (S (hx_code c))) _ _); [auto|]. intros _.
      apply n_tag; [reflexivity|]. apply n_seq; [|sw]. apply n_tag; [reflexivity|]. apply n_seq; [|sw].
      apply n_tag; [reflexivity|]. apply n_seq; apply n_sprite.
    + unfold render_math_block. refine (n_in (fun c => render_latex R false name0 (Some (hx_equation c)) latex_source)
        (fun c => set_equation c (S (hx_equation c))) _ _); [auto|]. intro c. apply n_latex.
    + apply n_latex.
    + unfold render_equation_reference. sw.
    + unfold render_embed. apply n_tag; [reflexivity|]. destruct e; sw.
    + unfold render_html. sw.
    + unfold render_iframe. sw.
    + apply n_include. apply Hl, incl_refl.
    + unfold render_style. destruct (re_css R s) as [out| |] eqn:Ec; [|apply n_nil|apply n_panic]. apply none.
      intros c ns c' E. unfold tag_with in E. destruct (re_debug R && _); [discriminate|]. injection E as <- <-. split; auto.
      unfold marks, node_tokens. cbn [map flat_map dom_of]. rewrite app_nil_r.
      change (flat_map mark (TkOpen (lit "style") [] :: (chars out ++ []) ++ [TkClose (lit "style")]) = []). cbn [flat_map]. rewrite flat_map_app, app_nil_r, marks_chars. cbn. rewrite mark_close, mark_open; reflexivity.
    + sw.
    + apply n_breaks.
    + sw.
    + sw.
    + apply n_panic.
Qed.
End Numbers.
