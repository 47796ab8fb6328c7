(** RenderWords.v -- the text the HTML renderer writes between the tags. *)
From Verif Require Import Base BaseLemmas Strings StringsLemmas Links LinksLemmas Attr Html SpecHtml HtmlLemmas Tree Text Toc PState Parse
  SpecParse SpecPage ParseInv Render SpecReader SpecRender RenderLemmas RenderDom SpecText SpecShown.

Lemma ss_refl {A} (a : list A) : subseq a a.
Proof. induction a; constructor; auto. Qed.
Lemma ss_empty {A} (a : list A) : subseq [] a.
Proof. induction a; constructor; auto. Qed.
Lemma ss_app {A} (a b c d : list A) : subseq a b -> subseq c d -> subseq (a ++ c) (b ++ d).
Proof. induction 1; intro; cbn [app]; auto; constructor; auto. Qed.
Lemma ss_after {A} (a b c : list A) : subseq a c -> subseq a (b ++ c).
Proof. intro H. apply (ss_app [] b a c); auto. apply ss_empty. Qed.
Lemma ss_before {A} (a b c : list A) : subseq a b -> subseq a (b ++ c).
Proof. intro H. rewrite <- (app_nil_r a). apply ss_app; auto. apply ss_empty. Qed.

Lemma page_text_app a b : page_text (a ++ b) = page_text a ++ page_text b.
Proof. apply flat_map_app. Qed.
Lemma page_text_chars s : page_text (chars s) = s.
Proof. induction s as [|c s IH]; [reflexivity|]. cbn. f_equal. exact IH. Qed.
Definition node_text (ns : list node) : str := page_text (flat_map dom_tokens (map dom_of ns)).
Lemma node_text_app a b : node_text (a ++ b) = node_text a ++ node_text b.
Proof. unfold node_text. rewrite map_app, flat_map_app. apply page_text_app. Qed.
Lemma node_text_text s : node_text [NText s] = shown s.
Proof. unfold node_text. cbn [map flat_map dom_of dom_tokens]. rewrite app_nil_r. apply page_text_chars. Qed.
Lemma node_text_tag tg a ns : smem tg raw_tags = false -> node_text [NTag tg a (Some ns)] = node_text ns.
Proof.
  intro H. unfold node_text. cbn [map flat_map dom_of dom_tokens]. rewrite H, app_nil_r.
  change (page_text ([TkOpen tg (map (fun kv => (fst kv, shown (snd kv))) (flat_map attr_pairs a))] ++ flat_map dom_tokens (map dom_of ns) ++ (if smem tg void_tags then [] else [TkClose tg])) = page_text (flat_map dom_tokens (map dom_of ns))).
  rewrite !page_text_app. cbn [page_text flat_map app]. destruct (smem tg void_tags); cbn; apply app_nil_r.
Qed.
Lemma node_text_empty tg a : node_text [NTag tg a None] = [].
Proof.
  unfold node_text. cbn [map flat_map dom_of dom_tokens]. rewrite app_nil_r. destruct (smem tg raw_tags), (smem tg void_tags); reflexivity.
Qed.
Lemma shown_app a b : shown (a ++ b) = shown a ++ shown b. Proof. apply map_app. Qed.

Lemma scope_words sc name : match scope_get sc name with Some v => v | None => lit "{$" ++ name ++ lit "}" end = variable_text (concat sc) name.
Proof.
  unfold variable_text. assert (X : scope_get sc name = option_map snd (find (fun v => seqb (fst v) name) (concat sc))).
  { induction sc as [|s sc IH]; [reflexivity|]. cbn [scope_get concat]. induction s as [|[k v] s IHs]; [exact IH|]. cbn [bt_get app find fst]. destruct (seqb k name); auto. }
  rewrite X. destruct (find _ _) as [[k v]|]; reflexivity.
Qed.

Section Words.
Variable R : renv.
(** [m] keeps the variables and writes at least the text [l vars], and only that if [ok]. *)
Definition shows (ok : Prop) (m : M) (l : list (str * str) -> str) : Prop := forall c ns c', m c = Done ns c' ->
  hx_scopes c' = hx_scopes c /\ subseq (shown (l (concat (hx_scopes c)))) (node_text ns) /\ (ok -> node_text ns = shown (l (concat (hx_scopes c)))).
Variable ok : Prop.
Lemma shows_nil : shows ok (ret []) (fun _ => []).
Proof. intros c ns c' [= <- <-]. split; auto. split; [constructor|auto]. Qed.
Lemma shows_text s : shows ok (text s) (fun _ => s).
Proof. intros c ns c' [= <- <-]. split; auto. rewrite node_text_text. split; [apply ss_refl|auto]. Qed.
Lemma shows_panic w l : shows ok (panic w) l. Proof. intros c ns c' H. discriminate. Qed.
Lemma shows_seq m m' l l' : shows ok m l -> shows ok m' l' -> shows ok (m +++ m') (fun v => l v ++ l' v).
Proof.
  intros H1 H2 c ns c' H. unfold seq2, bind in H. destruct (m c) as [a c1|w|] eqn:E1; try discriminate.
  destruct (m' c1) as [b c2|w|] eqn:E2; try discriminate. injection H as <- <-.
  apply H1 in E1 as (A1 & A2 & A3). apply H2 in E2 as (B1 & B2 & B3). rewrite A1 in *. split; auto. rewrite node_text_app, shown_app. split.
  - apply ss_app; auto.
  - intro X. rewrite A3, B3; auto.
Qed.
Lemma shows_eq m l l' : (forall v, l v = l' v) -> shows ok m l -> shows ok m l'.
Proof. intros H Hm c ns c' E. rewrite <- H. auto. Qed.
Lemma shows_more m l l' : ~ ok -> (forall v, subseq (shown (l' v)) (shown (l v))) -> shows ok m l -> shows ok m l'.
Proof.
  assert (T : forall (a b d : str), subseq a b -> subseq b d -> subseq a d).
  { intros a b d Ha Hb. revert a Ha. induction Hb; intros a' Ha; auto; [inversion Ha; subst; constructor; auto|apply ss_skip; auto]. }
  intros Hk H Hm c ns c' E. apply Hm in E as (A1 & A2 & A3). split; auto. split; [eapply T; eauto|tauto].
Qed.
Lemma shows_tag tg a m l : smem (lit tg) raw_tags = false -> shows ok m l -> shows ok (tag_with R tg a m) l.
Proof.
  intros Ht Hm c ns c' H. unfold tag_with in H. destruct (re_debug R && _); [discriminate|].
  unfold bind in H. destruct (m c) as [b c1|w|] eqn:E1; try discriminate. injection H as <- <-. rewrite node_text_tag by auto. eauto.
Qed.
Lemma shows_leaf tg a : shows ok (tag_empty R tg a) (fun _ => []).
Proof.
  intros c ns c' H. unfold tag_empty in H. destruct (re_debug R && _); [discriminate|]. injection H as <- <-.
  rewrite node_text_empty. split; auto. split; [constructor|auto].
Qed.
Lemma shows_concat {A} (f : A -> M) g l : (forall x, In x l -> shows ok (f x) (fun v => g v x)) -> shows ok (concatM (map f l)) (fun v => flat_map (g v) l).
Proof.
  induction l as [|x l IH]; intro H; [apply shows_nil|]. cbn [map concatM fold_right flat_map]. apply shows_seq; [apply H; left; auto|].
  apply IH. intros y Hy. apply H. right. auto.
Qed.
Lemma shows_raw s l : ~ ok -> (forall v, l v = []) -> shows ok (raw s) l.
Proof. intros H Hl c ns c' [= <- <-]. split; auto. rewrite Hl. split; [apply ss_empty|tauto]. Qed.
(** Running [m] in a changed context. *)
Lemma shows_in (k : hctx -> M) (f : hctx -> hctx) l : (forall c, hx_scopes (f c) = hx_scopes c) -> (forall c, shows ok (k c) l) -> shows ok (fun c => k c (f c)) l.
Proof. intros Hf H c ns c' E. apply H in E. rewrite Hf in E. exact E. Qed.
Lemma shows_include v m l : shows ok m l -> shows ok (render_include v m) (fun vars => l (v ++ vars)).
Proof.
  intros H c ns c'. unfold render_include. destruct (m (set_scopes c (v :: hx_scopes c))) as [a c1|w|] eqn:E; try discriminate.
  apply H in E as (E1 & E2 & E3). cbn [hx_scopes set_scopes concat] in E1, E2, E3. rewrite E1. intros [= <- <-]. auto.
Qed.
Ltac sw := repeat first [apply shows_text | apply shows_nil | apply shows_leaf | apply shows_panic | apply shows_tag; [reflexivity|] | apply shows_seq].
Lemma shows_sprite id : shows ok (sprite R id) (fun _ => []).
Proof. unfold sprite. sw. Qed.
Lemma shows_container ty a m l : shows ok m l -> (ty = CRubyText -> ~ ok) -> shows ok (render_container R ty a m) l.
Proof.
  intros Hm Hk.
  assert (Hi : shows ok (render_container_internal R ty a m) l).
  { intros c ns c'. unfold render_container_internal. destruct (container_tag ty c) as [spec c1] eqn:Et.
    assert (Ht : smem (lit (html_tag_name spec)) raw_tags = false /\ hx_scopes c1 = hx_scopes c).
    { destruct ty; cbn [container_tag] in Et; try (injection Et as <- <-; split; reflexivity).
      destruct (hd_has_toc h); injection Et as <- <-; (split; [|reflexivity]); cbn [html_tag_name]; unfold heading_tag;
        destruct (hd_level h) as [|[|[|[|[|[|]]]]]]; reflexivity. }
    destruct Ht as [Ht Es]. rewrite <- Es. destruct spec as [tg|tg cl|tg id]; cbn [html_tag_name] in Ht.
    - intro E. exact (shows_tag tg _ m l Ht Hm _ _ _ E).
    - intro E. exact (shows_tag tg _ m l Ht Hm _ _ _ E).
    - destruct (re_true_ids R); intro E; exact (shows_tag tg _ m l Ht Hm _ _ _ E). }
  destruct ty; cbn [render_container]; auto.
  apply (shows_more _ (fun v => lit "(" ++ l v ++ lit ")")); auto.
  - intro v. rewrite !shown_app. apply ss_after, ss_before, ss_refl.
  - apply shows_seq; [sw|]. apply (shows_seq _ _ l (fun _ => lit ")")); auto. sw.
Qed.
Lemma shows_tabs {A} (lab : A -> str) (f : A -> M) g (l : list A) : (forall x, In x l -> shows ok (f x) (fun v => g v x)) ->
  shows ok (render_tabview R (map (fun x => (lab x, f x)) l)) (fun v => flat_map lab l ++ flat_map (g v) l).
Proof.
  intro H. unfold render_tabview.
  refine (shows_in (fun c => tag_with R "wj-tabs" _ (_ +++ _)) (fun c => set_random c (hx_random c + length (map (fun x => (lab x, f x)) l) + length (map (fun x => (lab x, f x)) l))) _ _ _); [reflexivity|].
  intro c.
  generalize (map (re_random R) (seq (hx_random c) (length (map (fun x => (lab x, f x)) l)))) as bs.
  generalize (map (re_random R) (seq (hx_random c + length (map (fun x => (lab x, f x)) l)) (length (map (fun x => (lab x, f x)) l)))) as ts. intros ts bs.
  apply shows_tag; [reflexivity|]. apply shows_seq; (apply shows_tag; [reflexivity|]).
  - generalize 0 as i. clear H. revert bs ts. induction l as [|x l IH]; intros bs ts i; [apply shows_nil|].
    cbn [tab_buttons map]. destruct bs, ts; try apply shows_panic. destruct (Nat.eqb i 0); cbn [flat_map]; (apply (shows_seq _ _ (fun _ => lab x) (fun _ => flat_map lab l)); [sw|apply IH]).
  - generalize 0 as i. revert bs ts. induction l as [|x l IH]; intros bs ts i; [apply shows_nil|].
    cbn [tab_panels map]. destruct bs, ts; try apply shows_panic. cbn [flat_map]. apply (shows_seq _ _ (fun v => g v x) (fun v => flat_map (g v) l)).
    + apply shows_tag; [reflexivity|]. apply H. left. auto.
    + apply IH. intros y Hy. apply H. right. auto.
Qed.
Lemma shows_defs {A} (k w : A -> M) gk gw (l : list A) : (forall x, In x l -> shows ok (k x) (fun v => gk v x) /\ shows ok (w x) (fun v => gw v x)) ->
  shows ok (render_definition_list R (map (fun x => (k x, w x)) l)) (fun v => flat_map (fun x => gk v x ++ gw v x) l).
Proof.
  intro H. apply shows_tag; [reflexivity|]. induction l as [|x l IH]; [apply shows_nil|]. cbn [map fold_right flat_map].
  destruct (H x (or_introl eq_refl)) as [Hk Hw].
  apply (shows_eq _ (fun v => gk v x ++ gw v x ++ flat_map (fun x => gk v x ++ gw v x) l)); [intro; apply app_assoc|].
  apply (shows_seq _ _ (fun v => gk v x)); [apply shows_tag; [reflexivity|auto]|].
  apply (shows_seq _ _ (fun v => gw v x)); [apply shows_tag; [reflexivity|auto]|]. apply IH. intros y Hy. apply H. right. auto.
Qed.
Lemma shows_link ty l ex lb tg : shows ok (render_link R l ex lb tg ty) (fun _ => label_text (re_site R) l lb).
Proof.
  intros c ns c'. unfold render_link. destruct (link_href R l) as [url|] eqn:Eu; [|discriminate].
  destruct (link_class R l (add_link l c)) as [cl c1] eqn:Ec.
  assert (Es : hx_scopes c1 = hx_scopes c).
  { transitivity (hx_scopes (add_link l c)).
    - unfold link_class in Ec. destruct l as [r|u]; [|injection Ec as _ <-; reflexivity]. unfold page_exists in Ec.
      destruct (pages_get _ r); [injection Ec as _ <-; reflexivity|]. destruct (pr_fields_or r (re_site R)). injection Ec as _ <-. reflexivity.
    - unfold add_link. destruct l as [r|u]; [reflexivity|]. destruct (seqb u _); [reflexivity|]. destruct u as [|ch u]; [destruct (is_url []); reflexivity|].
      destruct (ceqb ch 47); (destruct (is_url _); reflexivity). }
  intro E. rewrite <- Es.
  assert (X : shows ok (match get_link_label (re_site R) l lb with Some label => text label | None => panic RPageLabel end) (fun _ => label_text (re_site R) l lb)).
  { destruct lb as [s|[s|]|]; cbn [get_link_label label_text]; try apply shows_text.
    - destruct l as [[s p]|u]; apply shows_text.
    - destruct l as [[s p]|u]; [|apply shows_panic]. destruct s as [s|]; apply shows_text. }
  refine (shows_tag "a" _ _ _ eq_refl X _ _ _ E).
Qed.
Lemma shows_breaks n : shows ok (line_breaks R n) (fun _ => []).
Proof. induction n as [|n IH]; [apply shows_nil|]. cbn [line_breaks]. apply (shows_seq _ _ (fun _ => []) (fun _ => [])); auto. sw. Qed.
Lemma shows_any m l : ~ ok -> (forall c ns c', m c = Done ns c' -> hx_scopes c' = hx_scopes c) -> (forall v, l v = []) -> shows ok m l.
Proof. intros Hk Hm Hl c ns c' E. split; [eauto|]. rewrite Hl. split; [apply ss_empty|tauto]. Qed.
Lemma shows_latex b name i src : ~ ok -> shows ok (render_latex R b name i src) (fun _ => src).
Proof.
  intro Hk.
  assert (X : exists l, shows ok (match re_mathml R with
         | None => ret []
         | Some f => match f b src with
                     | inl mathml => tag_with R "wj-math-ml" (cls "wj-math-ml") (raw mathml)
                     | inr error => tag_with R "span" (cls (if b then "wj-error-inline" else "wj-error-block")) (text error)
                     end
         end) l).
  { destruct (re_mathml R) as [f|]; [|eexists; apply shows_nil]. destruct (f b src).
    - exists (fun _ => []). apply shows_tag; [reflexivity|]. apply shows_raw; auto.
    - eexists. sw. }
  destruct X as [lm Hm].
  assert (X : exists l, shows ok (match i with
     | Some i => tag_with R "span" (cls "wj-equation-number")
                   (tag_with R "span" (cls "wj-equation-paren wj-equation-paren-open") (text (lit "("))
                    +++ raw (dec i)
                    +++ tag_with R "span" (cls "wj-equation-paren wj-equation-paren-close") (text (lit ")")))
     | None => ret []
     end) l).
  { destruct i as [i|]; [|eexists; apply shows_nil]. exists (fun _ => lit "(" ++ [] ++ lit ")"). apply shows_tag; [reflexivity|].
    apply (shows_seq _ _ (fun _ => lit "(")); [sw|]. apply (shows_seq _ _ (fun _ => []) (fun _ => lit ")")); [apply shows_raw; auto|sw]. }
  destruct X as [li Hi].
  assert (Y : shows ok (render_latex R b name i src) (fun v => li v ++ src ++ lm v)).
  { unfold render_latex. apply shows_tag; [destruct b; reflexivity|]. apply shows_seq; [exact Hi|]. apply (shows_seq _ _ (fun _ => src)); [sw|exact Hm]. }
  refine (shows_more _ _ _ Hk _ Y). intro v. rewrite !shown_app. apply ss_after, ss_before, ss_refl.
Qed.

End Words.
Ltac sw := repeat first [apply shows_text | apply shows_nil | apply shows_leaf | apply shows_panic | apply shows_tag; [reflexivity|] | apply shows_seq].

(** *** The page *)
Section Page.
Variable R : renv.
Variable t : tree.
Variable ref : list element -> M.
Variable elsewhere : list (str * str) -> list element -> str.
Notation W := (words (re_site R) (re_format R) t elsewhere).
Notation hes := (h_elements R (tr_toc t) (tr_footnotes t) (tr_bibs t) ref).
Hypothesis Href : forall L, shows False (ref L) (fun v => elsewhere v L).
Lemma ref_shows (ok : Prop) L : ~ ok -> shows ok (ref L) (fun v => elsewhere v L).
Proof. intros H c ns c' E. apply Href in E as (A1 & A2 & _). split; auto. split; auto. tauto. Qed.
Theorem shows_elements es : forall ok : Prop, (ok -> forall x, occurs_in x es -> ~ adorned t x) -> shows ok (hes es) (fun v => flat_map (W v) es).
Proof.
  pose (P := fun es m => forall ok : Prop, (ok -> forall x, occurs_in x es -> ~ adorned t x) -> shows ok m (fun v => flat_map (W v) es)).
  change (P es (hes es)). apply h_induct; unfold P; clear es P.
  - intros ok _. apply shows_nil.
  - intros e es m m' H1 H2 ok Hg. cbn [flat_map]. apply shows_seq.
    + eapply shows_eq; [|apply H1].
      * intro v. cbn [flat_map]. apply app_nil_r.
      * intros K x (y & [<-|[]] & Ho). apply Hg; auto. exists e. split; auto. left. auto.
    + apply H2. intros K x (y & Hy & Ho). apply Hg; auto. exists y. split; auto. right. auto.
  - intros e IHl IHx ok Hg.
    assert (Ge : ok -> ~ adorned t e) by (intro K; apply (Hg K); exists e; split; [left; auto|constructor]).
    assert (Gc : ok -> forall x, In x (children e) -> forall y, occurs y x -> ~ adorned t y).
    { intros K x Hx y Hy. apply (Hg K). exists e. split; [left; auto|]. econstructor; eauto. }
    assert (Hl : forall es, sublist_of es e -> shows ok (hes es) (fun v => flat_map (W v) es)).
    { intros es Hs. apply IHl; auto. intros K x (y & Hy & Ho). eapply Gc; eauto. }
    assert (Hx : forall x, In x (children e) -> shows ok (h_element R (tr_toc t) (tr_footnotes t) (tr_bibs t) ref x) (fun v => W v x)).
    { intros x Hx. eapply shows_eq; [|apply IHx; auto].
      - intro v. cbn [flat_map]. apply app_nil_r.
      - intros K y (z & [<-|[]] & Ho). eapply Gc; eauto. }
    clear IHl IHx Hg Gc.
    apply (shows_eq ok _ (fun v => W v e)); [intro v; cbn [flat_map]; symmetry; apply app_nil_r|].
    pose proof (ref_shows ok) as Hr.
    rewrite h_element_eq. destruct e; cbn [h_body h_element words] in *.
    + apply shows_container; [apply Hl, incl_refl|]. intros ->. intro K. apply (Ge K). exact I.
    + apply shows_any; auto; try (intro K; apply (Ge K); exact I). intros c ns c' [= <- <-]. auto.
    + sw.
    + unfold render_wikitext_raw. sw.
    + intros c ns c' E. unfold render_variable, text, ret in E. injection E as <- <-. split; [reflexivity|]. rewrite node_text_text.
      assert (X : or_else (scope_get (hx_scopes c) s) (lit "{$" ++ s ++ lit "}") = variable_text (concat (hx_scopes c)) s) by (rewrite <- scope_words; destruct (scope_get (hx_scopes c) s); reflexivity).
      split; [rewrite <- X; apply ss_refl|intros _; rewrite <- X; reflexivity].
    + unfold render_email. sw.
    + unfold render_table. do 2 (apply shows_tag; [reflexivity|]). apply (shows_concat ok _ (fun v r => flat_map (fun c => flat_map (W v) (tc_elements c)) (tr_cells r))). intros r Hrr.
      unfold render_row. apply shows_tag; [reflexivity|].
      apply (shows_concat ok _ (fun v c => flat_map (W v) (tc_elements c))). intros x Hxx. unfold render_cell. apply shows_tag; [destruct (tc_header x); reflexivity|].
      apply Hl. eapply sub_cell; eauto.
    + apply (shows_tabs R ok tab_label _ (fun v tb => flat_map (W v) (tab_elements tb))). intros tb Ht. apply Hl. apply sub_tab; auto.
    + unfold render_anchor. apply shows_tag; [reflexivity|]. apply Hl, incl_refl.
    + sw.
    + apply shows_link.
    + unfold render_image. apply shows_any; auto; try (intro K; apply (Ge K); exact I). intros c ns c' E. revert c ns c' E.
      assert (X : forall m : M, (exists ok l, shows ok m l) -> forall c ns c', m c = Done ns c' -> hx_scopes c' = hx_scopes c) by (intros m (k & l & Hm) c ns c' E; apply Hm in E; tauto).
      apply X. exists False. destruct (get_image_link R source) as [url|]; [|eexists; sw].
      destruct alignment as [al|]; (exists (fun _ => []); apply shows_tag; [reflexivity|]); (destruct link as [l|]; [|sw]); (destruct (link_href R l); sw).
    + unfold render_list. apply shows_tag; [destruct ltype; reflexivity|].
      apply (shows_concat ok _ (fun v i => match i with LIElements _ es => flat_map (W v) es | LISubList x => W v x end)). intros [b es|x] Hi.
      * apply shows_tag; [reflexivity|]. apply Hl. eapply sub_item; eauto.
      * apply Hx. eapply (sub_sublist ltype attributes); eauto.
    + apply (shows_defs R ok _ _ (fun v d => flat_map (W v) (df_key d)) (fun v d => flat_map (W v) (df_value d))). intros d Hd. split; apply Hl; [apply sub_key|apply sub_value]; auto.
    + unfold render_radio_button. sw.
    + unfold render_checkbox. sw.
    + unfold render_collapsible. assert (K : ~ ok) by (intro K; apply (Ge K); exact I).
      pose (Y := fun v => (or_else show_text (get_message "collapsible-open") ++ or_else hide_text (get_message "collapsible-hide")) ++
        flat_map (W v) elements ++ (if show_bottom then or_else hide_text (get_message "collapsible-hide") else [])).
      apply (shows_more ok _ Y); auto.
      { assert (G : forall o d, subseq (shown (given o)) (shown (or_else o d))) by (intros [s|] d; [apply ss_refl|apply ss_empty]).
        intro v. unfold Y. rewrite <- app_assoc, !shown_app. repeat apply ss_app; auto using ss_refl. destruct show_bottom; auto using ss_refl. }
      unfold Y. apply shows_tag; [reflexivity|]. apply shows_seq; [sw|]. apply shows_seq; [apply shows_tag; [reflexivity|]; apply Hl, incl_refl|].
      destruct show_bottom; sw.
    + unfold render_table_of_contents. assert (K : ~ ok) by (intro K; apply (Ge K); exact I).
      apply (shows_more ok _ (fun v => [] ++ get_message "table-of-contents" ++ elsewhere v (tr_toc t))); auto.
      { intro v. rewrite !shown_app. apply ss_after, ss_after, ss_refl. }
      apply shows_tag; [reflexivity|]. apply (shows_seq ok _ _ (fun _ => [])); [sw|]. apply (shows_seq ok _ _ (fun _ => get_message "table-of-contents") (fun v => elsewhere v (tr_toc t))); [sw|].
      apply shows_tag; [reflexivity|auto].
    + assert (K : ~ ok) by (intro K; apply (Ge K); exact I). apply shows_any; auto.
      intros c ns c'. unfold render_footnote. destruct (nth_error (tr_footnotes t) (hx_footnote c - 1)) as [es|] eqn:En; [|discriminate].
      intro E. change (hx_scopes c) with (hx_scopes (set_footnote c (S (hx_footnote c)))).
      revert E. generalize (set_footnote c (S (hx_footnote c))) as c1. intros c1 E.
      match type of E with ?m c1 = _ => assert (X : exists l, shows ok m l) end.
      { eexists. sw. apply Hr. auto. }
      destruct X as [l X]. apply X in E. tauto.
    + destruct hide; [destruct (tr_footnotes t); apply shows_nil|]. cbn [adorned] in Ge.
      destruct (tr_footnotes t) as [|f fs'] eqn:Ef; [apply shows_nil|]. assert (K : ~ ok) by (intro K; apply (Ge K); discriminate).  rewrite <- Ef in *. clear Ef. unfold render_footnote_block.
      apply (shows_more ok _ (fun v => or_else title (get_message "footnote-block-title") ++ flat_map (elsewhere v) (tr_footnotes t))); auto.
      { intro v. rewrite !shown_app. apply ss_app; [destruct title; [apply ss_refl|apply ss_empty]|apply ss_refl]. }
      apply shows_tag; [reflexivity|]. apply (shows_seq ok _ _ (fun _ => or_else title (get_message "footnote-block-title")) (fun v => flat_map (elsewhere v) (tr_footnotes t))); [sw|]. apply shows_tag; [reflexivity|].
      assert (Y : forall l i, shows ok (footnote_items R ref i l) (fun v => flat_map (elsewhere v) l)); [|apply Y].
      induction l as [|x l IH]; intros i; [apply shows_nil|]. cbn [footnote_items flat_map]. apply (shows_seq ok _ _ (fun v => elsewhere v x) (fun v => flat_map (elsewhere v) l)); auto.
      apply (shows_more ok _ (fun v => ([] ++ lit ".") ++ elsewhere v x)); auto.
      { intro v. rewrite !shown_app. apply ss_after, ss_refl. }
      apply shows_tag; [reflexivity|]. apply (shows_seq ok _ _ (fun _ => [] ++ lit ".") (fun v => elsewhere v x)); (apply shows_tag; [reflexivity|]); [|auto].
      apply (shows_seq ok _ _ (fun _ => []) (fun _ => lit ".")); [apply shows_raw; auto|sw].
    + assert (K : ~ ok) by (intro K; apply (Ge K); exact I). apply shows_any; auto.
      assert (X : forall m : M, (exists l, shows ok m l) -> forall c ns c', m c = Done ns c' -> hx_scopes c' = hx_scopes c) by (intros m (l & Hm) c ns c' E; apply Hm in E; tauto).
      apply X. unfold render_bibcite. destruct (bibs_get (tr_bibs t) label) as [[i es]|]; [|eexists; sw].
      assert (B : forall s, shows ok (if brackets then raw s else ret []) (fun _ => [])) by (intro s; destruct brackets; [apply shows_raw; auto|apply shows_nil]).
      eexists. apply shows_tag; [reflexivity|]. apply shows_seq; [apply B|]. apply shows_seq; [sw|]. apply shows_seq; [apply B|]. sw. apply Hr. auto.
    + destruct hide; [apply shows_nil|]. assert (K : ~ ok) by (intro K; apply (Ge K); exact I).
      destruct (nth_error (tr_bibs t) index) as [b|] eqn:Eb; [|apply shows_panic].
      rewrite (nth_error_nth _ _ [] Eb). unfold render_bibliography.
      apply (shows_more ok _ (fun v => or_else title (get_message "bibliography-block-title") ++ flat_map (fun x => elsewhere v (snd x)) b)); auto.
      { intro v. rewrite !shown_app. apply ss_app; [destruct title; [apply ss_refl|apply ss_empty]|apply ss_refl]. }
      apply shows_tag; [reflexivity|]. apply (shows_seq ok _ _ (fun _ => or_else title (get_message "bibliography-block-title")) (fun v => flat_map (fun x => elsewhere v (snd x)) b)); [sw|].
      assert (Y : forall l bi i, shows ok (bibliography_items R ref bi i l) (fun v => flat_map (fun x => elsewhere v (snd x)) l)); [|apply Y].
      induction l as [|[la x] l IH]; intros bi i; [apply shows_nil|]. cbn [bibliography_items flat_map]. apply (shows_seq ok _ _ (fun v => elsewhere v x) (fun v => flat_map (fun x => elsewhere v (snd x)) l)); auto.
      apply (shows_more ok _ (fun v => ([] ++ lit ".") ++ elsewhere v x)); auto.
      { intro v. rewrite !shown_app. apply ss_after, ss_refl. }
      apply shows_tag; [reflexivity|]. apply (shows_seq ok _ _ (fun _ => [] ++ lit ".") (fun v => elsewhere v x)); [|auto]. apply shows_tag; [reflexivity|].
      apply (shows_seq ok _ _ (fun _ => []) (fun _ => lit ".")); [apply shows_raw; auto|sw].
    + unfold render_user. do 2 (apply shows_tag; [reflexivity|]).
      apply (shows_seq ok _ _ (fun _ => []) (fun _ => name)); [|sw]. destruct show_avatar; [|apply shows_nil]. apply (shows_seq ok _ _ (fun _ => []) (fun _ => [])); [|sw].
      apply shows_tag; [reflexivity|]. apply shows_sprite.
    + unfold render_date. assert (X : or_else (re_format R value) (lit "<ERROR>") = match re_format R value with Some s => s | None => lit "<ERROR>" end) by (destruct (re_format R value); reflexivity).
      rewrite X. destruct hover; sw.
    + unfold render_color. apply shows_tag; [reflexivity|]. apply Hl, incl_refl.
    + unfold render_code. refine (shows_in ok (fun _ => _) (fun c => set_code c (S (hx_code c))) _ _ _); [reflexivity|]. intros _.
      apply shows_tag; [reflexivity|]. apply (shows_eq ok _ (fun _ => (([] ++ []) ++ or_else language []) ++ contents)); [intro; destruct language; reflexivity|].
      apply shows_seq; [|sw]. apply shows_tag; [reflexivity|]. apply shows_seq; [|sw]. apply shows_tag; [reflexivity|]. apply shows_seq; apply shows_sprite.
    + unfold render_math_block. refine (shows_in ok (fun c => render_latex R false name (Some (hx_equation c)) latex_source)
        (fun c => set_equation c (S (hx_equation c))) _ _ _); [reflexivity|]. intro c. apply shows_latex. intro K. apply (Ge K). exact I.
    + apply shows_latex. intro K. apply (Ge K). exact I.
    + unfold render_equation_reference. apply shows_tag; [reflexivity|]. apply (shows_eq ok _ (fun _ => s ++ [])); [intro; apply app_nil_r|]. sw.
    + unfold render_embed. apply shows_tag; [reflexivity|]. destruct e; sw.
    + unfold render_html. sw.
    + unfold render_iframe. sw.
    + apply (shows_include ok _ _ (fun v => flat_map (W v) elements)). apply Hl, incl_refl.
    + unfold render_style. assert (K : ~ ok) by (intro K; apply (Ge K); exact I). destruct (re_css R s) as [out| |]; [|apply shows_nil|apply shows_panic].
      apply shows_any; auto. intros c ns c' E. unfold tag_with in E. destruct (re_debug R && _); [discriminate|]. injection E as _ <-. auto.
    + sw.
    + apply shows_breaks.
    + sw.
    + sw.
    + apply shows_panic.
Qed.
End Page.
Theorem shows_ref R t n : forall d L, shows False (h_ref R (tr_toc t) (tr_footnotes t) (tr_bibs t) n L) (fun v => words_in (re_site R) (re_format R) t d v L).
Proof.
  induction n as [|n IH]; intros d L; [intros c ns c' E; discriminate|]. cbn [h_ref]. destruct d as [|d]; cbn [words_in].
  - eapply shows_more; [auto| |apply (shows_elements R t _ (fun _ _ => [])); [intro; eapply (IH 0)|intros []]]. intro v. apply ss_empty.
  - apply shows_elements; auto.
Qed.
