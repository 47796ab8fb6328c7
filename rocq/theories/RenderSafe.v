(** RenderSafe.v -- when rendering panics and when it ends. *)
From Verif Require Import Base BaseLemmas Strings Links LinksLemmas Attr Html Tree Text Toc PState Parse SpecParse SpecPage ParseInv Render SpecRender RenderLemmas.

Section Safe.
Variable R : renv.
Variable t : tree.
Variable ref : list element -> M.
Variable W : rpanic -> Prop.     (* allowed panics *)
Variable X : Prop.               (* whether running out of fuel is allowed *)
Variable strict : bool.          (* whether footnotes are counted *)
Notation fs := (tr_footnotes t).
Hypothesis HW : strict = false -> W RFootnoteIndex.
Definition room (n : nat) (c : hctx) : Prop := strict = true -> 1 <= hx_footnote c /\ hx_footnote c + n <= S (length fs).
Definition sees (n : nat) (m : M) : Prop := forall c, room n c ->
  match m c with
  | Done _ c' => (strict = true -> hx_footnote c' = hx_footnote c + n) /\ hx_scopes c' = hx_scopes c
  | Panicked w => W w
  | Exhausted => X
  end.
Definition good (x : element) : Prop :=
  (forall w, own_panic R t x w -> W w) /\ forall L, In L (referenced t x) -> sees 0 (ref L).

Lemma sees_ret ns : sees 0 (ret ns). Proof. intros c _. split; auto. Qed.
Lemma sees_text s : sees 0 (text s). Proof. apply sees_ret. Qed.
Lemma sees_raw s : sees 0 (raw s). Proof. apply sees_ret. Qed.
Lemma sees_panic w n : W w -> sees n (panic w). Proof. intros H c _. exact H. Qed.
Lemma sees_seq a b m m' : sees a m -> sees b m' -> sees (a + b) (m +++ m').
Proof.
  intros H1 H2 c Hc. unfold seq2, bind. specialize (H1 c). destruct (m c) as [ns c1|w|]; try (apply H1; intro Hs; specialize (Hc Hs); lia).
  destruct H1 as [H1 E1]; [intro Hs; specialize (Hc Hs); lia|].
  specialize (H2 c1). destruct (m' c1) as [ns' c2|w|]; cbn.
  - destruct H2 as [H2 E2]; [intro Hs; specialize (Hc Hs); specialize (H1 Hs); lia|]. split; [|congruence].
    intro Hs. specialize (H1 Hs). specialize (H2 Hs). lia.
  - apply H2. intro Hs. specialize (Hc Hs). specialize (H1 Hs). lia.
  - apply H2. intro Hs. specialize (Hc Hs). specialize (H1 Hs). lia.
Qed.
Lemma sees_seq0 b m m' : sees 0 m -> sees b m' -> sees b (m +++ m'). Proof. exact (sees_seq 0 b m m'). Qed.
Lemma sees_seq1 a m m' : sees a m -> sees 0 m' -> sees a (m +++ m').
Proof. intros H1 H2. rewrite <- (Nat.add_0_r a). apply sees_seq; auto. Qed.
(** Attributes: the renderer's own names are fine, so only the author's can offend. *)
Definition fine (m : btmap) : Prop := re_debug R = true -> (forall kv, In kv m -> is_alphanumeric (fst kv) = true) \/ W RAttrKey.
Definition fine_added (a : added) : Prop :=
  forallb is_alphanumeric (map fst (filter_entries a)) = true /\ match ad_map a with Some m => fine m | None => True end.
Lemma sees_tag n tg a m : Forall fine_added a -> sees n m -> sees n (tag_with R tg a m).
Proof.
  intros Ha Hm c Hc. unfold tag_with. destruct (re_debug R && _) eqn:Ed.
  - apply andb_true_iff in Ed as [Ed En]. apply negb_true_iff in En. cbn.
    induction Ha as [|[es um] a [H1 H2] _ IH]; cbn [forallb] in En; [discriminate|].
    apply andb_false_iff in En as [En|En]; auto. unfold keys_of in En. cbn [ad_map] in *. rewrite forallb_app in En. apply andb_false_iff in En as [En|En].
    + congruence.
    + destruct um as [um|]; [|discriminate]. destruct (H2 Ed) as [H|H]; auto.
      exfalso. apply not_true_iff_false in En. apply En. apply forallb_forall. intros k Hk. apply in_map_iff in Hk as (kv & <- & Hk). auto.
  - unfold bind. specialize (Hm c Hc). destruct (m c); auto.
Qed.
Lemma sees_leaf tg a : Forall fine_added a -> sees 0 (tag_empty R tg a).
Proof.
  intros Ha c Hc. pose proof (sees_tag 0 tg a (ret []) Ha (sees_ret []) c Hc) as H. unfold tag_with, tag_empty in *.
  destruct (re_debug R && _); auto.
Qed.
Lemma sees_concat {A} (g : A -> list element) (f : A -> M) l : (forall x, In x l -> sees (refs (g x)) (f x)) ->
  sees (refs (flat_map g l)) (concatM (map f l)).
Proof.
  induction l as [|x l IH]; intro H; [apply sees_ret|]. cbn [map concatM fold_right flat_map]. rewrite refs_app.
  apply sees_seq; [apply H; left; auto|]. apply IH. intros y Hy. apply H. right. auto.
Qed.
Lemma fine_none es : forallb is_alphanumeric (map fst (filter_entries (Added es None))) = true -> fine_added (Added es None).
Proof. intro H. split; auto. exact I. Qed.
Lemma fine_some es m : forallb is_alphanumeric (map fst (filter_entries (Added es None))) = true -> fine m -> fine_added (Added es (Some m)).
Proof. intros H Hm. split; auto. Qed.
Lemma good_fine x m : good x -> In m (attrs_of x) -> fine m.
Proof.
  intros [Hw _] Hm Hd. destruct (forallb (fun kv => is_alphanumeric (fst kv)) m) eqn:E.
  - left. rewrite forallb_forall in E. auto.
  - right. apply Hw. split; auto. apply not_true_iff_false in E. assert (Y : exists kv, In kv m /\ is_alphanumeric (fst kv) = false).
    { clear - E. induction m as [|kv m IH]; [contradiction E; reflexivity|]. cbn [forallb] in E. destruct (is_alphanumeric (fst kv)) eqn:Ek.
      - destruct IH as (kv' & H1 & H2); auto. exists kv'. split; auto. right. auto.
      - exists kv. split; auto. left. auto. }
    destruct Y as (kv & H1 & H2). exists m, kv. auto.
Qed.
Lemma fine_one a : fine_added a -> Forall fine_added [a]. Proof. intro H. constructor; [exact H|constructor]. Qed.
Ltac fa := first [apply Forall_nil | apply fine_one; first [apply fine_none; reflexivity | apply fine_some; [try reflexivity|try assumption]]].
Ltac sees1 := repeat first
  [ apply sees_text | apply sees_raw | apply sees_ret | apply sees_leaf; [solve [fa]]
  | apply sees_tag; [solve [fa]|] | apply sees_seq0 ].

Lemma sees_sprite id : sees 0 (sprite R id). Proof. unfold sprite. sees1. Qed.
Lemma sees_ctx n m (f : hctx -> hctx) : (forall c, hx_footnote (f c) = hx_footnote c /\ hx_scopes (f c) = hx_scopes c) ->
  sees n m -> sees n (fun c => m (f c)).
Proof.
  intros Hf Hm c Hc. destruct (Hf c) as [E1 E2]. specialize (Hm (f c)). unfold room in *. rewrite E1, ?E2 in Hm. specialize (Hm Hc).
  destruct (m (f c)); auto. 
Qed.
(** A computation that chooses by the context what to do. *)
Lemma sees_pick n (k : hctx -> M) (f : hctx -> hctx) : (forall c, hx_footnote (f c) = hx_footnote c /\ hx_scopes (f c) = hx_scopes c) ->
  (forall c, sees n (k c)) -> sees n (fun c => k c (f c)).
Proof.
  intros Hf Hm c Hc. destruct (Hf c) as [E1 E2]. specialize (Hm c (f c)). unfold room in *. rewrite E1, ?E2 in Hm. specialize (Hm Hc).
  destruct (k c (f c)); auto.
Qed.
Lemma page_exists_keeps r c : hx_footnote (snd (page_exists R r c)) = hx_footnote c /\ hx_scopes (snd (page_exists R r c)) = hx_scopes c.
Proof. unfold page_exists. destruct (pages_get _ _); auto. Qed.
Lemma sees_container n ty a m : fine a -> sees n m -> sees n (render_container R ty a m).
Proof.
  intros Ha Hm.
  assert (Hi : sees n (render_container_internal R ty a m)).
  { intros c Hc. unfold render_container_internal. destruct ty; cbn [container_tag]; try (eapply (sees_tag n); [fa|exact Hm|exact Hc]).
    destruct (hd_has_toc h).
    - destruct (re_true_ids R).
      + exact (sees_ctx n (tag_with R (heading_tag (hd_level h)) (with_map [en "id" [lit "toc" ++ dec (hx_toc c)]] a) m)
          (fun c => set_toc c (S (hx_toc c))) (fun _ => conj eq_refl eq_refl) ltac:(apply sees_tag; [fa|exact Hm]) c Hc).
      + exact (sees_ctx n (tag_with R (heading_tag (hd_level h)) (with_map [en "id" [re_random R (hx_random c)]] a) m)
          (fun c => set_random (set_toc c (S (hx_toc c))) (S (hx_random c))) (fun _ => conj eq_refl eq_refl) ltac:(apply sees_tag; [fa|exact Hm]) c Hc).
    - eapply (sees_tag n); [|exact Hm|exact Hc]. fa. }
  destruct ty; cbn [render_container]; auto. apply sees_seq0; [sees1|]. apply sees_seq1; auto. sees1.
Qed.
Lemma sees_tabs (tabs : list (str * list element)) (f : list element -> M) :
  (forall x, In x tabs -> sees (refs (snd x)) (f (snd x))) ->
  sees (refs (flat_map snd tabs)) (render_tabview R (map (fun x => (fst x, f (snd x))) tabs)).
Proof.
  intro H. unfold render_tabview. set (n := length (map (fun x => (fst x, f (snd x))) tabs)).
  refine (sees_pick _ (fun c => tag_with R "wj-tabs" _ (_ +++ _)) (fun c => set_random c (hx_random c + n + n)) (fun _ => conj eq_refl eq_refl) _).
  intro c. assert (L1 : forall k, length (map (re_random R) (seq k n)) = length tabs).
  { intro k. rewrite map_length, seq_length. unfold n. rewrite map_length. auto. }
  pose proof (L1 (hx_random c)) as Lb. pose proof (L1 (hx_random c + n)) as Lt. clear L1.
  revert Lb Lt. generalize (map (re_random R) (seq (hx_random c) n)) as bs. generalize (map (re_random R) (seq (hx_random c + n) n)) as ts.
  intros ts bs Lb Lt. clear n c. apply sees_tag; [fa|]. apply sees_seq0; (apply sees_tag; [fa|]).
  - assert (Y : forall i bs ts, length bs = length tabs -> length ts = length tabs ->
      sees 0 (tab_buttons R i (map (fun x => (fst x, f (snd x))) tabs) bs ts)); [|apply Y; auto].
    clear. induction tabs as [|[l es] tabs IH]; intros i bs ts Hb Ht; [apply sees_ret|]. cbn [map tab_buttons fst snd].
    destruct bs; [discriminate|]. destruct ts; [discriminate|]. destruct (Nat.eqb i 0); (apply sees_seq0; [sees1|]); apply IH; cbn in *; lia.
  - assert (Y : forall i bs ts, length bs = length tabs -> length ts = length tabs ->
      sees (refs (flat_map snd tabs)) (tab_panels R i (map (fun x => (fst x, f (snd x))) tabs) bs ts)); [|apply Y; auto].
    clear Lb Lt bs ts. induction tabs as [|[l es] tabs IH]; intros i bs ts Hb Ht; [apply sees_ret|]. cbn [map tab_panels fst snd flat_map].
    destruct bs; [discriminate|]. destruct ts; [discriminate|]. rewrite refs_app. apply sees_seq.
    + apply sees_tag; [destruct (Nat.ltb 0 i); fa|]. apply (H (l, es)). left. auto.
    + apply IH; cbn in *; try lia. intros x Hx. apply H. right. auto.
Qed.
Lemma sees_defs items (f : list element -> M) :
  (forall d, In d items -> sees (refs (df_key d)) (f (df_key d)) /\ sees (refs (df_value d)) (f (df_value d))) ->
  sees (refs (flat_map def_children items)) (render_definition_list R (map (fun d => (f (df_key d), f (df_value d))) items)).
Proof.
  intro H. apply sees_tag; [fa|]. induction items as [|d items IH]; [apply sees_ret|]. cbn [map fold_right flat_map].
  unfold def_children at 1. rewrite !refs_app, <- Nat.add_assoc. destruct (H d (or_introl eq_refl)) as [Hk Hv].
  apply sees_seq; [apply sees_tag; [fa|auto]|]. apply sees_seq; [apply sees_tag; [fa|auto]|]. apply IH. intros y Hy. apply H. right. auto.
Qed.
Lemma sees_include n v m : sees n m -> sees n (render_include v m).
Proof.
  intros H c Hc. unfold render_include. specialize (H (set_scopes c (v :: hx_scopes c)) Hc).
  destruct (m _) as [ns c'|w|]; auto. cbn in H. destruct H as [H1 H2]. rewrite H2. cbn. auto.
Qed.
Lemma sees_footnote : (forall L, In L fs -> sees 0 (ref L)) -> sees 1 (render_footnote R fs ref).
Proof.
  intros H c Hc. unfold render_footnote. destruct (nth_error fs (hx_footnote c - 1)) as [es|] eqn:En.
  - assert (Hes : sees 0 (ref es)) by (apply H; eapply nth_error_In; eauto).
    pose (m := fun i => tag_with R "span" (cls "wj-footnote-ref")
          (tag_with R "wj-footnote-ref-marker"
             (own [en "class" [lit "wj-footnote-ref-marker"]; en "role" [lit "link"];
                   en "aria-label" [get_message "footnote" ++ lit " " ++ dec i ++ lit "."]; en "data-id" [dec i]])
             (text (dec i))
           +++ tag_with R "span" (own [en "class" [lit "wj-footnote-ref-tooltip"]; en "aria-hidden" [lit "true"]])
                 (tag_with R "span" (cls "wj-footnote-ref-tooltip-label") (text (get_message "footnote" ++ lit " " ++ dec i ++ lit "."))
                  +++ tag_with R "span" (cls "wj-footnote-ref-contents") (ref es)))).
    assert (Hm : sees 0 (m (hx_footnote c))).
    { unfold m. sees1. exact Hes. }
    specialize (Hm (set_footnote c (S (hx_footnote c)))). assert (Hr : room 0 (set_footnote c (S (hx_footnote c)))).
    { intro Hs. specialize (Hc Hs). cbn. lia. }
    specialize (Hm Hr). change (tag_with R "span" _ _ _) with (m (hx_footnote c) (set_footnote c (S (hx_footnote c)))).
    destruct (m (hx_footnote c) (set_footnote c (S (hx_footnote c)))); auto. destruct Hm as [H1 H2]. split; auto.
    intro Hs. rewrite (H1 Hs). cbn. lia.
  - destruct strict eqn:Es; [|auto]. exfalso. specialize (Hc Es). apply nth_error_None in En. lia.
Qed.
Lemma sees_link ty l ex lb tg : (forall u, l = LUrl u -> lb = LabelPage -> W RPageLabel) -> sees 0 (render_link R l ex lb tg ty).
Proof.
  intros Hl. unfold render_link. destruct (link_href R l) as [url|] eqn:Eu.
  - assert (Y : forall cl, sees 0 (tag_with R "a" (own [en "href" [url; or_else ex []];
                             en_if "target" [target_value tg] (is_some tg);
                             en "class" [lit "wj-link "; cl; match ty with LTInterwiki => lit " wj-link-interwiki" | _ => [] end];
                             en "data-link-type" [ltype_name ty]])
          (match get_link_label (re_site R) l lb with
           | Some label => text label
           | None => panic RPageLabel
           end))).
    { intro cl. apply sees_tag; [destruct tg; fa|]. destruct (get_link_label (re_site R) l lb) as [la|] eqn:El; [sees1|].
      apply sees_panic. destruct lb as [|[]|]; try discriminate; destruct l; try discriminate; eauto. }
    assert (Hk : forall c, hx_footnote (snd (link_class R l (add_link l c))) = hx_footnote c /\ hx_scopes (snd (link_class R l (add_link l c))) = hx_scopes c).
    { intro c. assert (Ha : hx_footnote (add_link l c) = hx_footnote c /\ hx_scopes (add_link l c) = hx_scopes c).
      { destruct l as [r|u]; cbn [add_link]; auto. destruct (seqb u _); auto. destruct (is_url _); auto. }
      destruct Ha as [H1 H2]. destruct l as [r|u]; cbn [link_class]; auto.
      pose proof (page_exists_keeps r (add_link (LPage r) c)) as K. destruct (page_exists R r (add_link (LPage r) c)) as [b c']. cbn [snd] in *.
      destruct K as [K1 K2]. cbn in K1, K2. auto. }
    intros c Hc. specialize (Hk c). specialize (Y (fst (link_class R l (add_link l c)))).
    destruct (link_class R l (add_link l c)) as [cl c'] eqn:Ec. cbn [fst snd] in *. destruct Hk as [K1 K2].
    specialize (Y c'). unfold room in *. rewrite K1, ?K2 in Y. specialize (Y Hc). exact Y.
  - exfalso. unfold link_href, normalize_link in Eu. destruct l as [r|u].
    + destruct (pr_site r); [discriminate|]. destruct (normalize_href_total (re_word R) (re_normalize R) (pr_page r)) as (v & E & _). congruence.
    + destruct (normalize_href_total (re_word R) (re_normalize R) u) as (v & E & _). congruence.
Qed.
Lemma sees_breaks n : sees 0 (line_breaks R n).
Proof. induction n as [|n IH]; [apply sees_ret|]. cbn [line_breaks]. apply sees_seq0; auto. sees1. Qed.

Lemma occurs_children x e : In x (children e) -> forall y, occurs y x -> occurs y e.
Proof. intros H y Hy. econstructor; eauto. Qed.

Theorem sees_elements es : (forall x, occurs_in x es -> good x) ->
  sees (refs es) (h_elements R (tr_toc t) fs (tr_bibs t) ref es).
Proof.
  intro Hg. revert Hg. pose (P := fun es m => (forall x, occurs_in x es -> good x) -> sees (refs es) m).
  change (P es (h_elements R (tr_toc t) fs (tr_bibs t) ref es)). apply h_induct; unfold P; clear es P.
  - intros _. apply sees_ret.
  - intros e es m m' H1 H2 Hg. rewrite refs_cons. apply sees_seq.
    + apply H1. intros x (y & [<-|[]] & Ho). apply Hg. exists e. split; auto. left. auto.
    + apply H2. intros x (y & Hy & Ho). apply Hg. exists y. split; auto. right. auto.
  - intros e IHl IHx Hg.
    assert (Ge : good e) by (apply Hg; exists e; split; [left; auto|constructor]).
    assert (Gc : forall x, In x (children e) -> forall y, occurs y x -> good y).
    { intros x Hx y Hy. apply Hg. exists e. split; [left; auto|]. eapply occurs_children; eauto. }
    assert (Hl : forall es, sublist_of es e -> sees (refs es) (h_elements R (tr_toc t) fs (tr_bibs t) ref es)).
    { intros es Hs. apply IHl; auto. intros x (y & Hy & Ho). eapply Gc; eauto. }
    assert (Hx : forall x, In x (children e) -> sees (refs [x]) (h_element R (tr_toc t) fs (tr_bibs t) ref x)).
    { intros x Hx. apply IHx; auto. intros y (z & [<-|[]] & Ho). eapply Gc; eauto. }
    clear IHl IHx Hg Gc.
    assert (Hf : forall m, In m (attrs_of e) -> fine m) by (intros m Hm; eapply good_fine; eauto).
    destruct Ge as [Hw Hr].
    assert (Er : is_footnote e = false -> refs [e] = refs (children e)) by apply refs_one.
    rewrite h_element_eq. destruct e; cbn [h_body h_element is_footnote] in *; try rewrite (Er eq_refl); cbn [children];
      try rewrite refs_nil; clear Er.
    + apply sees_container; [apply Hf; left; auto|]. apply Hl, incl_refl.
    + apply sees_ret.
    + sees1.
    + unfold render_wikitext_raw. sees1.
    + intros c Hc. apply (sees_text _ c Hc).
    + unfold render_email. sees1.
    + unfold render_table. apply sees_tag; [fa; apply Hf; left; auto|]. apply sees_tag; [fa|]. apply sees_concat. intros r Hrr.
      unfold render_row, row_children. apply sees_tag.
      { fa. apply Hf. right. apply in_flat_map. exists r. split; auto. left. auto. }
      apply sees_concat. intros x Hxx. unfold render_cell. apply sees_tag.
      { fa; [|apply Hf; right; apply in_flat_map; exists r; split; auto; right; apply in_map; auto].
        destruct (1 <? tc_column_span x)%N, (tc_align x); reflexivity. }
      apply Hl. eapply sub_cell; eauto.
    + assert (Em : map (fun t0 : tab => (tab_label t0, h_elements R (tr_toc t) fs (tr_bibs t) ref (tab_elements t0))) tabs
        = map (fun x => (fst x, h_elements R (tr_toc t) fs (tr_bibs t) ref (snd x))) (map (fun t0 : tab => (tab_label t0, tab_elements t0)) tabs)).
      { rewrite map_map. reflexivity. }
      rewrite Em. assert (Ef : flat_map tab_elements tabs = flat_map snd (map (fun t0 : tab => (tab_label t0, tab_elements t0)) tabs)).
      { clear. induction tabs as [|x l IH]; cbn; congruence. }
      rewrite Ef. apply sees_tabs. intros x Hxx. apply in_map_iff in Hxx as (t0 & <- & Ht). cbn [snd]. apply Hl. apply sub_tab; auto.
    + unfold render_anchor. apply sees_tag; [fa; [destruct target; reflexivity|apply Hf; left; auto]|]. apply Hl, incl_refl.
    + sees1.
    + apply sees_link. intros u -> ->. apply Hw. repeat eexists.
    + unfold render_image. destruct (get_image_link R source) as [url|]; [|sees1].
      assert (Hi : sees 0 (tag_empty R "img" (with_map [en "class" [lit "wj-image"]; en "src" [url]; en "crossorigin" []] attributes))).
      { apply sees_leaf. fa. apply Hf. left. auto. }
      destruct alignment as [al|]; (apply sees_tag; [fa|]); (destruct link as [l|]; [|exact Hi]);
        (destruct (link_href R l) as [h|] eqn:Eh; [apply sees_tag; [fa|exact Hi]|exfalso]);
        (unfold link_href, normalize_link in Eh; destruct l as [r|u];
         [destruct (pr_site r); [discriminate|]; destruct (normalize_href_total (re_word R) (re_normalize R) (pr_page r)) as (v & E & _); congruence
         |destruct (normalize_href_total (re_word R) (re_normalize R) u) as (v & E & _); congruence]).
    + unfold render_list. apply sees_tag; [fa; apply Hf; left; auto|]. apply sees_concat. intros [b es|x] Hi.
      * cbn [item_children]. apply sees_tag; [fa; apply Hf; right; apply in_flat_map; exists (LIElements b es); split; auto; left; auto|].
        apply Hl. eapply sub_item; eauto.
      * cbn [item_children]. apply Hx. eapply (sub_sublist ltype attributes); eauto.
    + apply sees_defs. intros d Hd. split; apply Hl; [apply sub_key|apply sub_value]; auto.
    + unfold render_radio_button. apply sees_leaf. fa; [destruct checked; reflexivity|]. apply Hf. left. auto.
    + unfold render_checkbox. apply sees_leaf. fa; [destruct checked; reflexivity|]. apply Hf. left. auto.
    + unfold render_collapsible. apply sees_tag; [fa; [destruct start_open, show_top, show_bottom; reflexivity|apply Hf; left; auto]|].
      apply sees_seq0; [sees1|]. apply sees_seq1.
      * apply sees_tag; [fa|]. apply Hl, incl_refl.
      * destruct show_bottom; sees1.
    + unfold render_table_of_contents. assert (Ht : sees 0 (ref (tr_toc t))) by (apply Hr; left; auto).
      apply sees_tag; [fa; [destruct (re_true_ids R), align; reflexivity|apply Hf; left; auto]|].
      apply sees_seq0; [apply sees_tag; [destruct (re_true_ids R); fa|]; sees1|].
      apply sees_seq0; [sees1|]. apply sees_tag; [destruct (re_true_ids R); fa|]. exact Ht.
    + apply sees_footnote. exact Hr.
    + destruct fs as [|f fs'] eqn:Ef; [apply sees_ret|]. destruct hide; [apply sees_ret|]. rewrite <- Ef in *. unfold render_footnote_block.
      apply sees_tag; [fa|]. apply sees_seq0; [sees1|]. apply sees_tag; [fa|]. clear Ef.
      assert (Y : forall l i, (forall L, In L l -> sees 0 (ref L)) -> sees 0 (footnote_items R ref i l)); [|apply Y; exact Hr].
      clear. induction l as [|x l IH]; intros i H; [apply sees_ret|]. cbn [footnote_items]. apply sees_seq0.
      * apply sees_tag; [fa|]. apply sees_seq0; [sees1|]. apply sees_tag; [fa|]. apply H. left. auto.
      * apply IH. intros L HL. apply H. right. auto.
    + unfold render_bibcite. cbn [referenced] in Hr. destruct (bibs_get (tr_bibs t) label) as [[i es]|]; [|sees1].
      assert (Hes : sees 0 (ref es)) by (apply Hr; left; auto).
      apply sees_tag; [fa|]. apply sees_seq0; [destruct brackets; sees1|]. apply sees_seq0; [sees1|]. apply sees_seq0; [destruct brackets; sees1|].
      apply sees_tag; [fa|]. apply sees_seq0; [sees1|]. apply sees_tag; [fa|]. exact Hes.
    + destruct hide; [apply sees_ret|]. cbn [referenced] in Hr. destruct (nth_error (tr_bibs t) index) as [b|] eqn:Eb.
      * unfold render_bibliography. apply sees_tag; [fa|]. apply sees_seq0; [sees1|].
        assert (Y : forall l bi i, (forall L, In L (map snd l) -> sees 0 (ref L)) -> sees 0 (bibliography_items R ref bi i l)); [|apply Y; exact Hr].
        clear. induction l as [|[la x] l IH]; intros bi i H; [apply sees_ret|]. cbn [bibliography_items]. apply sees_seq0.
        -- apply sees_tag; [fa|]. apply sees_seq0; [sees1|]. apply H. left. auto.
        -- apply IH. intros L HL. apply H. right. auto.
      * apply sees_panic. apply Hw. exists index, title, false. auto.
    + unfold render_user. apply sees_tag; [fa|]. apply sees_tag; [fa|]. apply sees_seq0; [|sees1].
      destruct show_avatar; [|apply sees_ret]. apply sees_seq0; [|sees1]. apply sees_tag; [fa|]. apply sees_sprite.
    + unfold render_date. destruct hover; sees1.
    + unfold render_color. apply sees_tag; [fa|]. apply Hl, incl_refl.
    + unfold render_code. refine (sees_ctx 0 _ (fun c => set_code c (S (hx_code c))) (fun _ => conj eq_refl eq_refl) _).
      apply sees_tag; [fa|]. apply sees_seq0; [|sees1]. apply sees_tag; [fa|]. apply sees_seq0; [|sees1]. apply sees_tag; [fa|].
      apply sees_seq0; apply sees_sprite.
    + unfold render_math_block. refine (sees_pick 0 (fun c => render_latex R false name (Some (hx_equation c)) latex_source)
        (fun c => set_equation c (S (hx_equation c))) (fun _ => conj eq_refl eq_refl) _). intro c.
      unfold render_latex. apply sees_tag; [destruct name; fa|]. apply sees_seq0; [sees1|]. apply sees_seq0; [sees1|].
      destruct (re_mathml R) as [f|]; [|apply sees_ret]. destruct (f false latex_source); sees1.
    + unfold render_math_inline, render_latex. apply sees_tag; [fa|]. apply sees_seq0; [sees1|]. apply sees_seq0; [sees1|].
      destruct (re_mathml R) as [f|]; [|apply sees_ret]. destruct (f true latex_source); sees1.
    + unfold render_equation_reference. sees1.
    + unfold render_embed. apply sees_tag; [fa|]. destruct e; sees1.
    + unfold render_html. sees1.
    + unfold render_iframe. apply sees_leaf. fa. apply Hf. left. auto.
    + apply sees_include. apply Hl, incl_refl.
    + unfold render_style. destruct (re_css R s) eqn:Ec; [sees1|apply sees_ret|]. apply sees_panic. apply Hw. exists s. auto.
    + sees1.
    + apply sees_breaks.
    + sees1.
    + sees1.
    + apply sees_panic. apply Hw. exists p. auto.
Qed.
End Safe.
