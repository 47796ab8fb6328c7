(** RenderLemmas.v -- how to reason about the HTML renderer: one step of [h_element] without nested
    recursion, an induction principle, fuel. *)
From Verif Require Import Base BaseLemmas Strings Links Attr Html Tree Text Toc PState Parse SpecParse ParseInv Render.

Definition concatM (ms : list M) : M := fold_right seq2 (ret []) ms.

Section Step.
Variable R : renv.
Variable toc : list element.
Variable footnotes : list (list element).
Variable bibs : list bibliography.
Variable ref : list element -> M.
Notation hes := (h_elements R toc footnotes bibs ref).
Notation he := (h_element R toc footnotes bibs ref).

(** [h_element] with the inner loops written as maps. *)
Definition h_body (e : element) : M :=
  match e with
  | EContainer t a es => render_container R t a (hes es)
  | ETable a rows => render_table R a (concatM (map (fun r => render_row R (tr_attributes r)
      (concatM (map (fun x => render_cell R x (hes (tc_elements x))) (tr_cells r)))) rows))
  | ETabView tabs => render_tabview R (map (fun t => (tab_label t, hes (tab_elements t))) tabs)
  | EAnchor target a es => render_anchor R a target (hes es)
  | EList t a items => render_list R t a (concatM (map (fun i => match i with
      | LIElements a es => render_item R a (hes es) | LISubList x => he x end) items))
  | EDefinitionList items => render_definition_list R (map (fun d => (hes (df_key d), hes (df_value d))) items)
  | ECollapsible es a o s h t b => render_collapsible R (hes es) a o s h t b
  | EColor color es => render_color R color (hes es)
  | EInclude _ variables _ es => render_include variables (hes es)
  | _ => he e
  end.
Lemma hes_fix es : (fix go (es : list element) : M := match es with [] => ret [] | x :: es' => he x +++ go es' end) es = hes es.
Proof. induction es as [|x es IH]; [reflexivity|]. cbn. rewrite <- IH. reflexivity. Qed.
Lemma h_element_eq e : he e = h_body e.
Proof.
  destruct e; try reflexivity; cbn [h_element h_body];
    try (rewrite hes_fix; reflexivity).
  - f_equal. induction rows as [|r rows IH]; [reflexivity|]. cbn [map concatM fold_right]. f_equal; [|exact IH]. f_equal.
    induction (tr_cells r) as [|x cs IHc]; [reflexivity|]. cbn [map concatM fold_right]. rewrite hes_fix. f_equal. exact IHc.
  - f_equal. induction items as [|[a es|x] items IH]; [reflexivity| |]; cbn [map concatM fold_right].
    + rewrite hes_fix. f_equal. exact IH.
    + f_equal. exact IH.
Qed.

(** Induction: if [P] passes to sequences and, for each element, from what it contains to itself,
    it holds of every list of elements. *)
Definition sublist_of (es : list element) (e : element) : Prop := incl es (children e).
Lemma size_child x e : In x (children e) -> length (flat x) < length (flat e).
Proof.
  intro H. rewrite (flat_eq e). cbn [length]. apply in_split in H as (a & b & ->).
  rewrite flat_map_app, app_length. cbn [flat_map]. rewrite app_length. lia.
Qed.
Lemma h_induct (P : list element -> M -> Prop) :
  P [] (ret []) ->
  (forall e es m m', P [e] m -> P es m' -> P (e :: es) (m +++ m')) ->
  (forall e, (forall es, sublist_of es e -> P es (hes es)) -> (forall x, In x (children e) -> P [x] (he x)) -> P [e] (he e)) ->
  (forall e, P [e] (he e)) /\ forall es, P es (hes es).
Proof.
  intros Hn Hc Hs.
  assert (He : forall n e, length (flat e) <= n -> P [e] (he e)).
  { induction n as [|n IH]; intros e Hl.
    - rewrite (flat_eq e) in Hl. cbn in Hl. lia.
    - assert (Hx : forall x, In x (children e) -> P [x] (he x)).
      { intros x Hx. apply IH. apply size_child in Hx. lia. }
      apply Hs; auto. intros es Hi. induction es as [|x es IHes]; [exact Hn|]. cbn [h_elements]. apply Hc.
      + apply Hx. apply Hi. left. auto.
      + apply IHes. intros y Hy. apply Hi. right. auto. }
  assert (H1 : forall e, P [e] (he e)) by (intro e; apply (He (length (flat e))); auto).
  split; auto. induction es as [|x es IH]; [exact Hn|]. cbn [h_elements]. apply Hc; auto.
Qed.
Lemma sub_all e : sublist_of (children e) e. Proof. intros x; auto. Qed.
Lemma sub_cell a rows r x : In r rows -> In x (tr_cells r) -> sublist_of (tc_elements x) (ETable a rows).
Proof.
  intros Hr Hx y Hy. cbn. apply in_flat_map. exists r. split; auto. unfold row_children. apply in_flat_map. eauto.
Qed.
Lemma sub_tab tabs t : In t tabs -> sublist_of (tab_elements t) (ETabView tabs).
Proof. intros Ht y Hy. cbn. apply in_flat_map. eauto. Qed.
Lemma sub_item t a items b es : In (LIElements b es) items -> sublist_of es (EList t a items).
Proof. intros Ht y Hy. cbn. apply in_flat_map. exists (LIElements b es). auto. Qed.
Lemma sub_sublist t a items x : In (LISubList x) items -> In x (children (EList t a items)).
Proof. intros Ht. cbn. apply in_flat_map. exists (LISubList x). cbn. auto. Qed.
Lemma sub_key items d : In d items -> sublist_of (df_key d) (EDefinitionList items).
Proof. intros Ht y Hy. cbn. apply in_flat_map. exists d. split; auto. apply in_or_app. auto. Qed.
Lemma sub_value items d : In d items -> sublist_of (df_value d) (EDefinitionList items).
Proof. intros Ht y Hy. cbn. apply in_flat_map. exists d. split; auto. apply in_or_app. auto. Qed.
End Step.

(** *** Fuel: more of it changes nothing once a result is there. *)
Definition mono (m m' : M) : Prop := forall c, m c = Exhausted \/ m c = m' c.
Lemma mono_refl m : mono m m. Proof. intro c. auto. Qed.
Lemma mono_bind m m' k k' : mono m m' -> (forall ns, mono (k ns) (k' ns)) -> mono (bind m k) (bind m' k').
Proof. intros H Hk c. unfold bind. destruct (H c) as [-> | ->]; auto. destruct (m' c); auto. apply Hk. Qed.
Lemma mono_seq a a' b b' : mono a a' -> mono b b' -> mono (a +++ b) (a' +++ b').
Proof. intros Ha Hb. apply mono_bind; auto. intro x. apply mono_bind; auto. intro. apply mono_refl. Qed.
Lemma mono_tag R t a m m' : mono m m' -> mono (tag_with R t a m) (tag_with R t a m').
Proof. intros H. unfold tag_with. destruct (_ && _); [apply mono_refl|]. apply mono_bind; auto. intro. apply mono_refl. Qed.
Lemma mono_concat {A} (f f' : A -> M) l : (forall x, In x l -> mono (f x) (f' x)) -> mono (concatM (map f l)) (concatM (map f' l)).
Proof.
  induction l as [|x l IH]; intro H; [apply mono_refl|]. cbn [map concatM fold_right]. apply mono_seq.
  - apply H. left. auto.
  - apply IH. intros y Hy. apply H. right. auto.
Qed.
Lemma mono_container R t a m m' : mono m m' -> mono (render_container R t a m) (render_container R t a m').
Proof.
  intro H. assert (X : mono (render_container_internal R t a m) (render_container_internal R t a m')).
  { intro c. unfold render_container_internal. destruct (container_tag t c) as [[] c']; try apply mono_tag; auto.
    destruct (re_true_ids R); apply mono_tag; auto. }
  destruct t; auto. cbn [render_container]. apply mono_seq; [apply mono_refl|]. apply mono_seq; auto. apply mono_refl.
Qed.
Lemma mono_tabs R tabs tabs' : map fst tabs = map fst tabs' -> Forall2 (fun x y => mono (snd x) (snd y)) tabs tabs' ->
  mono (render_tabview R tabs) (render_tabview R tabs').
Proof.
  intros Hf H c. unfold render_tabview. assert (El : length tabs = length tabs').
  { rewrite <- (map_length fst tabs), Hf, map_length. auto. }
  rewrite <- El. generalize (map (re_random R) (seq (hx_random c) (length tabs))) as bs.
  generalize (map (re_random R) (seq (hx_random c + length tabs) (length tabs))) as ts.
  intros ts bs. apply mono_tag. apply mono_seq; apply mono_tag.
  - assert (X : forall i bs ts, mono (tab_buttons R i tabs bs ts) (tab_buttons R i tabs' bs ts)); [|apply X].
    clear - Hf. revert tabs' Hf. induction tabs as [|[l m] tabs IH]; intros [|[l' m'] tabs'] Hf i bs ts; try discriminate; [apply mono_refl|].
    cbn [map fst] in Hf. injection Hf as <- Hf. cbn [tab_buttons]. destruct bs, ts; try apply mono_refl.
    destruct (Nat.eqb i 0); apply mono_seq; try apply mono_refl; apply IH; auto.
  - assert (X : forall i bs ts, mono (tab_panels R i tabs bs ts) (tab_panels R i tabs' bs ts)); [|apply X].
    clear - H. induction H as [|[l m] [l' m'] tabs tabs' Hm _ IH]; intros i bs ts; [apply mono_refl|].
    cbn [tab_panels]. destruct bs, ts; try apply mono_refl. apply mono_seq; [|apply IH]. apply mono_tag. exact Hm.
Qed.
Lemma mono_defs R items items' : Forall2 (fun x y => mono (fst x) (fst y) /\ mono (snd x) (snd y)) items items' ->
  mono (render_definition_list R items) (render_definition_list R items').
Proof.
  intro H. apply mono_tag. induction H as [|[k v] [k' v'] items items' [Hk Hv] _ IH]; [apply mono_refl|]. cbn [fold_right].
  apply mono_seq; [apply mono_tag; auto|]. apply mono_seq; [apply mono_tag; auto|]. exact IH.
Qed.
Lemma mono_include v m m' : mono m m' -> mono (render_include v m) (render_include v m').
Proof. intros H c. unfold render_include. destruct (H (set_scopes c (v :: hx_scopes c))) as [-> | ->]; auto. Qed.
Lemma mono_collapsible R m m' a o s h t b : mono m m' -> mono (render_collapsible R m a o s h t b) (render_collapsible R m' a o s h t b).
Proof. intro H. apply mono_tag. apply mono_seq; [apply mono_refl|]. apply mono_seq; [apply mono_tag; auto|apply mono_refl]. Qed.
Lemma mono_footnote R f r r' : (forall es, mono (r es) (r' es)) -> mono (render_footnote R f r) (render_footnote R f r').
Proof.
  intros H c. unfold render_footnote. destruct (nth_error f (hx_footnote c - 1)); auto.
  apply mono_tag. apply mono_seq; [apply mono_refl|]. apply mono_tag. apply mono_seq; [apply mono_refl|]. apply mono_tag. apply H.
Qed.
Lemma mono_fblock R f r r' t : (forall es, mono (r es) (r' es)) -> mono (render_footnote_block R f r t) (render_footnote_block R f r' t).
Proof.
  intros H. apply mono_tag. apply mono_seq; [apply mono_refl|]. apply mono_tag.
  assert (X : forall i, mono (footnote_items R r i f) (footnote_items R r' i f)); [|apply X].
  induction f as [|x f IH]; intro i; [apply mono_refl|]. cbn [footnote_items]. apply mono_seq; auto. apply mono_tag.
  apply mono_seq; [apply mono_refl|]. apply mono_tag. apply H.
Qed.
Lemma mono_cite R bs r r' l b : (forall es, mono (r es) (r' es)) -> mono (render_bibcite R bs r l b) (render_bibcite R bs r' l b).
Proof.
  intros H. unfold render_bibcite. destruct (bibs_get bs l) as [[i es]|]; [|apply mono_refl].
  apply mono_tag. repeat (apply mono_seq; [apply mono_refl|]). apply mono_tag. apply mono_seq; [apply mono_refl|]. apply mono_tag. apply H.
Qed.
Lemma mono_bibliography R r r' t bi b : (forall es, mono (r es) (r' es)) -> mono (render_bibliography R r t bi b) (render_bibliography R r' t bi b).
Proof.
  intros H. apply mono_tag. apply mono_seq; [apply mono_refl|].
  assert (X : forall i, mono (bibliography_items R r bi i b) (bibliography_items R r' bi i b)); [|apply X].
  induction b as [|[l x] f IH]; intro i; [apply mono_refl|]. cbn [bibliography_items]. apply mono_seq; auto. apply mono_tag.
  apply mono_seq; [apply mono_refl|]. apply H.
Qed.
Lemma mono_toc R m m' al a : mono m m' -> mono (render_table_of_contents R m al a) (render_table_of_contents R m' al a).
Proof. intro H. apply mono_tag. repeat (apply mono_seq; [apply mono_refl|]). apply mono_tag. auto. Qed.

Lemma Forall2_map_same {A B C} (P : B -> C -> Prop) (f : A -> B) (g : A -> C) l :
  (forall x, In x l -> P (f x) (g x)) -> Forall2 P (map f l) (map g l).
Proof. induction l as [|x l IH]; intro H; constructor; [apply H; left; auto|]. apply IH. intros y Hy. apply H. right. auto. Qed.

Lemma mono_elements R toc fs bs r r' : (forall es, mono (r es) (r' es)) ->
  forall es, mono (h_elements R toc fs bs r es) (h_elements R toc fs bs r' es).
Proof.
  intros H. pose (P := fun (es : list element) (m : M) => m = h_elements R toc fs bs r es ->
    mono m (h_elements R toc fs bs r' es)).
  assert (X : (forall e, mono (h_element R toc fs bs r e) (h_element R toc fs bs r' e)) /\ forall es, mono (h_elements R toc fs bs r es) (h_elements R toc fs bs r' es));
    [|apply X]. clear P.
  assert (He : forall n e, length (flat e) <= n -> mono (h_element R toc fs bs r e) (h_element R toc fs bs r' e)).
  { induction n as [|n IH]; intros e Hl; [rewrite (flat_eq e) in Hl; cbn in Hl; lia|].
    assert (Hx : forall x, In x (children e) -> mono (h_element R toc fs bs r x) (h_element R toc fs bs r' x)).
    { intros x Hx. apply IH. apply size_child in Hx. lia. }
    assert (Hs : forall es, sublist_of es e -> mono (h_elements R toc fs bs r es) (h_elements R toc fs bs r' es)).
    { intros es Hi. induction es as [|x es IHes]; [apply mono_refl|]. cbn [h_elements]. apply mono_seq; [apply Hx, Hi; left; auto|].
      apply IHes. intros y Hy. apply Hi. right. auto. }
    clear IH Hl. rewrite !h_element_eq. destruct e; cbn [h_body]; try apply mono_refl.
    - apply mono_container. apply Hs, incl_refl.
    - apply mono_tag, mono_tag, mono_concat. intros r0 Hr. apply mono_tag, mono_concat. intros x Hxx. apply mono_tag.
      apply Hs. eapply sub_cell; eauto.
    - apply mono_tabs; [rewrite !map_map; reflexivity|]. apply Forall2_map_same. intros t Ht. apply Hs. apply sub_tab; auto.
    - apply mono_tag. apply Hs, incl_refl.
    - apply mono_tag, mono_concat. intros [b es|x] Hi; [apply mono_tag; apply Hs; eapply sub_item; eauto|].
      apply Hx. apply sub_sublist; auto.
    - apply mono_defs. apply Forall2_map_same. intros d Hd. split; apply Hs; [apply sub_key|apply sub_value]; auto.
    - apply mono_collapsible. apply Hs, incl_refl.
    - apply mono_toc. apply H.
    - apply mono_footnote. auto.
    - cbn [h_element]. destruct fs; [apply mono_refl|]. destruct hide; [apply mono_refl|]. apply mono_fblock. auto.
    - apply mono_cite. auto.
    - cbn [h_element]. destruct hide; [apply mono_refl|]. destruct (nth_error bs index); [|apply mono_refl]. apply mono_bibliography. auto.
    - apply mono_tag. apply Hs, incl_refl.
    - apply mono_include. apply Hs, incl_refl. }
  assert (H1 : forall e, mono (h_element R toc fs bs r e) (h_element R toc fs bs r' e)) by (intro e; apply (He (length (flat e))); auto).
  split; auto. induction es as [|x es IH]; [apply mono_refl|]. cbn [h_elements]. apply mono_seq; auto.
Qed.
Lemma mono_ref R toc fs bs n m es : n <= m -> mono (h_ref R toc fs bs n es) (h_ref R toc fs bs m es).
Proof.
  revert m es. induction n as [|n IH]; intros m es Hl; [intro c; left; reflexivity|].
  destruct m as [|m]; [lia|]. cbn [h_ref]. apply mono_elements. intro. apply IH. lia.
Qed.
