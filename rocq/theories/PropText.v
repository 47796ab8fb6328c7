(** PropText.v -- C65: the plain text of a page. *)
From Verif Require Import Base BaseLemmas Strings Links Attr Lexer Depth Tree Text Toc PState Parse SpecParse SpecPage SpecText ParseInv ParseTestEnv PropParse RenderLemmas ParseLemmas PropPage.

Section Says.
Variables (site : str) (df : date_item -> option str).
Notation tes := (t_elements site df).
Notation te := (t_element site df).
Notation said := (said site df).
Definition T : Type := tctx -> option tctx.
Definition andthen (f g : T) : T := fun c => match f c with Some c => g c | None => None end.
Definition pure (f : tctx -> tctx) : T := fun c => Some (f c).
Definition concatT (fs : list T) : T := fold_right andthen Some fs.

(** [t_element] with the inner loops written as maps. *)
Definition t_body (e : element) : T :=
  match e with
  | EContainer CHidden _ _ => Some
  | EContainer CInvisible _ es => andthen (pure (t_invis S)) (andthen (tes es) (pure (t_invis pred)))
  | EContainer (CDiv | CParagraph | CBlockquote | CHeader _) _ es => andthen (pure t_newline) (andthen (tes es) (pure t_newline))
  | EContainer CRubyText _ es => andthen (pure (t_push (lit "("))) (andthen (tes es) (pure (t_push (lit ")"))))
  | EContainer _ _ es | EAnchor _ _ es | ECollapsible es _ _ _ _ _ _ | EColor _ es => tes es
  | ETable _ rows => andthen (pure t_fresh_line) (andthen (concatT (map (fun r => andthen (concatT (map (fun x => tes (tc_elements x)) (tr_cells r))) (pure t_newline)) rows)) (pure t_newline))
  | ETabView tabs => concatT (map (fun t => andthen (pure (t_push (tab_label t))) (andthen (pure t_newline) (andthen (tes (tab_elements t)) (pure t_newline)))) tabs)
  | EList _ _ items => andthen (pure t_fresh_line) (concatT (map (fun i => match i with
      | LISubList x => te x
      | LIElements _ [] => Some
      | LIElements _ es => andthen (tes es) (pure t_newline) end) items))
  | EDefinitionList items => andthen (concatT (map (fun d => andthen (tes (df_key d)) (andthen (pure (t_push [32%N])) (andthen (tes (df_value d)) (pure t_newline)))) items)) (pure t_newline)
  | EInclude _ v _ es => andthen (pure (fun c => TX (tx_out c) (tx_invisible c) (v :: tx_scopes c))) (andthen (tes es) (pure (fun c => TX (tx_out c) (tx_invisible c) (tl (tx_scopes c)))))
  | _ => te e
  end.
Lemma tes_fix es c : (fix go (es : list element) (c : tctx) : option tctx := match es with [] => Some c | x :: es' => match te x c with Some c => go es' c | None => None end end) es c = tes es c.
Proof. revert c. induction es as [|x es IH]; intro c; [reflexivity|]. cbn [t_elements]. destruct (te x c); auto. Qed.
Lemma t_element_eq e c : te e c = t_body e c.
Proof.
  destruct e; try reflexivity; cbn [t_element t_body]; try (rewrite tes_fix; reflexivity).
  - destruct ctype; unfold andthen, pure; rewrite ?tes_fix; try reflexivity.
  - unfold andthen at 1. unfold pure at 1. unfold andthen at 1.
    match goal with |- match ?f rows ?c0 with _ => _ end = match ?g ?c1 with _ => _ end => assert (X : forall c, f rows c = g c) end.
    { clear. induction rows as [|r rows IH]; intro c; [reflexivity|]. cbn [map concatT fold_right].
      unfold andthen at 1. unfold andthen at 1.
      match goal with |- match ?f (tr_cells r) ?c0 with _ => _ end = _ => assert (Y : forall c, f (tr_cells r) c = concatT (map (fun x => tes (tc_elements x)) (tr_cells r)) c) end.
      { clear. induction (tr_cells r) as [|x cs IHc]; intro c; [reflexivity|]. cbn [map concatT fold_right]. rewrite tes_fix. unfold andthen at 1. destruct (tes (tc_elements x) c); [apply IHc|reflexivity]. }
      rewrite Y. destruct (concatT _ c); [|reflexivity]. apply IH. }
    rewrite X. reflexivity.
  - revert c. induction tabs as [|t tabs IH]; intro c; [reflexivity|]. cbn [map concatT fold_right]. rewrite tes_fix. unfold andthen, pure. destruct (tes _ _); [apply IH|reflexivity].
  - unfold andthen at 1. unfold pure at 1. generalize (t_fresh_line c). clear c. induction items as [|[a es|x] items IH]; intro c; [reflexivity| |]; cbn [map concatT fold_right].
    + destruct es as [|x es]; [apply IH|]. unfold andthen, pure. change (tes (x :: es) c) with (match te x c with Some c => tes es c | None => None end). destruct (te x c) as [c0|]; [|reflexivity]. rewrite tes_fix. destruct (tes es c0); [apply IH|reflexivity].
    + unfold andthen. destruct (te x c); [apply IH|reflexivity].
  - unfold andthen at 1.
    match goal with |- match ?f items ?c0 with _ => _ end = match ?g ?c1 with _ => _ end => assert (X : forall c, f items c = g c) end.
    { clear. induction items as [|d items IH]; intro c; [reflexivity|]. cbn [map concatT fold_right]. rewrite tes_fix. unfold andthen, pure. destruct (tes (df_key d) c) as [c0|]; [|reflexivity]. rewrite tes_fix. destruct (tes _ _); [apply IH|reflexivity]. }
    rewrite X. reflexivity.
Qed.

(** [works ok inv f bad s]: [f] writes [s] (if [ok]), or panics if [bad]. *)
Definition works (ok : Prop) (inv : bool) (f : T) (bad : Prop) (s : list (str * str) -> str) : Prop :=
  forall out k sc, Nat.ltb 0 k = inv ->
    match f (TX out k sc) with
    | Some c => ~ bad /\ exists out', c = TX out' k sc /\ (ok -> one_line out' = one_line out ++ one_line (s (concat sc)))
    | None => bad
    end.
Lemma one_line_app a b : one_line (a ++ b) = one_line a ++ one_line b. Proof. apply filter_app. Qed.
Lemma works_then ok inv f g b1 b2 s1 s2 : works ok inv f b1 s1 -> works ok inv g b2 s2 ->
  works ok inv (andthen f g) (b1 \/ b2) (fun sc => s1 sc ++ s2 sc).
Proof.
  intros Hf Hg out k sc Hk. specialize (Hf out k sc Hk). unfold andthen. destruct (f (TX out k sc)) as [c|]; [|auto].
  destruct Hf as (Hb & out1 & -> & H1). specialize (Hg out1 k sc Hk). destruct (g (TX out1 k sc)) as [c|]; [|auto].
  destruct Hg as (Hb2 & out2 & -> & H2). split; [tauto|]. exists out2. split; auto. intro Hok. rewrite H2, H1, one_line_app, app_assoc by auto. reflexivity.
Qed.
Lemma works_eq ok inv f g b b' s s' : (forall c, f c = g c) -> (b <-> b') -> (forall sc, one_line (s sc) = one_line (s' sc)) -> works ok inv f b s -> works ok inv g b' s'.
Proof.
  intros Hf Hb Hs H out k sc Hk. specialize (H out k sc Hk). rewrite <- Hf. destruct (f _); [|tauto]. destruct H as (H & o & -> & Ho). split; [tauto|]. exists o. split; auto. intro Hok. rewrite Ho, Hs by auto. auto.
Qed.
Lemma works_none ok inv : works ok inv Some False (fun _ => []).
Proof. intros out k sc _. split; auto. exists out. cbn. rewrite app_nil_r. auto. Qed.
Definition covered (inv : bool) (s : str) : str := if inv then map (fun _ => 32%N) s else s.
Lemma works_push ok inv s : works ok inv (pure (t_push s)) False (fun _ => covered inv s).
Proof.
  intros out k sc Hk. unfold pure. split; auto. unfold t_push. cbn [tx_out tx_invisible tx_scopes]. eexists. split; [reflexivity|]. intros _.
  rewrite one_line_app. f_equal. subst inv. destruct k; reflexivity.
Qed.
Lemma works_newline ok inv : works ok inv (pure t_newline) False (fun _ => []).
Proof. intros out k sc Hk. unfold pure. split; auto. unfold t_newline, t_write. cbn [tx_out tx_invisible tx_scopes]. eexists. split; [reflexivity|]. intros _. rewrite one_line_app. reflexivity. Qed.
Lemma works_fresh ok inv : works ok inv (pure t_fresh_line) False (fun _ => []).
Proof.
  intros out k sc Hk. unfold pure. split; auto. unfold t_fresh_line. destruct (t_ends_nl _); [exists out; cbn; rewrite app_nil_r; auto|].
  unfold t_newline, t_write. cbn [tx_out tx_invisible tx_scopes]. eexists. split; [reflexivity|]. intros _. rewrite one_line_app. reflexivity.
Qed.
Lemma works_newlines ok inv n : works ok inv (pure (t_newlines n)) False (fun _ => []).
Proof.
  induction n as [|n IH]; [apply works_none|]. apply (works_eq ok inv (andthen (pure t_newline) (pure (t_newlines n))) _ (False \/ False) _ (fun _ => [] ++ [])); try tauto; try reflexivity.
  apply (works_then ok inv _ _ _ _ (fun _ => []) (fun _ => [])); auto using works_newline.
Qed.
Lemma works_concat {A} ok inv (F : A -> T) (B : A -> Prop) (S : A -> list (str * str) -> str) l : (forall x, In x l -> works ok inv (F x) (B x) (S x)) ->
  works ok inv (concatT (map F l)) (exists x, In x l /\ B x) (fun sc => flat_map (fun x => S x sc) l).
Proof.
  induction l as [|x l IH]; intro H; cbn [map concatT fold_right flat_map].
  - eapply works_eq; [reflexivity| |reflexivity|apply works_none]. split; [tauto|]. intros (x & [] & _).
  - eapply works_eq; [reflexivity| |reflexivity|apply works_then; [apply H; left; reflexivity|apply IH; intros y Hy; apply H; right; auto]].
    split; [intros [Hx|(y & Hy & Hb)]; [exists x|exists y]; cbn; auto|intros (y & [<-|Hy] & Hb); eauto].
Qed.
Lemma works_invis ok inv f b s : works ok true f b s -> works ok inv (andthen (pure (t_invis S)) (andthen f (pure (t_invis pred)))) b s.
Proof.
  intros H out k sc Hk. unfold andthen, pure, t_invis. cbn [tx_out tx_invisible tx_scopes]. specialize (H out (S k) sc eq_refl).
  destruct (f _) as [c|]; auto. destruct H as (Hb & o & -> & Ho). split; auto. exists o. auto.
Qed.
Lemma works_scope ok inv f b s v : works ok inv f b s ->
  works ok inv (andthen (pure (fun c => TX (tx_out c) (tx_invisible c) (v :: tx_scopes c))) (andthen f (pure (fun c => TX (tx_out c) (tx_invisible c) (tl (tx_scopes c)))))) b (fun sc => s (v ++ sc)).
Proof.
  intros H out k sc Hk. unfold andthen, pure. cbn [tx_out tx_invisible tx_scopes]. specialize (H out k (v :: sc) Hk).
  destruct (f _) as [c|]; auto. destruct H as (Hb & o & -> & Ho). split; auto. exists o. auto.
Qed.

Definition bad (e : element) : Prop := exists x, seen x e /\ unsayable x.
Definition bads (es : list element) : Prop := exists e, In e es /\ bad e.
Definition okay (inv : bool) (e : element) : Prop :=
  (inv = true -> forall y, seen y e -> ~ stamp y) /\
  forall a inside x y, seen (EContainer CInvisible a inside) e -> In x inside -> seen y x -> ~ stamp y.
Lemma okay_child inv e x : hidden e = false -> okay inv e -> In x (children e) -> okay inv x.
Proof. intros Hh [H1 H2] Hx. split; [intros Hi y Hy; apply (H1 Hi); eapply seen_in; eauto|]. intros a i z y Hs Hz Hy. eapply H2; eauto. eapply seen_in; eauto. Qed.
Lemma bad_children e : hidden e = false -> ~ unsayable e -> (bad e <-> bads (children e)).
Proof.
  intros Hh Hu. split.
  - intros (x & Hs & Hx). inversion Hs; subst; [contradiction|]. exists y. split; auto. exists x. auto.
  - intros (y & Hy & x & Hx & Hb). exists x. split; auto. eapply seen_in; eauto.
Qed.
Lemma bad_leaf e : children e = [] -> ~ unsayable e -> (bad e <-> False).
Proof. intros Hc Hu. split; [|tauto]. intros (x & Hs & Hx). inversion Hs; subst; [contradiction|]. rewrite Hc in *. contradiction. Qed.
Lemma bads_in es e : hidden e = false -> ~ unsayable e -> children e = es -> (bads es <-> bad e).
Proof. intros H1 H2 <-. symmetry. apply bad_children; auto. Qed.
Lemma bads_flat {A} (F : A -> list element) l : bads (flat_map F l) <-> exists x, In x l /\ bads (F x).
Proof.
  split.
  - intros (e & He & Hb). apply in_flat_map in He as (x & Hx & He). exists x. split; auto. exists e. auto.
  - intros (x & Hx & e & He & Hb). exists e. split; auto. apply in_flat_map. eauto.
Qed.
Lemma bads_app a b : bads (a ++ b) <-> bads a \/ bads b.
Proof.
  split.
  - intros (e & He & Hb). apply in_app_or in He as [He|He]; [left|right]; exists e; auto.
  - intros [(e & He & Hb)|(e & He & Hb)]; exists e; split; auto; apply in_or_app; auto.
Qed.
Lemma ex_iff {A} (l : list A) (P Q : A -> Prop) : (forall x, In x l -> (P x <-> Q x)) -> (exists x, In x l /\ P x) <-> (exists x, In x l /\ Q x).
Proof. intro H. split; intros (x & Hx & Hp); exists x; split; auto; apply (H x Hx); auto. Qed.
Lemma scope_lookup sc name : match scope_get sc name with Some v => v | None => lit "{$" ++ name ++ lit "}" end = variable_text (concat sc) name.
Proof.
  unfold variable_text. assert (X : scope_get sc name = option_map snd (find (fun v => seqb (fst v) name) (concat sc))).
  { induction sc as [|s sc IH]; [reflexivity|]. cbn [scope_get concat]. induction s as [|[k v] s IHs]; [exact IH|]. cbn [bt_get app find fst]. destruct (seqb k name); auto. }
  rewrite X. destruct (find _ _) as [[k v]|]; reflexivity.
Qed.
Lemma one_line_flat {A} (f g : A -> str) l : (forall x, In x l -> one_line (f x) = one_line (g x)) -> one_line (flat_map f l) = one_line (flat_map g l).
Proof. induction l as [|x l IH]; intro H; [reflexivity|]. cbn [flat_map]. rewrite !one_line_app, (H x (or_introl eq_refl)), IH; auto. intros y Hy. apply H. right. auto. Qed.

Lemma says_list ok inv es : (forall x, In x es -> works ok inv (te x) (bad x) (fun sc => said sc inv x)) -> works ok inv (tes es) (bads es) (fun sc => flat_map (said sc inv) es).
Proof.
  intro H. apply (works_eq ok inv (concatT (map te es)) _ (exists x, In x es /\ bad x) _ (fun sc => flat_map (said sc inv) es)); try reflexivity; try tauto.
  - clear. induction es as [|x es IH]; intro c; [reflexivity|]. cbn [map concatT fold_right t_elements]. unfold andthen at 1. destruct (te x c); auto.
  - apply (works_concat ok inv te bad (fun x sc => said sc inv x)). auto.
Qed.
Lemma works_push_ ok inv s b t : (b <-> False) -> (forall sc, t sc = covered inv s) -> works ok inv (fun c => Some (t_push s c)) b t.
Proof. intros Hb Ht. eapply works_eq; [| | |apply (works_push ok inv s)]; [reflexivity|tauto|intro; rewrite Ht; reflexivity]. Qed.
Lemma works_nothing ok inv b : (b <-> False) -> works ok inv Some b (fun _ => []).
Proof. intros Hb. eapply works_eq; [reflexivity|symmetry; exact Hb|reflexivity|apply works_none]. Qed.

Lemma says_element : forall n e (ok : Prop) inv, length (flat e) <= n -> (ok -> okay inv e) -> works ok inv (te e) (bad e) (fun sc => said sc inv e).
Proof.
  induction n as [|n IH]; intros e ok inv Hl Hok; [rewrite (flat_eq e) in Hl; cbn in Hl; lia|].
  assert (Hx : hidden e = false -> forall x, In x (children e) -> works ok inv (te x) (bad x) (fun sc => said sc inv x)).
  { intros Hh x Hx. apply IH; [apply size_child in Hx; lia|intro Ho; eapply okay_child; eauto]. }
  assert (Hs : hidden e = false -> forall es, incl es (children e) -> works ok inv (tes es) (bads es) (fun sc => flat_map (said sc inv) es)).
  { intros Hh es Hi. apply says_list. intros x Hin. apply Hx; auto. }
  eapply works_eq; [intro c; symmetry; apply t_element_eq|reflexivity|reflexivity|].
  destruct e; cbn [t_body t_element];
    try (apply works_nothing; apply bad_leaf; auto; fail);
    try (apply works_push_; [apply bad_leaf; auto|reflexivity]; fail).
  - (* containers *)
    assert (Hc : hidden (EContainer ctype attributes elements) = false -> bads elements <-> bad (EContainer ctype attributes elements)) by (intro Hh; apply bads_in; auto).
    assert (Hw : hidden (EContainer ctype attributes elements) = false -> works ok inv (tes elements) (bad (EContainer ctype attributes elements)) (fun sc => flat_map (said sc inv) elements)).
    { intro Hh. eapply works_eq; [reflexivity|apply Hc; auto|reflexivity|apply Hs; auto; intros x; auto]. }
    destruct ctype; cbn [said]; try (apply Hw; reflexivity);
      try (eapply works_eq; [reflexivity| | |apply works_then; [apply works_newline|apply works_then; [apply Hw; reflexivity|apply works_newline]]]; [tauto|]; intro sc; cbn [app]; rewrite app_nil_r; reflexivity).
    + (* hidden *) apply works_nothing. split; [|tauto]. intros (x & Hx' & Hu). inversion Hx'; subst; [contradiction|discriminate].
    + (* invisible *) apply works_invis. eapply works_eq; [reflexivity|apply Hc; reflexivity|reflexivity|]. apply says_list. intros x Hin. apply IH; [pose proof (size_child x _ (Hin : In x (children (EContainer CInvisible attributes elements)))); lia|].
      intro Ho; destruct (Hok Ho) as [H1 H2]. split; [|intros a i z y Hz Hz' Hy; eapply H2; [|exact Hz'|exact Hy]; eapply seen_in; eauto; reflexivity]. intros _ y Hy. eapply (H2 attributes elements x y); auto. constructor.
    + (* ruby *) eapply works_eq; [reflexivity| | |apply works_then; [apply works_push|apply works_then; [apply Hw; reflexivity|apply works_push]]]; [tauto|reflexivity].
  - (* variable *) intros out k sc Hk. split; [intro Hbad; apply bad_leaf in Hbad; auto|]. unfold t_push. cbn [tx_out tx_invisible tx_scopes said]. eexists. split; [reflexivity|]. intros _.
    rewrite one_line_app, scope_lookup. f_equal. subst inv. destruct k; reflexivity.
  - (* table *) assert (Ht : works ok inv (concatT (map (fun r => andthen (concatT (map (fun x => tes (tc_elements x)) (tr_cells r))) (pure t_newline)) rows))
      (bad (ETable attributes rows)) (fun sc => said sc inv (ETable attributes rows))).
    { eapply works_eq; [reflexivity| | |apply (works_concat ok inv (fun r => andthen (concatT (map (fun x => tes (tc_elements x)) (tr_cells r))) (pure t_newline)) (fun r => bads (row_children r))
        (fun r sc => flat_map (fun x => flat_map (said sc inv) (tc_elements x)) (tr_cells r)))].
      - rewrite <- (bads_in (flat_map row_children rows) (ETable attributes rows)); auto. rewrite bads_flat. reflexivity.
      - reflexivity.
      - intros r Hr. eapply works_eq; [reflexivity| | |apply works_then; [apply (works_concat ok inv (fun x => tes (tc_elements x)) (fun x => bads (tc_elements x)) (fun x sc => flat_map (said sc inv) (tc_elements x)))|apply works_newline]].
        + unfold row_children. rewrite bads_flat. tauto.
        + intro sc. cbn beta. rewrite app_nil_r. reflexivity.
        + intros x Hc. apply Hs; auto. intros y Hy. cbn [children]. apply in_flat_map. exists r. split; auto. unfold row_children. apply in_flat_map. eauto. }
    eapply works_eq; [reflexivity| | |apply works_then; [apply works_fresh|apply works_then; [exact Ht|apply works_newline]]]; [tauto|intro sc; cbn [app]; rewrite app_nil_r; reflexivity].
  - (* tabs *) eapply works_eq; [reflexivity| | |apply (works_concat ok inv _ (fun t => bads (tab_elements t)) (fun t sc => covered inv (tab_label t) ++ flat_map (said sc inv) (tab_elements t)))].
    + rewrite <- (bads_in (flat_map tab_elements tabs) (ETabView tabs)); auto. rewrite bads_flat. reflexivity.
    + reflexivity.
    + intros t Ht. eapply works_eq; [reflexivity| | |apply works_then; [apply works_push|apply works_then; [apply works_newline|apply works_then; [apply Hs; [reflexivity|]|apply works_newline]]]]; [tauto| |].
      * intro sc. cbn [app]. rewrite app_nil_r. reflexivity.
      * intros y Hy. cbn [children]. apply in_flat_map. eauto.
  - (* anchor *) eapply works_eq; [reflexivity| |reflexivity|apply Hs; auto; intro; auto]. apply bads_in; auto.
  - (* link *) intros out k sc Hk. cbn [said]. destruct (get_link_label site link label) as [s|] eqn:El.
    + assert (Hu : ~ unsayable (ELink ltype link extra label target)) by (cbn; destruct link, label; auto; discriminate).
      split; [intro Hbad; apply bad_leaf in Hbad; auto|]. unfold t_push. cbn [tx_out tx_invisible tx_scopes]. eexists. split; [reflexivity|]. intros _. rewrite one_line_app. f_equal.
      assert (Es : label_text site link label = s).
      { destruct label as [x|[x|]|]; cbn in El |- *; try congruence; destruct link as [[si pg]|u]; cbn in El |- *; try congruence. }
      rewrite Es. subst inv. destruct k; reflexivity.
    + exists (ELink ltype link extra label target). split; [constructor|]. destruct link, label as [|[]|]; cbn in El |- *; auto; try discriminate.
  - (* list *) eapply works_eq; [reflexivity| | |apply works_then; [apply works_fresh|apply (works_concat ok inv _ (fun i => bads (item_children i)) (fun i sc => match i with LIElements _ es => flat_map (said sc inv) es | LISubList x => said sc inv x end))]].
    + rewrite <- (bads_in (flat_map item_children items) (EList ltype attributes items)); auto. rewrite bads_flat. tauto.
    + reflexivity.
    + intros [a es|x] Hi.
      * destruct es as [|x es]; [apply works_nothing; cbn [item_children]; split; [|tauto]; intros (y & [] & _)|].
        eapply works_eq; [reflexivity| | |apply works_then; [apply (Hs eq_refl (x :: es))|apply works_newline]]; [cbn [item_children]; tauto| |].
        -- intro sc. cbn beta. rewrite app_nil_r. reflexivity.
        -- intros y Hy. cbn [children]. apply in_flat_map. exists (LIElements a (x :: es)). auto.
      * eapply works_eq; [reflexivity| |reflexivity|apply Hx; [reflexivity|]]; [|cbn [children]; apply in_flat_map; exists (LISubList x); cbn; auto].
        cbn [item_children]. split; [intro Hb; exists x; cbn; auto|intros (y & [<-|[]] & Hb); auto].
  - (* definition list *)
    assert (Ht : works ok inv (concatT (map (fun d => andthen (tes (df_key d)) (andthen (pure (t_push [32%N])) (andthen (tes (df_value d)) (pure t_newline)))) items))
      (bad (EDefinitionList items)) (fun sc => said sc inv (EDefinitionList items))).
    { eapply works_eq; [reflexivity| | |apply (works_concat ok inv _ (fun d => bads (def_children d)) (fun d sc => flat_map (said sc inv) (df_key d) ++ covered inv (lit " ") ++ flat_map (said sc inv) (df_value d)))].
      - rewrite <- (bads_in (flat_map def_children items) (EDefinitionList items)); auto. rewrite bads_flat. reflexivity.
      - reflexivity.
      - intros d Hd. eapply works_eq; [reflexivity| | |apply works_then; [apply Hs; [reflexivity|]|apply works_then; [apply works_push|apply works_then; [apply Hs; [reflexivity|]|apply works_newline]]]].
        + unfold def_children. rewrite bads_app. tauto.
        + intro sc. cbn beta. rewrite app_nil_r. reflexivity.
        + intros y Hy. cbn [children]. apply in_flat_map. exists d. split; auto. apply in_or_app. auto.
        + intros y Hy. cbn [children]. apply in_flat_map. exists d. split; auto. apply in_or_app. auto. }
    eapply works_eq; [reflexivity| | |apply works_then; [exact Ht|apply works_newline]]; [tauto|intro sc; cbn beta; rewrite app_nil_r; reflexivity].
  - (* collapsible *) eapply works_eq; [reflexivity| |reflexivity|apply Hs; auto; intro; auto]. apply bads_in; auto.
  - (* date *) assert (Hf : ok -> inv = false) by (intro Ho; destruct inv; auto; exfalso; apply (proj1 (Hok Ho) eq_refl (EDate value format hover)); [constructor|exact I]).
    intros out k sc Hk. split; [intro Hbad; apply bad_leaf in Hbad; auto|]. unfold t_write. cbn [tx_out tx_invisible tx_scopes]. eexists. split; [reflexivity|]. intro Ho. rewrite one_line_app. f_equal. cbn [said]. rewrite (Hf Ho). reflexivity.
  - (* color *) eapply works_eq; [reflexivity| |reflexivity|apply Hs; auto; intro; auto]. apply bads_in; auto.
  - (* code *) eapply works_eq; [| | |apply works_then; [apply works_newline|apply works_then; [apply works_push|apply works_newline]]]; [reflexivity| |].
    + rewrite bad_leaf; auto. tauto.
    + intro sc. cbn [app]. rewrite app_nil_r. reflexivity.
  - (* equation reference *) assert (Hf : ok -> inv = false) by (intro Ho; destruct inv; auto; exfalso; apply (proj1 (Hok Ho) eq_refl (EEquationReference s)); [constructor|exact I]).
    intros out k sc Hk. split; [intro Hbad; apply bad_leaf in Hbad; auto|]. unfold t_write. cbn [tx_out tx_invisible tx_scopes]. eexists. split; [reflexivity|]. intro Ho. rewrite one_line_app. f_equal. cbn [said]. rewrite (Hf Ho). reflexivity.
  - (* include *) eapply works_eq; [reflexivity| | |apply works_scope; apply Hs; auto; intro; auto]; [apply bads_in; auto|reflexivity].
  - (* newline *) eapply works_eq; [| | |apply works_newline]; [reflexivity|symmetry; apply bad_leaf; auto|reflexivity].
  - (* newlines *) eapply works_eq; [| | |apply (works_newlines ok inv (N.to_nat n0))]; [reflexivity|symmetry; apply bad_leaf; auto|reflexivity].
  - (* partial *) intros out k sc Hk. exists (EPartial p). split; [constructor|exact I].
Qed.
Lemma run_new es : match tes es (TX [] 0 []) with
  | Some c => ~ bads es /\ exists out, c = TX out 0 [] /\ ((forall e, In e es -> okay false e) -> one_line out = one_line (flat_map (said [] false) es))
  | None => bads es
  end.
Proof.
  assert (H : works (forall e, In e es -> okay false e) false (tes es) (bads es) (fun sc => flat_map (said sc false) es)).
  { apply says_list. intros x Hx. apply (says_element (length (flat x))); auto. }
  specialize (H [] 0 [] eq_refl). exact H.
Qed.
End Says.

(** The line feeds around the text. *)
Lemma drop_one_line s : one_line (drop_newlines s) = one_line s.
Proof. induction s as [|c s IH]; [reflexivity|]. cbn [drop_newlines one_line filter]. destruct (ceqb c 10) eqn:E; [exact IH|]. cbn [filter]. rewrite E. reflexivity. Qed.
Lemma one_line_rev s : one_line (rev s) = rev (one_line s).
Proof. unfold one_line. induction s as [|c s IH]; [reflexivity|]. cbn [rev filter]. rewrite filter_app, IH. cbn [filter]. destruct (negb (ceqb c 10)); cbn [rev app]; rewrite ?app_nil_r; reflexivity. Qed.
Lemma drop_head s t : drop_newlines s <> 10%N :: t.
Proof. induction s as [|c s IH]; [discriminate|]. cbn [drop_newlines]. destruct (ceqb c 10) eqn:E; auto. intro X. injection X as -> _. discriminate E. Qed.
Lemma drop_suffix s : exists a, s = a ++ drop_newlines s.
Proof. induction s as [|c s [a IH]]; [exists []; auto|]. cbn [drop_newlines]. destruct (ceqb c 10); [exists (c :: a); cbn; congruence|exists []; auto]. Qed.

(** *** C65 *)
(** The plain text is the text of the elements in reading order, each text once and nothing else,
    but for line breaks.  Missing: dates and equation references in invisible containers (see the
    refutation). *)
Theorem C65_plain_text_partial : forall site df es out, text_render site df es = Some out -> none_covered es ->
  one_line out = one_line (flat_map (said site df [] false) es).
Proof.
  intros site df es out H Hn. unfold text_render in H. pose proof (run_new site df es) as Hr. destruct (t_elements site df es (TX [] 0 [])) as [c|]; [|discriminate].
  destruct Hr as (_ & o & -> & Ho). injection H as <-. cbn [tx_out]. rewrite one_line_rev, drop_one_line, one_line_rev, rev_involutive, drop_one_line. apply Ho.
  intros e He. split; [discriminate|]. intros a i x y Hs Hx Hy. eapply Hn; eauto.
Qed.
Print Assumptions C65_plain_text_partial.
(** It never starts or ends with a line break. *)
Theorem C65_trimmed : forall site df es out, text_render site df es = Some out -> forall s, out <> [10%N] ++ s /\ out <> s ++ [10%N].
Proof.
  intros site df es out H s. unfold text_render in H. destruct (t_elements site df es (TX [] 0 [])) as [c|]; [|discriminate]. injection H as <-. split; intro X.
  - destruct (drop_suffix (rev (drop_newlines (tx_out c)))) as [a Ha]. apply (f_equal (@rev _)) in Ha. rewrite rev_involutive, rev_app_distr, X in Ha. eapply drop_head. exact Ha.
  - apply (f_equal (@rev _)) in X. rewrite rev_involutive, rev_app_distr in X. eapply drop_head. exact X.
Qed.
Print Assumptions C65_trimmed.
(** Rendering to plain text panics exactly on pages with an unfinished element or the link label
    "page title" of a URL outside hidden containers. *)
Theorem C65_panics : forall site df es, text_render site df es = None <-> exists e x, In e es /\ seen x e /\ unsayable x.
Proof.
  intros site df es. unfold text_render. pose proof (run_new site df es) as Hr. destruct (t_elements site df es (TX [] 0 [])) as [c|].
  - destruct Hr as (Hb & _). split; [discriminate|]. intros (e & x & He & Hs & Hu). exfalso. apply Hb. exists e. split; auto. exists x. auto.
  - split; auto. intros _. destruct Hr as (e & He & x & Hs & Hu). eauto.
Qed.
Print Assumptions C65_panics.
(** A page whose source has no double opening bracket can always be written as plain text. *)
Theorem C65_page_text : forall E toks t site df, parsed E toks t -> ~ substr (lit "[[") (en_text E) ->
  exists out, text_render site df (tr_elements t) = Some out.
Proof.
  intros E toks t site df [Ht Hp] Hn. destruct (text_render site df (tr_elements t)) as [out|] eqn:Er; [eauto|]. exfalso.
  apply C65_panics in Er as (e & x & He & Hs & Hu).
  assert (Hb : ~ has_block toks).
  { intros [X|X]; apply Hn; [eapply (token_in_text E toks Ht TLeftBlock); eauto; cbn; tauto|].
    apply (substr_prefix _ (lit "*")). eapply (token_in_text E toks Ht TLeftBlockStar); eauto. cbn. tauto. }
  assert (Hl : ~ has_link toks).
  { intros [X|X]; apply Hn.
    - apply (substr_prefix _ (lit "[")). eapply (token_in_text E toks Ht TLeftLink); eauto. cbn. tauto.
    - apply (substr_prefix _ (lit "[*")). eapply (token_in_text E toks Ht TLeftLinkStar); eauto. cbn. tauto. }
  assert (Ha : exists anc, at_path (tr_elements t) anc x).
  { revert He. generalize (tr_elements t). induction Hs as [|e y Hh Hy Hs IH]; intros es He; [exists []; exact He|].
    destruct (IH (children e) Hy) as [anc Ha]. exists (e :: anc). split; auto. }
  destruct Ha as [anc Ha]. pose proof (page_elements E toks Ht t Hp) as H. destruct (okE_path E toks _ _ _ anc _ _ _ H Ha) as [H1 H2].
  destruct x; try contradiction.
  - destruct link; [contradiction|]. destruct label; try contradiction. destruct H1 as [_ [H1|(_ & H1 & _)]]; [exact (Hl H1)|congruence].
  - destruct (H2 p eq_refl) as [_ H3]. contradiction.
Qed.
Print Assumptions C65_page_text.
(** In an invisible container everything turns into spaces: false for references to equations. *)
Theorem C65_invisible_refuted : exists E toks t site df out, parsed E toks t /\ text_render site df (tr_elements t) = Some out /\
  one_line out <> one_line (flat_map (said site df [] false) (tr_elements t)).
Proof.
  enough (X : exists toks t, parsed (test_env (lit "a[[invisible]]b[[eref x]][[/invisible]]d")) toks t /\
    text_render (lit "s") (fun _ => None) (tr_elements t) = Some (lit "a [x]d") /\ flat_map (said (lit "s") (fun _ => None) [] false) (tr_elements t) = lit "a    d").
  { destruct X as (toks & t & Hp & Ho & Hs). do 6 eexists. split; [exact Hp|]. split; [exact Ho|]. rewrite Hs. discriminate. }
  page (lit "a[[invisible]]b[[eref x]][[/invisible]]d").
Qed.
Print Assumptions C65_invisible_refuted.
(** A page with many kinds of elements. *)
Definition text_sample : str := lit "+ Title
a **b** [[hidden]]secret[[/hidden]] [[invisible]]xyz[[/invisible]]
* one
* two [[[page|link]]]
||c||d||

: k : v".
Example C65_case : exists toks t out, parsed (test_env text_sample) toks t /\ text_render (lit "s") (fun _ => None) (tr_elements t) = Some out /\
  none_covered (tr_elements t) /\ one_line out = lit "Titlea b     onetwo linkcdk v".
Proof.
  enough (X : exists toks t, parsed (test_env text_sample) toks t /\ text_render (lit "s") (fun _ => None) (tr_elements t) = Some (lit "Title

a b     
one
two link
cd

k v") /\ forallb (fun x => match x with EDate _ _ _ | EEquationReference _ => false | _ => true end) (flat_map flat (tr_elements t)) = true).
  { destruct X as (toks & t & Hp & Ho & Hn). exists toks, t. eexists. split; [exact Hp|]. split; [exact Ho|]. split; [|vm_compute; reflexivity].
    intros e a i x y He Hs Hx Hy Hst. assert (Hf : In y (flat_map flat (tr_elements t))).
    { assert (Hfl : forall u v, seen u v -> In u (flat v)).
      { induction 1 as [|v w Hh Hw _ IH]; rewrite flat_eq; [left; auto|right]. apply in_flat_map. eauto. }
      assert (Hse : seen y e).
      { clear - Hs Hx Hy. remember (EContainer CInvisible a i) as c eqn:Ec. induction Hs as [|v w Hh Hw _ IH]; [subst c; eapply seen_in; eauto; reflexivity|]. eapply seen_in; eauto. }
      apply in_flat_map. eauto. }
    rewrite forallb_forall in Hn. specialize (Hn y Hf). destruct y; try contradiction; discriminate. }
  page text_sample.
Qed.
