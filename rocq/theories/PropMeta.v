(** PropMeta.v -- C63: the meta tags of a page. *)
From Verif Require Import Base BaseLemmas Strings Html SpecHtml HtmlLemmas Tree Render SpecReader SpecRender ParseInv RenderDom.

(** The start tag a browser should find. *)
Definition meta_tag (m : html_meta) : htoken :=
  TkOpen (lit "meta")
    [ (lit (match me_type m with MetaName => "name" | MetaHttpEquiv => "http-equiv" | MetaProperty => "property" end), shown (me_name m));
      (lit "content", shown (me_value m)) ].
(** Whatever the name and the value are, writing the tag adds to the buffer a text that reads as
    exactly this one tag. *)
Theorem C63_meta_reads_back : forall m buf, exists s,
  meta_render m buf = buf ++ s /\ complete s /\ html_tokens s = [meta_tag m].
Proof.
  intros m buf. exists (meta_render m []). split; [|].
  { unfold meta_render. cbn [app]. rewrite <- !app_assoc. reflexivity. }
  assert (H : hrun SData (meta_render m []) = (SData, [meta_tag m])).
  { unfold meta_render. cbn [app]. rewrite <- !app_assoc. unfold meta_tag. set (k := meta_tag_name (me_type m)).
    assert (Ek : lit (match me_type m with MetaName => "name" | MetaHttpEquiv => "http-equiv" | MetaProperty => "property" end) = k) by (destruct (me_type m); reflexivity).
    rewrite Ek. clear Ek.
    assert (Hs : hrun SData (lit "<meta " ++ k ++ [61%N; 34%N]) = (SValue 34 (lit "meta") [] k [], [])) by (unfold k; destruct (me_type m); vm_compute; reflexivity).
    rewrite (app_assoc k), (app_assoc (lit "<meta ")). eapply (hrun_seq _ _ _ _ [] _ [TkOpen _ _]); [exact Hs|].
    eapply (hrun_seq _ _ _ _ [] _ [TkOpen _ _]); [apply read_value|].
    assert (H2 : forall acc, hrun (SValue 34 (lit "meta") [] k acc) ([34%N] ++ lit " content=" ++ [34%N]) = (SValue 34 (lit "meta") [(k, rev acc)] (lit "content") [], [])) by (intro acc; vm_compute; reflexivity).
    match goal with |- hrun ?s ?x = ?r => replace x with (([34%N] ++ lit " content=" ++ [34%N]) ++ escape (me_value m) ++ [34%N] ++ lit " />") by (rewrite <- !app_assoc; reflexivity) end.
    eapply (hrun_seq _ _ _ _ [] _ [TkOpen _ _]); [apply H2|].
    eapply (hrun_seq _ _ _ _ [] _ [TkOpen _ _]); [apply read_value|].
    rewrite !app_nil_r, rev_involutive.
    assert (H3 : forall acc, hrun (SValue 34 (lit "meta") [(k, shown (me_name m))] (lit "content") acc) ([34%N] ++ lit " />") = (SData, [TkOpen (lit "meta") [(k, shown (me_name m)); (lit "content", rev acc)]])) by (intro acc; vm_compute; reflexivity).
    rewrite H3, rev_involutive. reflexivity. }
  unfold complete, html_tokens. rewrite H. auto.
Qed.
Print Assumptions C63_meta_reads_back.
(** The whole head: one tag for each entry, in order. *)
Theorem C63_head_reads_back : forall ms,
  html_tokens (fold_left (fun buf m => meta_render m buf) ms []) = map meta_tag ms.
Proof.
  intro ms. enough (X : forall buf ts, hrun SData buf = (SData, ts) ->
    hrun SData (fold_left (fun buf m => meta_render m buf) ms buf) = (SData, ts ++ map meta_tag ms)).
  { unfold html_tokens. rewrite (X [] [] eq_refl). reflexivity. }
  induction ms as [|m ms IH]; intros buf ts Hb; cbn [fold_left map]; [rewrite app_nil_r; auto|].
  change (ts ++ meta_tag m :: map meta_tag ms) with (ts ++ [meta_tag m] ++ map meta_tag ms). rewrite app_assoc. apply IH.
  destruct (C63_meta_reads_back m buf) as (s & -> & Hc & Ht). unfold complete, html_tokens in *. destruct (hrun SData s) as [st tk] eqn:Es.
  cbn [fst snd] in *. subst. eapply hrun_seq; eauto.
Qed.
Print Assumptions C63_head_reads_back.
(** The metadata of a page says its title, its alternative title and its tags, each unchanged. *)
Theorem C63_page_metadata : forall gen title alt tags, ~ In 0%N (title ++ match alt with Some a => a | None => [] end) ->
  In (TkOpen (lit "meta") [(lit "name", lit "description");
        (lit "content", match alt with Some a => title ++ lit " - " ++ a | None => title end)])
     (html_tokens (fold_left (fun buf m => meta_render m buf) (initial_metadata gen title alt tags) [])).
Proof.
  intros gen title alt tags Hn. rewrite C63_head_reads_back. unfold initial_metadata. cbn [map]. right. right. left. unfold meta_tag. cbn [me_type me_name me_value].
  assert (Hsh : forall s, ~ In 0%N s -> shown s = s).
  { unfold shown. induction s as [|c s IH]; intro H; [reflexivity|]. cbn [map]. rewrite IH by (intro; apply H; right; auto).
    rewrite ceqb_ne; auto. intros ->. apply H. left. auto. }
  f_equal. f_equal. f_equal. f_equal. rewrite Hsh; [destruct alt; [reflexivity|apply app_nil_r]|].
  intro X. apply in_app_or in X as [X|X]; [apply Hn, in_or_app; left; exact X|]. destruct alt as [a|]; [|destruct X].
  apply in_app_or in X as [X|X]; [cbn in X; decompose [or] X; try discriminate; contradiction|]. apply Hn, in_or_app. right. exact X.
Qed.
Print Assumptions C63_page_metadata.
Definition nasty : str := lit "A " ++ [34%N] ++ lit "><script>&lt;".
Example C63_case : html_tokens (fold_left (fun buf m => meta_render m buf) (initial_metadata (lit "g") nasty None [lit "a"; lit "b"]) []) =
  [ TkOpen (lit "meta") [(lit "http-equiv", lit "Content-Type"); (lit "content", lit "text/html")];
    TkOpen (lit "meta") [(lit "name", lit "generator"); (lit "content", lit "g")];
    TkOpen (lit "meta") [(lit "name", lit "description"); (lit "content", nasty)];
    TkOpen (lit "meta") [(lit "name", lit "keywords"); (lit "content", lit "a,b")] ].
Proof. vm_compute. reflexivity. Qed.
