(** RenderView.v -- what a browser reads of a rendered page. *)
From Verif Require Import Base BaseLemmas Strings StringsLemmas Links SpecLinks LinksLemmas Attr SpecAttr AttrLemmas Html SpecHtml HtmlLemmas Preproc Includes Lexer Depth Tree Text Toc PState Blocks Rules Parse
  SpecParse SpecPage ParseInv TreeLemmas ParseLemmas ParseTestEnv PropParse PropPage
  Render SpecReader SpecRender RenderLemmas RenderSafe RenderDom RenderEnds RenderNames RenderTestEnv PropRender.

(** *** Token lists *)
Lemma nested_app a b : nested a -> nested b -> nested (a ++ b).
Proof.
  induction 1; intro Hb; cbn [app]; auto.
  - apply ne_char; auto.
  - apply ne_void; auto.
  - rewrite <- app_assoc. cbn [app]. apply ne_pair; auto.
Qed.
Lemma nested_chars s : nested (chars s).
Proof. induction s; constructor; auto. Qed.
Definition script_closed (ts : list htoken) : Prop :=
  forall a attrs b, ts = a ++ TkOpen (lit "script") attrs :: b -> exists b', b = TkClose (lit "script") :: b'.
Lemma app_split {A} (x y a : list A) e b : x ++ y = a ++ e :: b ->
  (exists b1, x = a ++ e :: b1 /\ b = b1 ++ y) \/ (exists a1, a = x ++ a1 /\ y = a1 ++ e :: b).
Proof.
  revert a. induction x as [|c x IH]; intros a H.
  - right. exists a. auto.
  - destruct a as [|d a]; cbn in H; injection H as -> H.
    + left. exists x. auto.
    + destruct (IH a H) as [(b1 & -> & ->)|(a1 & -> & ->)]; [left; exists b1; auto|right; exists a1; auto].
Qed.
Lemma closed_app x y : script_closed x -> script_closed y -> script_closed (x ++ y).
Proof.
  intros Hx Hy a attrs b H. apply app_split in H as [(b1 & -> & ->)|(a1 & -> & ->)].
  - destruct (Hx _ _ _ eq_refl) as [b' ->]. exists (b' ++ y). auto.
  - eapply Hy. reflexivity.
Qed.
Lemma closed_none x : (forall attrs, ~ In (TkOpen (lit "script") attrs) x) -> script_closed x.
Proof. intros H a attrs b ->. exfalso. apply (H attrs). apply in_or_app. right. left. auto. Qed.
Lemma open_chars tag attrs s : ~ In (TkOpen tag attrs) (chars s).
Proof. unfold chars. rewrite in_map_iff. intros (c & H & _). discriminate. Qed.
Lemma dom_tokens_concat ds : flat_map dom_tokens ds = concat (map dom_tokens ds).
Proof. apply flat_map_concat_map. Qed.

(** *** Names *)
Definition attr_nameb (k : str) : bool := negb (seqb k []) && forallb (fun c => negb (is_ws c) && negb (cmem c [47; 61; 62; 60; 34; 39; 0; 38]%N)) k.
Lemma attr_nameb_ok k : attr_nameb k = true -> attr_name k /\ ~ In 38%N k.
Proof.
  unfold attr_nameb. intro H. apply andb_true_iff in H as [H1 H2]. rewrite forallb_forall in H2.
  assert (H3 : forall c, In c k -> is_ws c = false /\ ~ In c [47; 61; 62; 60; 34; 39; 0; 38]%N).
  { intros c Hc. apply H2 in Hc. apply andb_true_iff in Hc as [Ha Hb]. apply negb_true_iff in Ha, Hb. split; auto.
    intro X. apply cmem_In in X. congruence. }
  split; [split|].
  - intros ->. discriminate.
  - apply Forall_forall. intros c Hc. destruct (H3 c Hc) as [Ha Hb]. split; auto. intro X. apply Hb. cbn in *. tauto.
  - intro Hc. destruct (H3 _ Hc) as [_ Hb]. apply Hb. cbn. tauto.
Qed.
Lemma own_name R t tag k v : own_attr R t tag k v -> attr_name k /\ ~ In 38%N k.
Proof.
  assert (X : forallb attr_nameb (plain_names ++ active_names) = true) by (vm_compute; reflexivity). rewrite forallb_forall in X.
  intro H. apply attr_nameb_ok, X. apply in_or_app. destruct H; auto; right; cbn; tauto.
Qed.
Definition proper_tagb (k : str) : bool := forallb (fun c => is_alnum c || ceqb c 45) k && match k with [] => false | c :: _ => is_alpha c end.
Lemma proper_tagb_ok k : proper_tagb k = true -> proper_tag k.
Proof.
  unfold proper_tagb. intro H. apply andb_true_iff in H as [H1 H2]. rewrite forallb_forall in H1. destruct k as [|c k]; [discriminate|]. split; eauto.
  split; [discriminate|]. apply Forall_forall. intros d Hd. apply H1, orb_true_iff in Hd as [Hd|Hd]; auto. right. apply N.eqb_eq. exact Hd.
Qed.
Lemma our_tag tag : In tag our_tags -> proper_tag tag.
Proof.
  assert (X : forallb proper_tagb our_tags = true) by (vm_compute; reflexivity). rewrite forallb_forall in X.
  intro H. apply proper_tagb_ok, X, H.
Qed.
Lemma plain_complete s : Forall (fun c => ~ In c [60; 62; 38; 34; 39; 0]%N) s -> hrun SData s = (SData, chars s).
Proof.
  induction 1 as [|c s Hc _ IH]; [reflexivity|]. change (c :: s) with ([c] ++ s). unfold chars. cbn [app map]. change (TkChar c :: map TkChar s) with ([TkChar c] ++ chars s).
  eapply hrun_cons; [|exact IH]. unfold hstep, in_data.
  rewrite (ceqb_out c _ 60%N Hc), (ceqb_out c _ 38%N Hc); cbn; auto.
Qed.

Section View.
Variables (E : env) (toks : list xtoken) (t : tree) (R : renv).
Hypothesis Hp : parsed E toks t.

Lemma here_cases x : here t x -> on_page t x \/ toc_element x.
Proof. intros [H|H]; auto. right. eapply page_toc; eauto. Qed.
Lemma toc_map x m : toc_element x -> In m (attrs_of x) -> m = [].
Proof.
  intros [(its & -> & Hb)|(u & nm & ->)] H; cbn in H; [|contradiction]. destruct H as [<-|H]; auto.
  apply in_flat_map in H as ([b es|y] & Hi & H); cbn in H; [|contradiction]. destruct H as [<-|[]]. eauto.
Qed.
Lemma map_distinct x m : here t x -> In m (attrs_of x) -> NoDup (map fst m).
Proof.
  intros Hx Hm. destruct (here_cases x Hx) as [Ho|Ho].
  - exact (proj1 (C49_attributes_safe E toks t x m [] [] Hp Ho Hm)).
  - rewrite (toc_map x m Ho Hm). constructor.
Qed.
Lemma filter_entries_in a k p : In (k, p) (filter_entries a) -> exists b, In ((k, p), b) (ad_entries a).
Proof.
  unfold filter_entries. intro H. apply in_map_iff in H as ([[k' p'] b] & Heq & H). cbn in Heq. injection Heq as -> ->.
  apply filter_In in H as [H _]. eauto.
Qed.
Lemma filter_entries_nodup a : NoDup (map (fun e => fst (fst e)) (ad_entries a)) -> NoDup (map fst (filter_entries a)).
Proof.
  unfold filter_entries. generalize (ad_entries a) as l. induction l as [|[[k p] b] l IH]; intro H; [constructor|].
  cbn in H. inversion H; subst. cbn. destruct b; cbn; auto. constructor; auto. intro X. apply H2.
  rewrite map_map in X. apply in_map_iff in X as (e & He & X). apply filter_In in X as [X _]. apply in_map_iff. eauto.
Qed.
Lemma pairs_source tag a : legit_added R t tag a ->
  NoDup (map fst (attr_pairs a)) /\ Forall (fun kv => attr_source R t tag (fst kv) (snd kv)) (attr_pairs a).
Proof.
  intros (H1 & H2 & H3). assert (Hm : NoDup (map fst (match ad_map a with Some m => m | None => [] end))).
  { destruct (ad_map a) as [m|]; [|constructor]. destruct H3 as [(x & Hx & Hxm) _]. eapply map_distinct; eauto. }
  rewrite Forall_forall in H2. split; [apply attr_pairs_NoDup; auto; apply filter_entries_nodup; auto|].
  assert (Hmap : forall k v, In (k, v) (match ad_map a with Some m => m | None => [] end) ->
    exists x m, on_page t x /\ In m (attrs_of x) /\ In (k, v) m).
  { intros k v Hkv. destruct (ad_map a) as [m|]; [|destruct Hkv]. destruct H3 as [(x & Hx & Hxm) _]. destruct (here_cases x Hx) as [Ho|Ho]; [eauto 6|].
    rewrite (toc_map x m Ho Hxm) in Hkv. destruct Hkv. }
  apply Forall_forall. intros [k v] Hkv. apply attr_pairs_In in Hkv; [|exact Hm]. cbn [fst snd].
  destruct Hkv as [(p & u & Hk & Hu & ->)|[(p & Hk & _ & ->)|[Hk _]]].
  - apply filter_entries_in in Hk as [b Hk]. destruct (Hmap k u Hu) as (x & m & Hx & Hxm & Hkm). eapply as_both; eauto. exact (H2 _ Hk).
    intros ->. destruct (ad_map a) as [m'|]; [|destruct Hu]. destruct H3 as [_ H3]. rewrite forallb_forall in H3. specialize (H3 _ Hk). discriminate.
  - apply filter_entries_in in Hk as [b Hk]. apply as_own. exact (H2 _ Hk).
  - destruct (Hmap k v Hk) as (x & m & Hx & Hxm & Hkm). eapply as_user; eauto.
Qed.
Hypothesis Hn : proper_names t.
Hypothesis Hc : css_contained R t.
Hypothesis Hm : mathml_contained R.
Lemma source_name tag k v : attr_source R t tag k v -> attr_name k /\ ~ In 38%N k.
Proof. destruct 1; [eapply own_name; eauto|eapply Hn; eauto|eapply own_name; eauto]. Qed.
Lemma added_pairs tag attrs : In tag our_tags -> attrs = [] \/ (exists a, attrs = [a] /\ legit_added R t tag a) ->
  NoDup (map fst (flat_map attr_pairs attrs)) /\ Forall (fun kv => attr_source R t tag (fst kv) (snd kv)) (flat_map attr_pairs attrs).
Proof.
  intros _ [->|(a & -> & Ha)]; [split; constructor|]. cbn [flat_map]. rewrite app_nil_r. apply pairs_source. auto.
Qed.
Lemma view_node n : legit R t n ->
  readable (dom_of n) /\ nested (dom_tokens (dom_of n)) /\ (forall tag attrs, In (TkOpen tag attrs) (dom_tokens (dom_of n)) -> known_tag R t tag attrs) /\
  ((forall out attrs, mathml_output R out -> ~ In (TkOpen (lit "script") attrs) (html_tokens out)) -> script_closed (dom_tokens (dom_of n))).
Proof.
  assert (Hsrc : forall attrs tag, Forall (fun kv => attr_source R t tag (fst kv) (snd kv)) attrs -> proper_attrs attrs).
  { intros attrs tag H. eapply Forall_impl; [|exact H]. intros kv Hkv. exact (source_name tag _ _ Hkv). }
  induction n as [s|s|tg a|tg a ns IH] using node_ind'; intro Hl.
  - cbn [dom_of dom_tokens]. conj.
    + constructor.
    + apply nested_chars.
    + intros tag attrs H. apply open_chars in H. contradiction.
    + intros _. apply closed_none. intros attrs. apply open_chars.
  - assert (Hl' : Forall (fun c => ~ In c [60; 62; 38; 34; 39; 0]%N) s \/ exists m, s = lit "<p>TODO: module " ++ module_name m ++ lit "</p>") by (inversion Hl; [left; assumption|right; eexists; reflexivity]).
    cbn [dom_of dom_tokens]. destruct Hl' as [H0|[m ->]].
    + assert (Hs := plain_complete s H0). unfold html_tokens. rewrite Hs. cbn [snd]. conj.
      * constructor. unfold complete. rewrite Hs. auto.
      * apply nested_chars.
      * intros tag attrs H. apply open_chars in H. contradiction.
      * intros _. apply closed_none. intros attrs. apply open_chars.
    + assert (Hs : hrun SData (lit "<p>TODO: module " ++ module_name m ++ lit "</p>") =
        (SData, TkOpen (lit "p") [] :: chars (lit "TODO: module " ++ module_name m) ++ [TkClose (lit "p")])) by (destruct m; vm_compute; reflexivity).
      unfold html_tokens. rewrite Hs. cbn [snd]. conj.
      * constructor. unfold complete. rewrite Hs. auto.
      * apply ne_pair; [|apply nested_chars|constructor]. cbn. intuition discriminate.
      * intros tag attrs [H|H]; [|apply in_app_or in H as [H|[H|[]]]; [apply open_chars in H; contradiction|discriminate]].
        injection H as <- <-. apply kt_tag; [|constructor|constructor]. apply smem_In. reflexivity.
      * intros _. apply closed_none. intros attrs [H|H]; [discriminate|].
        apply in_app_or in H as [H|[H|[]]]; [apply open_chars in H; contradiction|discriminate].
  - inversion Hl; subst; cbn [dom_of dom_tokens].
    + assert (Ea : flat_map attr_pairs (own [en "src" [embed_src e]]) = [(lit "src", embed_src e)]) by (cbn; rewrite !app_nil_r; reflexivity).
      rewrite Ea. clear Ea.
      change (smem (lit "script") raw_tags) with true. change (smem (lit "script") void_tags) with false. cbn iota.
      cbn [map fst snd flat_map app].
      assert (Ho : on_page t (EEmbed e)) by (match goal with H : here t _ |- _ => destruct (here_cases _ H) as [Ho|[(its & Ho & _)|(u & nm & Ho)]]; [exact Ho|discriminate|discriminate] end).
      conj.
      * apply rd_rawtext; [apply smem_In; reflexivity| |auto]. constructor; [|constructor]. apply attr_nameb_ok. reflexivity.
      * change (nested (TkOpen (lit "script") [(lit "src", shown (embed_src e))] :: [] ++ TkClose (lit "script") :: [])). apply ne_pair; [|constructor|constructor].
        intro X. apply smem_In in X. discriminate.
      * intros tag attrs [H|[H|[]]]; [|discriminate]. injection H as <- <-. apply kt_script; auto.
      * intros _ [|x [|y z]] attrs b H; cbn in H; try discriminate; injection H; intros; subst; eauto; try discriminate. destruct z; discriminate.
    + match goal with H : In tg our_tags, H' : a = [] \/ _ |- _ => rename H into Ht; rename H' into Hadd end.
      destruct (added_pairs tg a Ht Hadd) as [Hd Hs]. set (ps := flat_map attr_pairs a) in *.
      assert (Hin : forall tag attrs, In (TkOpen tag attrs) (TkOpen tg (map (fun kv => (fst kv, shown (snd kv))) ps) :: (if smem tg raw_tags then [] else []) ++ (if smem tg void_tags then [] else [TkClose tg])) ->
        tag = tg /\ attrs = map (fun kv => (fst kv, shown (snd kv))) ps).
      { intros tag attrs [H|H]; [injection H as <- <-; auto|]. destruct (smem tg raw_tags), (smem tg void_tags); cbn in H; intuition discriminate. }
      cbn [flat_map]. conj.
      * destruct (smem tg raw_tags) eqn:Er.
        { apply rd_rawtext; [apply smem_In; auto| |auto]. eapply Hsrc; eauto. }
        apply rd_tag; [apply our_tag; auto| |eapply Hsrc; eauto|constructor]. intro X. apply smem_In in X. congruence.
      * destruct (smem tg void_tags) eqn:Ev.
        { destruct (smem tg raw_tags); cbn [app]; (apply ne_void; [apply smem_In; auto|constructor]). }
        replace ((if smem tg raw_tags then [] else []) ++ [TkClose tg]) with (@nil htoken ++ TkClose tg :: []) by (destruct (smem tg raw_tags); reflexivity).
        apply ne_pair; [|constructor|constructor]. intro X. apply smem_In in X. congruence.
      * intros tag attrs H. apply Hin in H as [-> ->]. apply kt_tag; auto.
        { rewrite map_map. exact Hd. }
        apply Forall_map. eapply Forall_impl; [|exact Hs]. intros [k v] Hkv. cbn [fst snd] in *. eauto.
      * intros _. apply closed_none. intros attrs H. apply Hin in H as [<- _]. apply smem_In in Ht. discriminate.
  - inversion Hl; subst; cbn [dom_of dom_tokens].
    + (* style *) cbn [flat_map map dom_of]. change (smem (lit "style") raw_tags) with true. change (smem (lit "style") void_tags) with false. cbn iota. rewrite app_nil_r.
      assert (Ho : on_page t (EStyle src)) by (match goal with H : here t _ |- _ => destruct (here_cases _ H) as [Ho|[(its & Ho & _)|(u & nm & Ho)]]; [exact Ho|discriminate|discriminate] end).
      conj.
      * apply rd_rawtext; [apply smem_In; reflexivity|constructor|]. right. exists out. split; auto. eapply Hc; eauto.
      * apply ne_pair; [|apply nested_chars|constructor]. intro X. apply smem_In in X. discriminate.
      * intros tag attrs [H|H]; [|apply in_app_or in H as [H|[H|[]]]; [apply open_chars in H; contradiction|discriminate]].
        injection H as <- <-. eapply kt_style; eauto.
      * intros _. apply closed_none. intros attrs [H|H]; [discriminate|].
        apply in_app_or in H as [H|[H|[]]]; [apply open_chars in H; contradiction|discriminate].
    + (* mathml *) change (flat_map attr_pairs (cls "wj-math-ml")) with [(lit "class", lit "wj-math-ml")]. cbn [flat_map map dom_of]. repeat match goal with |- context [smem ?x raw_tags] => change (smem x raw_tags) with false | |- context [smem ?x void_tags] => change (smem x void_tags) with false end. cbn iota.
      rewrite app_nil_r. cbn [map fst snd dom_tokens].
      assert (Ho : mathml_output R out) by (exists f, b, src; auto). destruct (Hm out Ho) as [Hc1 Hc2].
      conj.
      * apply rd_tag; [apply proper_tagb_ok; reflexivity| | |].
        { intro X. apply smem_In in X. discriminate. }
        { constructor; [|constructor]. apply attr_nameb_ok. reflexivity. }
        constructor; [|constructor]. constructor. exact Hc1.
      * apply ne_pair; [|exact Hc2|constructor]. intro X. apply smem_In in X. discriminate.
      * intros tag attrs [H|H].
        { injection H as <- <-. apply kt_math. congruence. }
        apply in_app_or in H as [H|[H|[]]]; [|discriminate]. eapply kt_mathml; eauto.
      * intro Hs. apply closed_none. intros attrs [H|H]; [discriminate|].
        apply in_app_or in H as [H|[H|[]]]; [|discriminate]. exact (Hs out attrs Ho H).
    + match goal with H : In tg our_tags, H' : a = [] \/ _ |- _ => rename H into Ht; rename H' into Hadd end.
      destruct (added_pairs tg a Ht Hadd) as [Hd Hs]. set (ps := flat_map attr_pairs a) in *.
      assert (Hnv : ~ In tg (void_tags ++ raw_tags)) by (intro X; match goal with H : In tg _ -> Some _ = None |- _ => apply H in X; discriminate end).
      assert (Ev : smem tg void_tags = false) by (apply not_true_iff_false; intro X; apply Hnv, in_or_app; left; apply smem_In; auto).
      assert (Er : smem tg raw_tags = false) by (apply not_true_iff_false; intro X; apply Hnv, in_or_app; right; apply smem_In; auto).
      clear H4. pose proof (H5 _ eq_refl) as H4. rewrite Forall_forall in IH, H4.
      assert (IH' : forall n, In n ns -> readable (dom_of n) /\ nested (dom_tokens (dom_of n)) /\ (forall tag attrs, In (TkOpen tag attrs) (dom_tokens (dom_of n)) -> known_tag R t tag attrs) /\
  ((forall out attrs, mathml_output R out -> ~ In (TkOpen (lit "script") attrs) (html_tokens out)) -> script_closed (dom_tokens (dom_of n)))) by (intros n Hnn; apply IH; auto).
      clear IH H4. rewrite Er, Ev. conj.
      * apply rd_tag; [apply our_tag; auto| |eapply Hsrc; eauto|].
        { intro X. apply smem_In in X. congruence. }
        apply Forall_map, Forall_forall. intros n Hnn. apply IH'; auto.
      * apply ne_pair; [intro X; apply smem_In in X; congruence| |constructor]. clear - IH'.
        induction ns as [|n ns IHn]; [constructor|]. cbn [map flat_map]. apply nested_app; [apply IH'; left; auto|]. apply IHn. intros n' Hn'. apply IH'. right. auto.
      * intros tag attrs [H|H].
        { injection H as <- <-. apply kt_tag; auto.
          - rewrite map_map. exact Hd.
          - apply Forall_map. eapply Forall_impl; [|exact Hs]. intros [k v] Hkv. cbn [fst snd] in *. eauto. }
        apply in_app_or in H as [H|[H|[]]]; [|discriminate]. apply in_flat_map in H as (d & Hdd & H). apply in_map_iff in Hdd as (n & <- & Hnn).
        apply (IH' n Hnn). exact H.
      * intro Hms. change (script_closed ([TkOpen tg (map (fun kv => (fst kv, shown (snd kv))) ps)] ++ flat_map dom_tokens (map dom_of ns) ++ [TkClose tg])).
        apply closed_app; [|apply closed_app].
        { apply closed_none. intros attrs [H|[]]. injection H as -> _. apply smem_In in Ht. discriminate. }
        { clear - IH' Hms. induction ns as [|n ns IHn]; [apply closed_none; intros ? []|]. cbn [map flat_map]. apply closed_app; [apply IH'; auto; left; auto|]. apply IHn. intros n' Hn'. apply IH'. right. auto. }
        apply closed_none. intros attrs [H|[]]. discriminate.
Qed.
Lemma page_makes n : forall L, In L (tr_toc t :: page_lists t) -> makes R t (h_ref R (tr_toc t) (tr_footnotes t) (tr_bibs t) n L).
Proof.
  intro L. revert L. induction n as [|n IH]; intros L HL; [intros c ns c' X; discriminate|]. cbn [h_ref]. apply makes_elements.
  - intros x Hx L' HL'. apply IH. apply referenced_in in HL' as [[-> _]|HL']; [left; auto|]. right. right. exact HL'.
  - intros x Hx. destruct HL as [<-|HL]; [right; auto|]. left. exists L. auto.
Qed.
Theorem view_page n body i e : html_render R n t = Html body i e ->
  exists d, readable d /\ body = dom_text d /\ hrun SData body = (SData, dom_tokens d) /\ nested (dom_tokens d) /\
  (forall tag attrs, In (TkOpen tag attrs) (dom_tokens d) -> known_tag R t tag attrs) /\
  ((forall out attrs, mathml_output R out -> ~ In (TkOpen (lit "script") attrs) (html_tokens out)) -> script_closed (dom_tokens d)).
Proof.
  unfold html_render. destruct (body_nodes R n t hctx_new) as [ns c|w|] eqn:Eb; try discriminate. rewrite write_nodes_dom. cbn [app].
  intros [= <- _ _]. unfold body_nodes in Eb.
  assert (HB : exists ns', ns = [NTag (lit "wj-body") (cls "wj-body") (Some ns')]).
  { unfold tag_with in Eb. destruct (re_debug R && _); [discriminate|]. unfold Render.bind in Eb. destruct (h_ref _ _ _ _ _ _ _); try discriminate.
    injection Eb as <- _. eauto. }
  assert (HL : Forall (legit R t) ns).
  { eapply (makes_tag R t "wj-body"); [| | | |exact Eb]; try reflexivity.
    - right. eexists. split; [reflexivity|]. unfold legit_added. cbn. conj; auto. { repeat constructor. auto. } constructor; [|constructor]. apply oa_plain. cbn. auto.
    - apply page_makes. right. left. auto. }
  destruct HB as [ns' ->]. inversion HL; subst. apply view_node in H1 as (H3 & H4 & H5 & H6). cbn [map flat_map]. rewrite app_nil_r.
  eexists. split; [exact H3|]. split; [reflexivity|]. split; [apply read_dom; exact H3|]. auto.
Qed.
End View.
