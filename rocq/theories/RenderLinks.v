(** RenderLinks.v -- the links the HTML renderer writes and records. *)
From Verif Require Import Base BaseLemmas Strings StringsLemmas Links SpecLinks LinksLemmas Attr Html SpecHtml HtmlLemmas Tree Text Toc PState Parse
  SpecParse SpecPage ParseInv Render SpecReader SpecRender RenderLemmas RenderDom RenderNames SpecText SpecShown RenderWords RenderNumbers SpecBacklinks.

Section Links.
Variable R : renv.
Variable t : tree.
Hypothesis Hmath : mathml_linkless R.
(** The remembered answers are right. *)
Definition cache_ok (c : hctx) : Prop := Forall (fun rb => snd rb = page_there R (fst rb)) (hx_pages c).
Definition node_links (ns : list node) : list (str * str) := seen_links (node_tokens ns).
Lemma seen_app a b : seen_links (a ++ b) = seen_links a ++ seen_links b. Proof. apply flat_map_app. Qed.
Lemma seen_chars s : seen_links (chars s) = [].
Proof. induction s as [|c s IH]; [reflexivity|]. cbn. exact IH. Qed.
Lemma node_links_app a b : node_links (a ++ b) = node_links a ++ node_links b.
Proof. unfold node_links. rewrite node_tokens_app. apply seen_app. Qed.
(** [m] writes and records the links [ls], all of the page, at least [l], just [l] if [ok]. *)
Definition linked (ok : Prop) (m : M) (l : list element) : Prop := forall c ns c', cache_ok c -> m c = Done ns c' ->
  cache_ok c' /\ exists ls, Forall (fun x => here t x /\ exists ty lk ex lb tg, x = ELink ty lk ex lb tg) ls /\ node_links ns = map (link_view R) ls /\
    hx_internal c' = hx_internal c ++ flat_map link_pages ls /\ hx_external c' = hx_external c ++ flat_map link_addresses ls /\
    subseq l ls /\ (ok -> ls = l).
Variable ok : Prop.
(** No links at all. *)
Lemma k_none (m : M) : (forall c ns c', m c = Done ns c' -> node_links ns = [] /\ hx_internal c' = hx_internal c /\ hx_external c' = hx_external c /\ hx_pages c' = hx_pages c) ->
  linked ok m [].
Proof.
  intros H c ns c' Hc E. apply H in E as (E1 & E2 & E3 & E4). split; [unfold cache_ok; rewrite E4; exact Hc|]. exists []. rewrite E1, E2, E3. cbn. rewrite !app_nil_r.
  conj; auto. constructor.
Qed.
Lemma k_nil : linked ok (ret []) []. Proof. apply k_none. intros c ns c' [= <- <-]. auto. Qed.
Lemma k_text s : linked ok (text s) [].
Proof. apply k_none. intros c ns c' [= <- <-]. conj; auto. unfold node_links, node_tokens. cbn [map flat_map dom_of dom_tokens]. rewrite app_nil_r. apply seen_chars. Qed.
Lemma k_raw s : seen_links (html_tokens s) = [] -> linked ok (raw s) [].
Proof. intro H. apply k_none. intros c ns c' [= <- <-]. conj; auto. unfold node_links, node_tokens. cbn [map flat_map dom_of dom_tokens]. rewrite app_nil_r. exact H. Qed.
Lemma k_panic w l : linked ok (panic w) l. Proof. intros c ns c' _ H. discriminate. Qed.
Lemma k_seq m m' l l' : linked ok m l -> linked ok m' l' -> linked ok (m +++ m') (l ++ l').
Proof.
  intros H1 H2 c ns c' Hc H. apply seq2_inv in H as (a & c1 & b & E1 & E2 & ->).
  destruct (H1 _ _ _ Hc E1) as (Hc1 & l1 & A1 & A2 & A3 & A4 & A5 & A6). destruct (H2 _ _ _ Hc1 E2) as (Hc2 & l2 & B1 & B2 & B3 & B4 & B5 & B6).
  split; auto. exists (l1 ++ l2). rewrite node_links_app, map_app, !flat_map_app, A2, B2, B3, B4, A3, A4, <- !app_assoc. conj; auto.
  - apply Forall_app. auto.
  - apply ss_app; auto.
  - intro K. rewrite A6, B6; auto.
Qed.
Lemma k_eq m l l' : l = l' -> linked ok m l -> linked ok m l'. Proof. intros <-. auto. Qed.
Lemma k_tail m l : linked ok m (l ++ []) -> linked ok m l. Proof. rewrite app_nil_r. auto. Qed.
Lemma k_more m l l' : ~ ok -> subseq l' l -> linked ok m l -> linked ok m l'.
Proof.
  assert (T : forall (a b d : list element), subseq a b -> subseq b d -> subseq a d).
  { intros a b d Ha Hb. revert a Ha. induction Hb; intros a' Ha; auto; [inversion Ha; subst; constructor; auto|apply ss_skip; auto]. }
  intros Hk H Hm c ns c' Hc E. apply Hm in E as (A1 & ls & A2 & A3 & A4 & A5 & A6 & A7); auto. split; auto. exists ls. conj; auto; [eapply T; eauto|tauto].
Qed.
Lemma links_tag tg a ns : smem tg raw_tags = false ->
  node_links [NTag tg a (Some ns)] = seen_link (TkOpen tg (map (fun kv => (fst kv, shown (snd kv))) (flat_map attr_pairs a))) ++ node_links ns.
Proof.
  intro H. unfold node_links. rewrite node_tokens_tag by auto. unfold seen_links. cbn [flat_map]. rewrite flat_map_app. f_equal. destruct (smem tg void_tags); cbn; apply app_nil_r.
Qed.
Lemma k_open tg a m l : smem (lit tg) raw_tags = false -> seen_link (TkOpen (lit tg) (map (fun kv => (fst kv, shown (snd kv))) (flat_map attr_pairs a))) = [] ->
  linked ok m l -> linked ok (tag_with R tg a m) l.
Proof. intros Ht Ho Hm c ns c' Hc H. apply tag_with_inv in H as (b & H & ->). rewrite links_tag, Ho by auto. exact (Hm _ _ _ Hc H). Qed.
Lemma not_a tg attrs : seqb tg (lit "a") = false -> seen_link (TkOpen tg attrs) = [].
Proof. intro H. unfold seen_link. rewrite H. reflexivity. Qed.
Lemma k_tag tg a m l : smem (lit tg) (lit "a" :: raw_tags) = false -> linked ok m l -> linked ok (tag_with R tg a m) l.
Proof.
  intros Ht Hm. unfold smem in Ht. cbn [existsb] in Ht. apply orb_false_iff in Ht as [H1 H2]. apply k_open; auto. apply not_a.
  apply not_true_iff_false. intro X. apply seqb_eq in X. rewrite X, seqb_refl in H1. discriminate.
Qed.
Lemma k_leaf_open tg a : seen_link (TkOpen (lit tg) (map (fun kv => (fst kv, shown (snd kv))) (flat_map attr_pairs a))) = [] -> linked ok (tag_empty R tg a) [].
Proof.
  intro Ht. apply k_none. intros c ns c' H. unfold tag_empty in H. destruct (re_debug R && _); [discriminate|]. injection H as <- <-. conj; auto.
  unfold node_links, node_tokens. cbn [map flat_map dom_of dom_tokens]. rewrite app_nil_r. unfold seen_links.
  match goal with |- flat_map ?f (?x :: ?y) = [] => change (f x ++ flat_map f y = []) end. rewrite Ht.
  destruct (smem (lit tg) raw_tags), (smem (lit tg) void_tags); reflexivity.
Qed.
Lemma k_leaf tg a : seqb (lit tg) (lit "a") = false -> linked ok (tag_empty R tg a) [].
Proof. intro H. apply k_leaf_open, not_a, H. Qed.
Lemma k_concat {A} (f : A -> M) g l : (forall x, In x l -> linked ok (f x) (g x)) -> linked ok (concatM (map f l)) (flat_map g l).
Proof.
  induction l as [|x l IH]; intro H; [apply k_nil|]. cbn [map concatM fold_right flat_map]. apply k_seq; [apply H; left; auto|].
  apply IH. intros y Hy. apply H. right. auto.
Qed.
Lemma k_in (k : hctx -> M) (f : hctx -> hctx) l :
  (forall c, hx_internal (f c) = hx_internal c /\ hx_external (f c) = hx_external c /\ hx_pages (f c) = hx_pages c) -> (forall c, linked ok (k c) l) -> linked ok (fun c => k c (f c)) l.
Proof.
  intros Hf H c ns c' Hc E. destruct (Hf c) as (F1 & F2 & F3). rewrite <- F1, <- F2. apply (H c) in E; auto. unfold cache_ok. rewrite F3. exact Hc.
Qed.
Lemma k_include v m l : linked ok m l -> linked ok (render_include v m) l.
Proof.
  intros H c ns c' Hc. unfold render_include. destruct (m (set_scopes c (v :: hx_scopes c))) as [a c1|w|] eqn:E; try discriminate.
  apply H in E; [|exact Hc]. destruct (hx_scopes c1); [discriminate|]. intros [= <- <-]. exact E.
Qed.
Ltac sw := repeat first [apply k_text | apply k_nil | apply k_leaf; reflexivity | apply k_panic | apply k_tag; [reflexivity|] | apply (k_seq _ _ [] [])].
Lemma k_sprite id : linked ok (sprite R id) [].
Proof. unfold sprite. sw. Qed.
Lemma k_container ty a m l : linked ok m l -> linked ok (render_container R ty a m) l.
Proof.
  intros Hm.
  assert (Hi : linked ok (render_container_internal R ty a m) l).
  { intros c ns c' Hc. unfold render_container_internal. destruct (container_tag ty c) as [spec c1] eqn:Et.
    assert (Ht : smem (lit (html_tag_name spec)) (lit "a" :: raw_tags) = false /\ cache_ok c1 /\ hx_internal c1 = hx_internal c /\ hx_external c1 = hx_external c).
    { destruct ty; cbn [container_tag] in Et; try (injection Et as <- <-; conj; auto; reflexivity).
      destruct (hd_has_toc h); injection Et as <- <-; (conj; auto); cbn [html_tag_name]; unfold heading_tag;
        destruct (hd_level h) as [|[|[|[|[|[|]]]]]]; reflexivity. }
    destruct Ht as (Ht & Hc1 & Ei & Ee). rewrite <- Ei, <- Ee. destruct spec as [tg|tg cl|tg id]; cbn [html_tag_name] in Ht.
    - intro E. exact (k_tag tg _ m l Ht Hm _ _ _ Hc1 E).
    - intro E. exact (k_tag tg _ m l Ht Hm _ _ _ Hc1 E).
    - destruct (re_true_ids R); intro E; [exact (k_tag tg _ m l Ht Hm _ _ _ Hc1 E)|]. refine (k_tag tg _ m l Ht Hm _ _ _ _ E). exact Hc1. }
  destruct ty; cbn [render_container]; auto.
  apply (k_seq _ _ [] l); [sw|]. apply k_tail, (k_seq _ _ l []); [exact Hi|sw].
Qed.
Lemma k_tabs {A} (lab : A -> str) (f : A -> M) g (l : list A) : (forall x, In x l -> linked ok (f x) (g x)) ->
  linked ok (render_tabview R (map (fun x => (lab x, f x)) l)) (flat_map g l).
Proof.
  intro H. unfold render_tabview.
  refine (k_in (fun c => tag_with R "wj-tabs" _ (_ +++ _)) (fun c => set_random c (hx_random c + length (map (fun x => (lab x, f x)) l) + length (map (fun x => (lab x, f x)) l))) _ _ _); [intro c; conj; reflexivity|].
  intro c.
  generalize (map (re_random R) (seq (hx_random c) (length (map (fun x => (lab x, f x)) l)))) as bs.
  generalize (map (re_random R) (seq (hx_random c + length (map (fun x => (lab x, f x)) l)) (length (map (fun x => (lab x, f x)) l)))) as ts. intros ts bs.
  apply k_tag; [reflexivity|]. apply (k_seq _ _ []); (apply k_tag; [reflexivity|]).
  - generalize 0 as i. clear H. revert bs ts. induction l as [|x l IH]; intros bs ts i; [apply k_nil|].
    cbn [tab_buttons map]. destruct bs, ts; try apply k_panic. destruct (Nat.eqb i 0); (apply (k_seq _ _ [] []); [sw|apply IH]).
  - generalize 0 as i. revert bs ts. induction l as [|x l IH]; intros bs ts i; [apply k_nil|].
    cbn [tab_panels map]. destruct bs, ts; try apply k_panic. cbn [flat_map]. apply k_seq.
    + apply k_tag; [reflexivity|]. apply H. left. auto.
    + apply IH. intros y Hy. apply H. right. auto.
Qed.
Lemma k_defs {A} (k w : A -> M) gk gw (l : list A) : (forall x, In x l -> linked ok (k x) (gk x) /\ linked ok (w x) (gw x)) ->
  linked ok (render_definition_list R (map (fun x => (k x, w x)) l)) (flat_map (fun x => gk x ++ gw x) l).
Proof.
  intro H. apply k_tag; [reflexivity|]. induction l as [|x l IH]; [apply k_nil|]. cbn [map fold_right flat_map].
  destruct (H x (or_introl eq_refl)) as [Hk Hw]. rewrite <- app_assoc.
  apply k_seq; [apply k_tag; [reflexivity|auto]|]. apply k_seq; [apply k_tag; [reflexivity|auto]|]. apply IH. intros y Hy. apply H. right. auto.
Qed.
Lemma pages_get_ok l r b : Forall (fun rb => snd rb = page_there R (fst rb)) l -> pages_get l r = Some b -> b = page_there R r.
Proof.
  induction 1 as [|[r' b'] l H _ IH]; cbn [pages_get]; [discriminate|]. destruct (page_ref_eqb r' r) eqn:Eq; auto. intros [= <-]. cbn in H. rewrite H. f_equal.
  unfold page_ref_eqb in Eq. apply andb_true_iff in Eq as [E1 E2]. apply seqb_eq in E2. destruct r' as [s p], r as [s' p']. cbn in *. subst p'. f_equal.
  destruct s, s'; cbn in E1; try discriminate; auto. apply seqb_eq in E1. congruence.
Qed.
Lemma class_right lk c cl c1 : cache_ok c -> link_class R lk c = (cl, c1) ->
  (forall ty, lit "wj-link " ++ cl ++ match ty with LTInterwiki => lit " wj-link-interwiki" | _ => [] end = class_of R ty lk) /\ cache_ok c1 /\
  hx_internal c1 = hx_internal c /\ hx_external c1 = hx_external c.
Proof.
  intros Hc. unfold link_class, class_of. destruct lk as [r|u].
  - destruct (page_exists R r c) as [b c2] eqn:Ep.
    assert (X : b = page_there R r /\ cache_ok c2 /\ hx_internal c2 = hx_internal c /\ hx_external c2 = hx_external c).
    { unfold page_exists in Ep. destruct (pages_get (hx_pages c) r) as [b'|] eqn:Eg.
      - injection Ep as <- <-. conj; auto. eapply pages_get_ok; eauto.
      - destruct (pr_fields_or r (re_site R)) as [s p] eqn:Er. injection Ep as <- <-.
        assert (Y : re_page_exists R s p = page_there R r) by (unfold page_there; unfold pr_fields_or in Er; destruct r as [[x|] y]; injection Er as <- <-; reflexivity).
        conj; auto. constructor; auto. }
    destruct X as (-> & H1 & H2 & H3). intros [= <- <-]. conj; auto.
  - intro H. assert (X : cl = lit (if seqb u (lit "javascript:;") then "wj-link-anchor" else if starts_with [35%N] u then "wj-link-anchor" else if starts_with [47%N] u then "wj-link-internal" else "wj-link-external") /\ c1 = c) by (injection H; auto).
    destruct X as [-> ->]. conj; auto. intro ty. change (lit "#") with [35%N]. change (lit "/") with [47%N].
    destruct (seqb u (lit "javascript:;")); cbn [orb]; [reflexivity|]. destruct (starts_with [35%N] u); reflexivity.
Qed.
Lemma add_link_ok lk c : cache_ok c -> cache_ok (add_link lk c) /\ hx_internal (add_link lk c) = hx_internal c ++ pages_of lk /\ hx_external (add_link lk c) = hx_external c ++ addresses_of lk.
Proof.
  intro Hc. unfold add_link, pages_of, addresses_of. destruct lk as [r|u]; [cbn; rewrite app_nil_r; auto|].
  destruct (seqb u (lit "javascript:;")); cbn [orb negb andb]; [rewrite !app_nil_r; auto|].
  change (has_scheme (no_slash u)) with (is_url (no_slash u)). change (match u with ch :: l' => if ceqb ch 47 then l' else u | [] => u end) with (no_slash u).
  destruct (is_url (no_slash u)); cbn; rewrite ?app_nil_r; auto.
Qed.
Lemma k_link ty lk ex lb tg : here t (ELink ty lk ex lb tg) -> linked ok (render_link R lk ex lb tg ty) [ELink ty lk ex lb tg].
Proof.
  intros Hh c ns c' Hc. unfold render_link. destruct (link_href R lk) as [url|] eqn:Eu; [|discriminate].
  destruct (add_link_ok lk c Hc) as (Ha1 & Ha2 & Ha3). destruct (link_class R lk (add_link lk c)) as [cl c1] eqn:Ec.
  destruct (class_right lk _ _ _ Ha1 Ec) as (Hcl & Hb1 & Hb2 & Hb3). intro E. apply tag_with_inv in E as (b & E & ->).
  assert (X : c' = c1 /\ node_links b = []).
  { destruct (get_link_label (re_site R) lk lb) as [s|]; [|discriminate]. injection E as <- <-. split; auto. unfold node_links, node_tokens. cbn [map flat_map dom_of dom_tokens].
    rewrite app_nil_r. apply seen_chars. }
  destruct X as [-> Hl]. split; auto. exists [ELink ty lk ex lb tg]. rewrite Hb2, Hb3, Ha2, Ha3. cbn [flat_map link_pages link_addresses map]. rewrite !app_nil_r. conj; auto; try apply ss_refl.
  { constructor; [|constructor]. split; auto. exists ty, lk, ex, lb, tg. auto. }
  rewrite links_tag by reflexivity. rewrite Hl, app_nil_r. unfold link_view. rewrite Eu.
  set (ic := match ty with LTInterwiki => lit " wj-link-interwiki" | _ => [] end) in *.
  assert (S : shown (class_of R ty lk) = class_of R ty lk).
  { unfold class_of. destruct lk as [r|u]; [destruct (page_there R r)|destruct (seqb u _ || _); [|destruct (starts_with _ u)]]; destruct ty; reflexivity. }
  pose (own_at := [(lit "href", shown (url ++ or_else ex [])); (lit "class", class_of R ty lk); (lit "data-link-type", shown (ltype_name ty))]).
  assert (P : exists x, map (fun kv => (fst kv, shown (snd kv))) (flat_map attr_pairs (own [en "href" [url; or_else ex []];
                             en_if "target" [target_value tg] (is_some tg); en "class" [lit "wj-link "; cl; ic]; en "data-link-type" [ltype_name ty]])) =
    (lit "href", shown (url ++ or_else ex [])) :: x ++ [(lit "class", class_of R ty lk); (lit "data-link-type", shown (ltype_name ty))] /\ (x = [] \/ exists v, x = [(lit "target", v)])).
  { rewrite <- S, <- (Hcl ty). subst ic. destruct (is_some tg) eqn:Eg.
    - eexists [_]. split; [|right; eexists; reflexivity]. cbn [flat_map own attr_pairs ad_map filter_entries ad_entries filter en en_if fst snd map app concat].
      cbn [filter map fst snd flat_map app concat]. rewrite !app_nil_r. reflexivity.
    - exists []. split; auto. cbn [flat_map own attr_pairs ad_map filter_entries ad_entries filter en en_if fst snd map app concat].
      cbn [filter map fst snd flat_map app concat]. rewrite !app_nil_r. reflexivity. }
  destruct P as (x & -> & Hx).
  assert (Q : starts_with (lit "wj-link ") (class_of R ty lk) = true) by (unfold class_of; generalize (lit match lk with LPage r => if page_there R r then "wj-link-internal" else "wj-link-internal wj-link-missing" | LUrl u => if seqb u (lit "javascript:;") || starts_with (lit "#") u then "wj-link-anchor" else if starts_with (lit "/") u then "wj-link-internal" else "wj-link-external" end ++ match ty with LTInterwiki => lit " wj-link-interwiki" | _ => [] end); intro; reflexivity).
  unfold or_else. revert Q. generalize (class_of R ty lk) as cc. intros cc Q.
  unfold seen_link. change (seqb (lit "a") (lit "a")) with true. cbn [andb].
  assert (A1 : forall h w z, attr_of (lit "class") ((lit "href", h) :: x ++ [(lit "class", w); z]) = w) by (intros; destruct Hx as [-> | [v ->]]; reflexivity).
  rewrite A1, Q. reflexivity.
Qed.
Lemma k_breaks n : linked ok (line_breaks R n) [].
Proof. induction n as [|n IH]; [apply k_nil|]. cbn [line_breaks]. apply (k_seq _ _ [] []); auto. sw. Qed.
Lemma k_plain s : Forall (fun c => ~ In c [60; 62; 38; 34; 39; 0]%N) s -> seen_links (html_tokens s) = [].
Proof.
  intro H. assert (X : hrun SData s = (SData, chars s)).
  { induction H as [|c s Hc _ IH]; [reflexivity|]. unfold chars. cbn [map]. change (TkChar c :: map TkChar s) with ([TkChar c] ++ chars s).
    eapply hrun_cons; [|exact IH]. unfold hstep, in_data. rewrite (ceqb_out c _ 60%N Hc), (ceqb_out c _ 38%N Hc); cbn; auto. }
  unfold html_tokens. rewrite X. apply seen_chars.
Qed.
Lemma k_dec n : linked ok (raw (dec n)) []. Proof. apply k_raw, k_plain, dec_plain. Qed.
Lemma k_latex b nm i src : linked ok (render_latex R b nm i src) [].
Proof.
  unfold render_latex. apply k_tag; [destruct b; reflexivity|]. apply (k_seq _ _ [] []); [destruct i as [i|]; sw; apply k_dec|]. apply (k_seq _ _ [] []); [sw|].
  destruct (re_mathml R) as [f|] eqn:Ef; [|sw]. destruct (f b src) as [out|err] eqn:Es; [|sw]. apply k_tag; [reflexivity|]. apply k_raw. apply Hmath. exists f, b, src. auto.
Qed.
Lemma k_anchor a tg m l : NoDup (map fst a) -> linked ok m l -> linked ok (render_anchor R a tg m) l.
Proof.
  intros Hd Hm. unfold render_anchor. apply k_open; auto. unfold seen_link. change (seqb (lit "a") (lit "a")) with true. cbn [andb].
  match goal with |- context [map ?f (flat_map attr_pairs (with_map ?e a))] => set (es := e); set (ps := map f (flat_map attr_pairs (with_map es a))) end.
  assert (X : starts_with (lit "wj-link ") (attr_of (lit "class") ps) = false); [|rewrite X; reflexivity].
  unfold attr_of. destruct (find (fun kv => seqb (fst kv) (lit "class")) ps) as [[k v]|] eqn:Ef; [|reflexivity]. cbn [snd].
  apply find_some in Ef as [Hin Hk]. cbn [fst] in Hk. apply seqb_eq in Hk. subst k. unfold ps in Hin. apply in_map_iff in Hin as ([k v0] & Heq & Hin). cbn [fst snd] in Heq.
  assert (Hv : k = lit "class" /\ v = shown v0) by (injection Heq; auto). destruct Hv as [-> ->]. clear Heq.
  unfold with_map in Hin. cbn [flat_map] in Hin. rewrite app_nil_r in Hin. apply attr_pairs_In in Hin; [|exact Hd].
  assert (Hes : forall p, In (lit "class", p) (filter_entries (Added es (Some a))) -> p = [lit "wj-anchor"]).
  { intros p Hp. unfold filter_entries, es in Hp. cbn [ad_entries filter en en_if snd fst] in Hp. destruct (is_some tg); cbn [map fst In] in Hp.
    - destruct Hp as [Hp|[Hp|[]]]; [exact (eq_sym (f_equal snd Hp))|discriminate].
    - destruct Hp as [Hp|[]]. exact (eq_sym (f_equal snd Hp)). }
  destruct Hin as [(p & u & Hp & _ & ->)|[(p & Hp & _ & ->)|(_ & Hn)]].
  - rewrite (Hes _ Hp). reflexivity.
  - rewrite (Hes _ Hp). reflexivity.
  - exfalso. apply Hn. left. reflexivity.
Qed.
End Links.
Ltac sw := repeat first [apply k_text | apply k_nil | apply k_leaf; reflexivity | apply k_panic | apply k_tag; [reflexivity|] | apply (k_seq _ _ _ _ _ [] [])].

(** *** The page *)
Section Page.
Variable R : renv.
Variable t : tree.
Hypothesis Hmath : mathml_linkless R.
Hypothesis Hmap : forall tg a es, here t (EAnchor tg a es) -> NoDup (map fst a).
Variable ok : Prop.
Hypothesis Hok : ok -> forall x, here t x -> ~ with_tooltip x.
Variable ref : list element -> M.
Variable elsewhere : list element -> list element.
Notation K := (linked R t).
Notation hes := (h_elements R (tr_toc t) (tr_footnotes t) (tr_bibs t) ref).
Hypothesis Href : forall x, here t x -> forall L, In L (referenced t x) -> K ok (ref L) (elsewhere L).
Notation LK := (links t elsewhere).
Theorem k_elements es : (forall x, occurs_in x es -> here t x) -> K ok (hes es) (flat_map LK es).
Proof.
  pose (P := fun es m => (forall x, occurs_in x es -> here t x) -> K ok m (flat_map LK es)).
  change (P es (hes es)). apply h_induct; unfold P; clear es P.
  - intros _. apply k_nil.
  - intros e es m m' H1 H2 Hg. cbn [flat_map]. apply k_seq.
    + apply k_tail. apply H1. intros x (y & [<-|[]] & Ho). apply Hg; auto. exists e. split; auto. left. auto.
    + apply H2. intros x (y & Hy & Ho). apply Hg; auto. exists y. split; auto. right. auto.
  - intros e IHl IHx Hg.
    assert (Ge : here t e) by (apply Hg; exists e; split; [left; auto|constructor]).
    assert (Gc : forall x, In x (children e) -> forall y, occurs y x -> here t y).
    { intros x Hx y Hy. apply Hg. exists e. split; [left; auto|]. econstructor; eauto. }
    assert (Hl : forall es, sublist_of es e -> K ok (hes es) (flat_map LK es)).
    { intros es Hs. apply IHl; auto. intros x (y & Hy & Ho). eapply Gc; eauto. }
    assert (Hx : forall x, In x (children e) -> K ok (h_element R (tr_toc t) (tr_footnotes t) (tr_bibs t) ref x) (LK x)).
    { intros x Hx. apply k_tail. apply IHx; auto. intros y (z & [<-|[]] & Ho). eapply Gc; eauto. }
    clear IHl IHx Hg Gc. cbn [flat_map]. rewrite app_nil_r.
    pose proof (Href e Ge) as Hr.
    rewrite h_element_eq. destruct e; cbn [h_body h_element links] in *.
    + apply k_container, Hl, incl_refl.
    + apply k_none. intros c ns c' [= <- <-]. conj; auto. unfold node_links, node_tokens, render_module. cbn [map flat_map dom_of]. rewrite app_nil_r.
      assert (Hs : dom_tokens (DRaw (lit "<p>TODO: module " ++ module_name m ++ lit "</p>")) =
        TkOpen (lit "p") [] :: chars (lit "TODO: module " ++ module_name m) ++ [TkClose (lit "p")]) by (destruct m; vm_compute; reflexivity).
      rewrite Hs. unfold seen_links. cbn [flat_map]. rewrite flat_map_app. fold (seen_links (chars (lit "TODO: module " ++ module_name m))). rewrite seen_chars. reflexivity.
    + sw.
    + unfold render_wikitext_raw. sw.
    + intros c. apply (k_text R t ok _ c).
    + unfold render_email. sw.
    + unfold render_table. do 2 (apply k_tag; [reflexivity|]). apply (k_concat R t ok _ (fun r => flat_map (fun c => flat_map LK (tc_elements c)) (tr_cells r))). intros r Hrr.
      unfold render_row. apply k_tag; [reflexivity|].
      apply (k_concat R t ok _ (fun c => flat_map LK (tc_elements c))). intros x Hxx. unfold render_cell. apply k_tag; [destruct (tc_header x); reflexivity|].
      apply Hl. eapply sub_cell; eauto.
    + apply (k_tabs R t ok tab_label _ (fun tb => flat_map LK (tab_elements tb))). intros tb Ht. apply Hl. apply sub_tab; auto.
    + apply k_anchor; [eapply Hmap; eauto|]. apply Hl, incl_refl.
    + apply k_leaf_open. reflexivity.
    + apply k_link. exact Ge.
    + unfold render_image. destruct (get_image_link R source) as [url|] eqn:Eu; [|sw].
      destruct alignment as [al|]; sw; (destruct link as [l|]; [|sw]); (destruct (link_href R l) as [h|] eqn:Eh; [|sw]); (apply k_open; [reflexivity|reflexivity|sw]).
    + unfold render_list. apply k_tag; [destruct ltype; reflexivity|].
      apply (k_concat R t ok _ (fun i => match i with LIElements _ es => flat_map LK es | LISubList x => LK x end)). intros [b es|x] Hi.
      * apply k_tag; [reflexivity|]. apply Hl. eapply sub_item; eauto.
      * apply Hx. eapply (sub_sublist ltype attributes); eauto.
    + apply (k_defs R t ok _ _ (fun d => flat_map LK (df_key d)) (fun d => flat_map LK (df_value d))). intros d Hd. split; apply Hl; [apply sub_key|apply sub_value]; auto.
    + unfold render_radio_button. sw.
    + unfold render_checkbox. sw.
    + unfold render_collapsible. apply k_tag; [reflexivity|]. apply (k_seq R t ok _ _ []); [sw|]. apply k_tail, (k_seq R t ok _ _ (flat_map LK elements) []); [apply k_tag; [reflexivity|]; apply Hl, incl_refl|].
      destruct show_bottom; sw.
    + unfold render_table_of_contents. apply k_tag; [reflexivity|]. apply (k_seq R t ok _ _ []); [apply k_tag; [reflexivity|]; apply k_leaf_open; reflexivity|].
      apply (k_seq R t ok _ _ []); [sw|]. apply k_tag; [reflexivity|]. apply Hr. left. auto.
    + assert (Nk : ~ ok) by (intro X; apply (Hok X _ Ge); exact I).
      assert (Z : forall es, In es (tr_footnotes t) -> exists l, K ok (ref es) l) by (intros; eexists; apply Hr; auto).
      intros c ns c' Hc. unfold render_footnote. destruct (nth_error (tr_footnotes t) (hx_footnote c - 1)) as [es|] eqn:En; [|discriminate].
      destruct (Z es) as [l Hes]; [eapply nth_error_In; eauto|].
      intro E. change (hx_internal c) with (hx_internal (set_footnote c (S (hx_footnote c)))). change (hx_external c) with (hx_external (set_footnote c (S (hx_footnote c)))).
      change (cache_ok R (set_footnote c (S (hx_footnote c)))) in Hc.
      revert Hc E. generalize (set_footnote c (S (hx_footnote c))) as c1. intros c1 Hc E.
      match type of E with ?m c1 = _ => assert (X : K ok m []); [|exact (X _ _ _ Hc E)] end.
      apply (k_more R t ok _ l); [auto|apply ss_empty|]. apply k_tag; [reflexivity|]. apply (k_seq R t ok _ _ []); [sw|]. apply k_tag; [reflexivity|].
      apply (k_seq R t ok _ _ []); [sw|]. apply k_tag; [reflexivity|]. exact Hes.
    + destruct hide; [destruct (tr_footnotes t); apply k_nil|].
      destruct (tr_footnotes t) as [|f fs'] eqn:Ef; [apply k_nil|]. rewrite <- Ef in *. clear Ef. unfold render_footnote_block.
      apply k_tag; [reflexivity|]. apply (k_seq R t ok _ _ []); [sw|]. apply k_tag; [reflexivity|].
      assert (Y : forall l i, (forall L, In L l -> K ok (ref L) (elsewhere L)) -> K ok (footnote_items R ref i l) (flat_map elsewhere l)); [|apply Y; exact Hr].
      induction l as [|x l IH]; intros i H; [apply k_nil|]. cbn [footnote_items flat_map]. apply k_seq; [|apply IH; intros; apply H; right; auto].
      apply k_tag; [reflexivity|]. apply (k_seq R t ok _ _ []); [|apply k_tag; [reflexivity|]; apply H; left; auto]. apply k_tag; [reflexivity|].
      apply (k_seq R t ok _ _ [] []); [apply k_dec|sw].
    + assert (Nk : ~ ok) by (intro X; apply (Hok X _ Ge); exact I). unfold render_bibcite. cbn [referenced] in Hr.
      destruct (bibs_get (tr_bibs t) label) as [[i es]|]; [|sw].
      assert (Hes : K ok (ref es) (elsewhere es)) by (apply Hr; left; auto).
      assert (B : forall c, In c [91; 93]%N -> K ok (if brackets then raw [c] else ret []) []).
      { intros c Hc. destruct brackets; [|apply k_nil]. apply k_raw, k_plain. constructor; [|constructor]. cbn in *. intuition subst; discriminate. }
      apply (k_more R t ok _ (elsewhere es)); [auto|apply ss_empty|].
      apply k_tag; [reflexivity|]. apply (k_seq R t ok _ _ []); [apply B; left; auto|]. apply (k_seq R t ok _ _ []); [sw|]. apply (k_seq R t ok _ _ []); [apply B; right; left; auto|].
      apply k_tag; [reflexivity|]. apply (k_seq R t ok _ _ []); [sw|]. apply k_tag; [reflexivity|]. exact Hes.
    + destruct hide; [apply k_nil|]. cbn [referenced] in Hr.
      destruct (nth_error (tr_bibs t) index) as [b|] eqn:Eb; [|apply k_panic].
      rewrite (nth_error_nth _ _ [] Eb). unfold render_bibliography.
      apply k_tag; [reflexivity|]. apply (k_seq R t ok _ _ []); [sw|].
      assert (Y : forall l bi i, (forall L, In L (map snd l) -> K ok (ref L) (elsewhere L)) -> K ok (bibliography_items R ref bi i l) (flat_map (fun x => elsewhere (snd x)) l)); [|apply Y; exact Hr].
      induction l as [|[la x] l IH]; intros bi i H; [apply k_nil|]. cbn [bibliography_items flat_map]. apply k_seq; [|apply IH; intros; apply H; right; auto].
      apply k_tag; [reflexivity|]. apply (k_seq R t ok _ _ []); [|apply H; left; auto]. apply k_tag; [reflexivity|].
      apply (k_seq R t ok _ _ [] []); [apply k_dec|sw].
    + unfold render_user. apply k_tag; [reflexivity|]. apply k_open; [reflexivity|reflexivity|].
      apply (k_seq R t ok _ _ [] []); [|sw]. destruct show_avatar; [|apply k_nil]. apply (k_seq R t ok _ _ [] []); [|sw].
      apply k_tag; [reflexivity|]. apply k_sprite.
    + unfold render_date. destruct hover; sw.
    + unfold render_color. apply k_tag; [reflexivity|]. apply Hl, incl_refl.
    + unfold render_code. refine (k_in R t ok (fun _ => _) (fun c => set_code c (S (hx_code c))) _ _ _); [intro c; conj; reflexivity|]. intros _.
      apply k_tag; [reflexivity|]. apply (k_seq R t ok _ _ [] []); [|sw]. apply k_tag; [reflexivity|]. apply (k_seq R t ok _ _ [] []); [|sw]. apply k_tag; [reflexivity|]. apply (k_seq R t ok _ _ [] []); apply k_sprite.
    + unfold render_math_block. refine (k_in R t ok (fun c => render_latex R false name (Some (hx_equation c)) latex_source)
        (fun c => set_equation c (S (hx_equation c))) _ _ _); [intro c; conj; reflexivity|]. intro c. apply k_latex. auto.
    + apply k_latex. auto.
    + unfold render_equation_reference. sw.
    + unfold render_embed. apply k_tag; [reflexivity|]. destruct e; sw.
    + unfold render_html. sw.
    + unfold render_iframe. sw.
    + apply k_include. apply Hl, incl_refl.
    + unfold render_style. destruct (re_css R s) as [out| |]; [|apply k_nil|apply k_panic].
      apply k_none. intros c ns c' E. unfold tag_with in E. destruct (re_debug R && _); [discriminate|]. injection E as <- <-. conj; auto.
      unfold node_links, node_tokens. cbn [map flat_map dom_of]. rewrite app_nil_r.
      match goal with |- seen_links ?x = [] => change x with ([TkOpen (lit "style") []] ++ (chars out ++ []) ++ [TkClose (lit "style")]) end.
      rewrite !seen_app, seen_chars. reflexivity.
    + sw.
    + apply k_breaks.
    + sw.
    + sw.
    + apply k_panic.
Qed.
End Page.
Theorem k_ref R t (ok : Prop) n : mathml_linkless R -> (forall tg a es, here t (EAnchor tg a es) -> NoDup (map fst a)) -> (ok -> forall x, here t x -> ~ with_tooltip x) ->
  (forall x, here t x -> forall L, In L (referenced t x) -> forall y, occurs_in y L -> here t y) ->
  forall d L, (ok -> d = n) -> (forall x, occurs_in x L -> here t x) -> linked R t ok (h_ref R (tr_toc t) (tr_footnotes t) (tr_bibs t) n L) (links_in t d L).
Proof.
  intros Hm Ha Hk Hr. induction n as [|n IH]; intros d L Hd HL; [intros c ns c' _ E; discriminate|]. cbn [h_ref]. destruct d as [|d]; cbn [links_in].
  - assert (Nk : ~ ok) by (intro X; apply Hd in X; discriminate). eapply k_more; [exact Nk|apply ss_empty|].
    apply (k_elements R t Hm Ha ok Hk _ (fun _ => [])); auto. intros x Hx L' HL'. apply (IH 0); [tauto|]. eapply Hr; eauto.
  - apply k_elements; auto. intros x Hx L' HL'. apply IH; [intro X; apply Hd in X; congruence|]. eapply Hr; eauto.
Qed.
