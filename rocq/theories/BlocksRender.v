(** BlocksRender.v -- the HTML of the pages of SpecBlocks.v. *)
From Verif Require Import Base BaseLemmas Strings StringsLemmas SpecStrings Links Attr Html SpecHtml HtmlLemmas Lexer SpecLexer Depth Tree Text Toc PState Blocks Rules Parse SpecParse SpecPage ParseInv
  ProseLemmas WritingParse WritingBlocks VerbatimLex BlocksLex BlocksParse BlocksLinks BlocksRun BlocksVerbatim BlocksTable BlocksLines BlocksGroup Render SpecReader SpecRender RenderLemmas RenderDom SpecBacklinks RenderLinks LinksLemmas WritingRender.
From Verif Require Import SpecBlocks.

(** *** Attributes. *)
Definition own_of (es : list (str * list str * bool)) : list attribute := map (fun e => (fst e, concat (snd e))) (map fst (filter (fun e => snd e) es)).
Lemma find_get m k : find k m = bt_get m k.
Proof. induction m as [|[k' v] m IH]; auto. cbn [find bt_get]. rewrite IH. reflexivity. Qed.
Lemma find_in (m : list attribute) k : find k m = None <-> ~ In k (map fst m).
Proof. rewrite find_get. apply bt_get_None. Qed.
Lemma missing_in (m : list attribute) kv : missing m kv = true <-> ~ In (fst kv) (map fst m).
Proof. unfold missing. rewrite <- find_in. destruct (find (fst kv) m); split; congruence. Qed.
Lemma flat_filter {A B} (f : A -> bool) (g : A -> B) l : flat_map (fun e => if f e then [] else [g e]) l = map g (filter (fun e => negb (f e)) l).
Proof. induction l as [|x l IH]; auto. cbn [flat_map filter]. rewrite IH. destruct (f x); reflexivity. Qed.
Lemma map_filter {A B} (g : A -> B) (f : B -> bool) l : filter f (map g l) = map g (filter (fun e => f (g e)) l).
Proof. induction l as [|x l IH]; auto. cbn [map filter]. rewrite IH. destruct (f (g x)); reflexivity. Qed.
Lemma filter_same {A} (f g : A -> bool) l : (forall x, In x l -> f x = g x) -> filter f l = filter g l.
Proof. induction l as [|x l IH]; intro H; auto. cbn [filter]. rewrite (H x) by (left; auto). rewrite IH by (intros; apply H; right; auto). reflexivity. Qed.
Lemma own_keys es : map fst (own_of es) = map fst (map fst (filter (fun e => snd e) es)).
Proof. unfold own_of. rewrite !map_map. reflexivity. Qed.
Lemma pairs_merged es m : attr_pairs (Added es (Some m)) = merged (own_of es) m.
Proof.
  unfold attr_pairs, merged, filter_entries. cbn [ad_entries ad_map]. pose proof (own_keys es) as Hk. unfold own_of in *. set (l := map fst (filter (fun e => snd e) es)) in *. set (ks := rev (merged_keys m l) ++ []).
  assert (Hks : forall x, smem x ks = true <-> In x (map fst l) /\ In x (map fst m)) by (intro x; unfold ks; rewrite app_nil_r, smem_In, <- in_rev; apply merged_keys_In).
  f_equal; [|f_equal].
  - unfold merged_pairs. rewrite flat_map_concat_map, (flat_map_concat_map _ (map _ l)), map_map. f_equal. apply map_ext. intros [k p]. cbn [fst snd]. rewrite find_get. reflexivity.
  - rewrite flat_filter, map_filter. f_equal. apply filter_same. intros e He. apply eq_true_iff_eq. rewrite missing_in. cbn [fst]. rewrite negb_true_iff, <- not_true_iff_false, Hks. pose proof (in_map fst _ _ He). tauto.
  - rewrite (flat_filter _ (fun e => e)), map_id. apply filter_same. intros e He. apply eq_true_iff_eq. rewrite missing_in, Hk. rewrite negb_true_iff, <- not_true_iff_false, Hks. pose proof (in_map fst _ _ He). tauto.
Qed.
Lemma merged_alone l : merged l [] = l.
Proof.
  unfold merged. cbn [filter]. rewrite app_nil_r. replace (flat_map _ l) with (@nil attribute) by (induction l as [|x l IH]; auto). cbn [app]. induction l as [|x l IH]; auto. cbn [filter missing find]. rewrite IH. reflexivity.
Qed.
Lemma pairs_alone es : attr_pairs (Added es None) = own_of es.
Proof. unfold attr_pairs, filter_entries, own_of. cbn [ad_entries ad_map]. induction (map fst (filter (fun e => snd e) es)) as [|x l IH]; [reflexivity|]. cbn [flat_map map app]. f_equal. Qed.
Definition plain_key (k : str) : bool := is_alphanumeric k.
Lemma plain_escape k : plain_key k = true -> escape k = k.
Proof.
  unfold plain_key, is_alphanumeric. intro H. induction k as [|c k IH]; auto. cbn [forallb] in H. apply andb_true_iff in H as [H1 H2]. unfold escape. cbn [flat_map]. fold (escape k). rewrite IH by auto.
  unfold escape_char. repeat match goal with |- context [ceqb c ?n] => let X := fresh in destruct (ceqb c n) eqn:X; [apply ceqb_eq in X; subst c; discriminate|] end. reflexivity.
Qed.
Lemma single_same kv : plain_key (fst kv) = true -> single_text kv = attribute_html kv.
Proof. intro H. unfold single_text, attribute_html. rewrite (plain_escape _ H). destruct (snd kv); [rewrite app_nil_r|]; reflexivity. Qed.
Lemma singles_same l : forallb plain_key (map fst l) = true -> flat_map single_text l = flat_map attribute_html l.
Proof. induction l as [|x l IH]; intro H; auto. cbn [map forallb] in H. apply andb_true_iff in H as [H1 H2]. cbn [flat_map]. rewrite IH, single_same by auto. reflexivity. Qed.
Lemma merged_plain a b : forallb plain_key (map fst a) = true -> forallb plain_key (map fst b) = true -> forallb plain_key (map fst (merged a b)) = true.
Proof.
  rewrite !forallb_forall. intros Ha Hb k Hk. apply in_map_iff in Hk as (kv & <- & Hi). unfold merged in Hi. rewrite !in_app_iff, in_flat_map, !filter_In in Hi.
  destruct Hi as [(x & Hx & Hi)|[[Hi _]|[Hi _]]]; [|apply Ha, in_map; auto|apply Hb, in_map; auto].
  destruct (find (fst x) b); [|destruct Hi]. destruct Hi as [<-|[]]. cbn [fst]. apply Ha, in_map; auto.
Qed.

(** *** Tags. *)
Section Tags.
Variable R : renv.
Definition tag_html (t : str) (a : list attribute) (inside : str) : str := lit "<" ++ t ++ flat_map attribute_html a ++ lit ">" ++ inside ++ (if smem t void_tags then [] else lit "</" ++ t ++ lit ">").
Lemma keys_with es m : forallb (fun a => forallb is_alphanumeric (keys_of a)) (with_map es m) = forallb plain_key (map fst (own_of es)) && forallb plain_key (map fst m).
Proof. unfold with_map, keys_of. cbn [forallb ad_map]. rewrite andb_true_r, forallb_app. unfold filter_entries. cbn [ad_entries]. rewrite own_keys. reflexivity. Qed.
Lemma keys_own es : forallb (fun a => forallb is_alphanumeric (keys_of a)) (Render.own es) = forallb plain_key (map fst (own_of es)).
Proof. unfold Render.own, keys_of. cbn [forallb ad_map]. rewrite andb_true_r, app_nil_r. unfold filter_entries. cbn [ad_entries]. rewrite own_keys. reflexivity. Qed.
Lemma draws_tag t es m inner out : forallb plain_key (map fst (own_of es)) = true -> forallb plain_key (map fst m) = true -> draws inner out ->
  draws (tag_with R t (with_map es m) inner) (tag_html (lit t) (merged (own_of es) m) out).
Proof.
  intros H1 H2 H c. destruct (H c) as (ns & E & F). unfold tag_with. rewrite keys_with, H1, H2. cbn [andb negb]. rewrite andb_false_r. unfold Render.bind, Render.ret. rewrite E. eexists. split; [reflexivity|].
  cbn [map flat_map]. rewrite app_nil_r. unfold with_map. cbn [dom_of flat_map dom_text]. rewrite app_nil_r. rewrite pairs_merged, singles_same by (apply merged_plain; auto). rewrite F. reflexivity.
Qed.
Lemma draws_own t es inner out : forallb plain_key (map fst (own_of es)) = true -> draws inner out ->
  draws (tag_with R t (Render.own es) inner) (tag_html (lit t) (own_of es) out).
Proof.
  intros H1 H c. destruct (H c) as (ns & E & F). unfold tag_with. rewrite keys_own, H1. cbn [andb negb]. rewrite andb_false_r. unfold Render.bind, Render.ret. rewrite E. eexists. split; [reflexivity|].
  cbn [map flat_map]. rewrite app_nil_r. unfold Render.own. cbn [dom_of flat_map dom_text]. rewrite app_nil_r. rewrite pairs_alone, singles_same by auto. rewrite F. reflexivity.
Qed.
Lemma draws_bare t inner out : draws inner out -> draws (tag_with R t [] inner) (tag_html (lit t) [] out).
Proof. intros H c. destruct (H c) as (ns & E & F). unfold tag_with. cbn [forallb negb]. rewrite andb_false_r. unfold Render.bind, Render.ret. rewrite E. eexists. split; [reflexivity|]. cbn [map flat_map dom_of dom_text]. rewrite app_nil_r, F. reflexivity. Qed.
Lemma draws_tag_empty t es m : forallb plain_key (map fst (own_of es)) = true -> forallb plain_key (map fst m) = true -> draws (tag_empty R t (with_map es m)) (tag_html (lit t) (merged (own_of es) m) []).
Proof.
  intros H1 H2 c. unfold tag_empty. rewrite keys_with, H1, H2. cbn [andb negb]. rewrite andb_false_r. unfold Render.ret. eexists. split; [reflexivity|].
  cbn [map flat_map]. rewrite app_nil_r. unfold with_map. cbn [dom_of flat_map dom_text]. rewrite app_nil_r. rewrite pairs_merged, singles_same by (apply merged_plain; auto). reflexivity.
Qed.
Lemma draws_own_empty t es : forallb plain_key (map fst (own_of es)) = true -> draws (tag_empty R t (Render.own es)) (tag_html (lit t) (own_of es) []).
Proof.
  intros H1 c. unfold tag_empty. rewrite keys_own, H1. cbn [andb negb]. rewrite andb_false_r. unfold Render.ret. eexists. split; [reflexivity|].
  cbn [map flat_map]. rewrite app_nil_r. unfold Render.own. cbn [dom_of flat_map dom_text]. rewrite app_nil_r. rewrite pairs_alone, singles_same by auto. reflexivity.
Qed.
Lemma draws_word s : draws (Render.text s) (escape s). Proof. intro c. exists [NText s]. split; [reflexivity|]. cbn. rewrite app_nil_r. reflexivity. Qed.
Lemma draws_none : draws (Render.ret []) []. Proof. intro c. exists []. auto. Qed.
Lemma draws_eq m a b : draws m a -> a = b -> draws m b. Proof. intros H <-. exact H. Qed.
Lemma tag_element t own a inside : smem t void_tags = false -> tag_html t (merged own (shown_attributes a)) inside = SpecBlocks.element t own a inside.
Proof. intro H. unfold tag_html, SpecBlocks.element, open_tag. rewrite H. rewrite <- !app_assoc. reflexivity. Qed.
Lemma tag_element0 t own inside : smem t void_tags = false -> tag_html t own inside = SpecBlocks.element t own [] inside.
Proof. intro H. rewrite <- tag_element by auto. change (shown_attributes []) with (@nil attribute). rewrite merged_alone. reflexivity. Qed.
Lemma tag_open t own a : smem t void_tags = true -> tag_html t (merged own (shown_attributes a)) [] = open_tag t own a.
Proof. intro H. unfold tag_html, open_tag. rewrite H. reflexivity. Qed.
Lemma tag_open0 t own : smem t void_tags = true -> tag_html t own [] = open_tag t own [].
Proof. intro H. rewrite <- tag_open by auto. change (shown_attributes []) with (@nil attribute). rewrite merged_alone. reflexivity. Qed.
Lemma draws_classed t c inner out : smem (lit t) void_tags = false -> draws inner out -> draws (tag_with R t (cls c) inner) (classed t c out).
Proof. intros Hv H. eapply draws_eq; [apply draws_own; [reflexivity|exact H]|]. rewrite tag_element0 by auto. unfold classed. f_equal. unfold own_of, en. cbn [filter map fst snd concat]. rewrite app_nil_r. reflexivity. Qed.
(** [m] writes [out] and records the links [l]. *)
Definition refs_of (l : list backlink) : list page_ref := map (fun r => PR (fst r) (snd r)) (internal_links l).
Definition paints (m : Render.M) (out : str) (l : list backlink) : Prop := forall c, cache_ok R c ->
  exists ns c', m c = Done ns c' /\ flat_map dom_text (map dom_of ns) = out /\ cache_ok R c' /\ hx_internal c' = hx_internal c ++ refs_of l /\ hx_external c' = hx_external c ++ external_links l.
Lemma draws_paints m out : draws m out -> paints m out [].
Proof. intros H c Hc. destruct (H c) as (ns & E & F). exists ns, c. rewrite !app_nil_r. auto. Qed.
Lemma paints_eq m a b l : paints m a l -> a = b -> paints m b l. Proof. intros H <-. exact H. Qed.
Lemma paints_none : paints (Render.ret []) [] []. Proof. apply draws_paints, draws_none. Qed.
Lemma refs_app a b : refs_of (a ++ b) = refs_of a ++ refs_of b.
Proof. unfold refs_of, internal_links. rewrite flat_map_app, map_app. reflexivity. Qed.
Lemma external_app a b : external_links (a ++ b) = external_links a ++ external_links b.
Proof. apply flat_map_app. Qed.
Lemma paints_seq m1 m2 a b l1 l2 : paints m1 a l1 -> paints m2 b l2 -> paints (m1 +++ m2) (a ++ b) (l1 ++ l2).
Proof.
  intros H1 H2 c Hc. destruct (H1 c Hc) as (n1 & c1 & E1 & F1 & C1 & I1 & X1), (H2 c1 C1) as (n2 & c2 & E2 & F2 & C2 & I2 & X2). exists (n1 ++ n2), c2. unfold seq2, Render.bind, Render.ret. rewrite E1, E2.
  rewrite map_app, flat_map_app, refs_app, external_app, F1, F2, I2, X2, I1, X1, !app_assoc. auto.
Qed.
Lemma paints_before m1 m2 a b l : draws m1 a -> paints m2 b l -> paints (m1 +++ m2) (a ++ b) l.
Proof. intros H1 H2. apply (paints_seq _ _ _ _ [] l); [apply draws_paints|]; auto. Qed.
Lemma paints_after m1 m2 a b l : paints m1 a l -> draws m2 b -> paints (m1 +++ m2) (a ++ b) l.
Proof. intros H1 H2. rewrite <- (app_nil_r l). apply paints_seq; [|apply draws_paints]; auto. Qed.
Lemma paints_tag t es m inner out l : forallb plain_key (map fst (own_of es)) = true -> forallb plain_key (map fst m) = true -> paints inner out l ->
  paints (tag_with R t (with_map es m) inner) (tag_html (lit t) (merged (own_of es) m) out) l.
Proof.
  intros H1 H2 H c Hc. destruct (H c Hc) as (ns & c' & E & F & C & I & X). unfold tag_with. rewrite keys_with, H1, H2. cbn [andb negb]. rewrite andb_false_r. unfold Render.bind, Render.ret. rewrite E. eexists _, c'. split; [reflexivity|]. split; [|auto].
  cbn [map flat_map]. rewrite app_nil_r. unfold with_map. cbn [dom_of flat_map dom_text]. rewrite app_nil_r. rewrite pairs_merged, singles_same by (apply merged_plain; auto). rewrite F. reflexivity.
Qed.
Lemma paints_own t es inner out l : forallb plain_key (map fst (own_of es)) = true -> paints inner out l ->
  paints (tag_with R t (Render.own es) inner) (tag_html (lit t) (own_of es) out) l.
Proof.
  intros H1 H c Hc. destruct (H c Hc) as (ns & c' & E & F & C & I & X). unfold tag_with. rewrite keys_own, H1. cbn [andb negb]. rewrite andb_false_r. unfold Render.bind, Render.ret. rewrite E. eexists _, c'. split; [reflexivity|]. split; [|auto].
  cbn [map flat_map]. rewrite app_nil_r. unfold Render.own. cbn [dom_of flat_map dom_text]. rewrite app_nil_r. rewrite pairs_alone, singles_same by auto. rewrite F. reflexivity.
Qed.
Lemma paints_classed t c inner out l : smem (lit t) void_tags = false -> paints inner out l -> paints (tag_with R t (cls c) inner) (classed t c out) l.
Proof. intros Hv H. eapply paints_eq; [apply paints_own; [reflexivity|exact H]|]. rewrite tag_element0 by auto. unfold classed. f_equal. unfold own_of, en. cbn [filter map fst snd concat]. rewrite app_nil_r. reflexivity. Qed.
Lemma paints_bare t inner out l : paints inner out l -> paints (tag_with R t [] inner) (tag_html (lit t) [] out) l.
Proof.
  intros H c Hc. destruct (H c Hc) as (ns & c' & E & F & C & I & X). unfold tag_with. cbn [forallb negb]. rewrite andb_false_r. unfold Render.bind, Render.ret. rewrite E. eexists _, c'. split; [reflexivity|]. split; [|auto].
  cbn [map flat_map dom_of dom_text]. rewrite app_nil_r, F. reflexivity.
Qed.
Lemma paints_concat {A} (f : A -> Render.M) (g : A -> str) (h : A -> list backlink) l : (forall x, In x l -> paints (f x) (g x) (h x)) -> paints (concatM (map f l)) (flat_map g l) (flat_map h l).
Proof. induction l as [|x l IH]; intro H; [apply paints_none|]. cbn [map concatM fold_right flat_map]. apply paints_seq; [apply H; left; auto|apply IH; intros; apply H; right; auto]. Qed.
(** *** The attributes that are kept have plain names. *)
Lemma lower_plain c : is_alnum c = true \/ c = 45%N -> (is_alpha (lower c) || is_digit (lower c) || ceqb (lower c) 45) = true.
Proof.
  intros [H| ->]; [|reflexivity]. unfold lower, is_alnum, is_alpha, is_upper, is_lower, is_digit in *.
  destruct ((65 <=? c)%N && (c <=? 90)%N) eqn:E1; rewrite ?andb_true_iff, ?orb_true_iff, ?andb_true_iff, ?N.leb_le, ?N.eqb_eq in *; [left; left; right; lia|].
  destruct H as [[H|H]|H]; [discriminate|left; left; right; lia|left; right; lia].
Qed.
Lemma shown_plain_from a : forall acc, (forall k v, In (k, v) a -> good_attribute k v) -> forallb plain_key (map fst acc) = true ->
  forallb plain_key (map fst (fold_left (fun l kv => if is_handler (fst kv) then l else put (slower (fst kv), snd kv) l) a acc)) = true.
Proof.
  induction a as [|[k v] a IH]; intros acc Hg Ha; auto. cbn [fold_left fst snd]. apply IH; [intros; eapply Hg; right; eauto|]. destruct (is_handler k); auto.
  rewrite forallb_forall in *. intros x Hx. apply in_map_iff in Hx as (kv & <- & Hi). apply put_keys in Hi as [-> |Hi]; [|apply Ha, in_map; auto]. cbn [fst].
  destruct (good_attribute_name k v (Hg k v (or_introl eq_refl))) as (_ & _ & H). unfold plain_key, is_alphanumeric, slower. apply forallb_forall. intros c Hc. apply in_map_iff in Hc as (d & <- & Hd). apply lower_plain. auto.
Qed.
Lemma shown_plain a : good_attributes a -> forallb plain_key (map fst (shown_attributes a)) = true.
Proof. intros [_ H]. apply shown_plain_from; [|reflexivity]. intros k v Hi. apply (H k v Hi). Qed.
End Tags.
(** *** The elements. *)
Section Page.
Variables (E : env) (R : renv) (toc : list Tree.element) (bibs : list bibliography) (ref : list Tree.element -> Render.M).
Notation hes := (h_elements R toc [] bibs ref). Notation he := (h_element R toc [] bibs ref).
Notation ihtml := (inline_html (en_tags E) (own_category E) (en_entity E) dummy_avatar (re_normalize R) (re_site R) (re_page_exists R) get_page_title).
Notation bhtml := (block_html (en_tags E) (own_category E) (en_entity E) dummy_avatar (get_message "collapsible-open") (get_message "collapsible-hide") (re_normalize R) (re_site R) (re_page_exists R) get_page_title).
Notation ilinks := (inline_links (en_tags E) (own_category E) (re_normalize R)). Notation blinks := (block_links (en_tags E) (own_category E) (re_normalize R)).
Notation paints := (paints R).
Hypothesis same_normalize : forall s, re_normalize R s = en_normalize E s.
Hypothesis word_alnum : forall c, is_alnum c = true -> re_word R c = true.
Lemma paints_app a b x y l m : paints (hes a) x l -> paints (hes b) y m -> paints (hes (a ++ b)) (x ++ y) (l ++ m).
Proof.
  intros H1 H2 c Hc. destruct (H1 c Hc) as (n1 & c1 & E1 & F1 & C1 & I1 & X1), (H2 c1 C1) as (n2 & c2 & E2 & F2 & C2 & I2 & X2). exists (n1 ++ n2), c2. split; [eapply hes_seq; eauto|].
  rewrite map_app, flat_map_app, refs_app, external_app, F1, F2, I2, X2, I1, X1, !app_assoc. auto.
Qed.
Lemma paints_nil : paints (hes []) [] []. Proof. apply draws_paints, draws_nil. Qed.
Lemma paints_one e out l : paints (he e) out l -> paints (hes [e]) out l.
Proof. intro H. rewrite <- (app_nil_r out), <- (app_nil_r l). apply paints_seq; [exact H|exact paints_nil]. Qed.
Lemma paints_par es out l : paints (hes es) out l -> paints (hes [paragraph es]) (html "<p>" ++ out ++ html "</p>") l.
Proof.
  intro H. apply paints_one. rewrite h_element_eq. cbn [h_body paragraph]. unfold render_container, render_container_internal. intro c. cbn [container_tag]. revert c. eapply paints_eq; [apply (paints_tag R "p" []); [reflexivity|reflexivity|exact H]|]. reflexivity.
Qed.
Ltac key := reflexivity.
Lemma paints_flat {A} (f : A -> elements) (g : A -> str) (h : A -> list backlink) l : (forall x, In x l -> paints (hes (f x)) (g x) (h x)) -> paints (hes (flat_map f l)) (flat_map g l) (flat_map h l).
Proof. induction l as [|x l IH]; intro H; [apply paints_nil|]. cbn [flat_map]. apply paints_app; [apply H; left; auto|apply IH; intros; apply H; right; auto]. Qed.
Lemma paints_box k a es out l : good_attributes a -> paints (hes es) out l -> paints (hes [box_el k (shown_attributes a) es]) (SpecBlocks.element (fst (box_element k)) (snd (box_element k)) a out) l.
Proof.
  intros Ha H. apply paints_one. rewrite h_element_eq. rewrite <- tag_element by (destruct k; reflexivity). pose proof (shown_plain a Ha) as Hp.
  destruct k as [| | | | | | | | | | | | |[]]; cbn [box_el box_ct h_body];
    try (unfold render_anchor; eapply paints_eq; [apply paints_tag; [key|exact Hp|exact H]|reflexivity]);
    unfold render_container, render_container_internal; intro c; cbn [container_tag]; revert c; (eapply paints_eq; [apply paints_tag; [key|exact Hp|exact H]|]); reflexivity.
Qed.
Lemma paints_size z es out l : paints (hes es) out l -> paints (hes [EContainer CSize [(lit "style", z)] es]) (SpecBlocks.element (lit "span") [(lit "style", z)] [] out) l.
Proof.
  intro H. apply paints_one. rewrite h_element_eq. cbn [h_body]. unfold render_container, render_container_internal. intro c. cbn [container_tag]. revert c. eapply paints_eq; [apply paints_tag; [key|key|exact H]|]. rewrite <- tag_element0 by reflexivity. reflexivity.
Qed.
Lemma draws_user name avatar : draws (hes [EUser name avatar]) (ihtml (User avatar name)).
Proof.
  apply draws_one. cbn [h_element inline_html]. unfold render_user. apply draws_classed; [reflexivity|].
  eapply draws_eq; [apply draws_own; [key|apply draws_seq; [|apply draws_classed; [reflexivity|apply draws_word]]]|].
  - instantiate (1 := if avatar then _ else _). destruct avatar.
    + apply draws_seq.
      * apply draws_own; [key|]. unfold sprite. apply draws_own; [key|]. apply draws_own_empty. key.
      * apply draws_own_empty. key.
    + apply draws_none.
  - rewrite tag_element0 by reflexivity. destruct avatar.
    + rewrite (tag_element0 (lit "span")), (tag_element0 (lit "svg")), (tag_element0 (lit "use")), tag_open0 by reflexivity.
      unfold own_of, en. cbn [filter map fst snd concat]. rewrite ?app_nil_r. reflexivity.
    + unfold own_of, en. cbn [filter map fst snd concat]. rewrite ?app_nil_r. reflexivity.
Qed.
Lemma draws_checkbox b a : good_attributes a -> draws (hes [ECheckBox b (shown_attributes a)]) (ihtml (Checkbox b a)).
Proof.
  intro Ha. apply draws_one. cbn [h_element inline_html]. unfold render_checkbox. eapply draws_eq; [apply draws_tag_empty; [destruct b; key|apply shown_plain; exact Ha]|]. rewrite tag_open by reflexivity. destruct b; reflexivity.
Qed.
Lemma draws_radio b n a : good_attributes a -> draws (hes [ERadioButton n b (shown_attributes a)]) (ihtml (Radio b n a)).
Proof.
  intro Ha. apply draws_one. cbn [h_element inline_html]. unfold render_radio_button. eapply draws_eq; [apply draws_tag_empty; [destruct b; key|apply shown_plain; exact Ha]|]. rewrite tag_open by reflexivity.
  unfold own_of, en, en_if. destruct b; cbn [filter map fst snd concat]; rewrite ?app_nil_r; reflexivity.
Qed.
Lemma draws_ruby b a : draws (hes [EContainer CRuby [] [EText b; EContainer CRubyText [] [EText a]]]) (ihtml (Ruby b a)).
Proof.
  apply draws_one. rewrite h_element_eq. cbn [h_body inline_html]. unfold render_container, render_container_internal. intro c. cbn [container_tag]. revert c.
  eapply draws_eq.
  - apply draws_tag; [key|key|]. change (hes [EText b; EContainer CRubyText [] [EText a]]) with (Render.text b +++ (hes [EContainer CRubyText [] [EText a]])). apply draws_seq; [apply draws_word|]. apply draws_one. rewrite h_element_eq. cbn [h_body].
    unfold render_container. apply draws_seq; [apply draws_bare, draws_word|]. apply draws_seq; [|apply draws_bare, draws_word]. unfold render_container_internal. intro c. cbn [container_tag]. revert c. apply draws_tag; [key|key|].
    apply draws_one. cbn [h_element]. apply draws_word.
  - unfold tag_html. change (smem (lit "ruby") void_tags) with false. change (smem (lit "rp") void_tags) with false. change (smem (lit "rt") void_tags) with false. cbv iota. cbn [own_of merged filter map flat_map app]. rewrite <- !app_assoc. reflexivity.
Qed.
Lemma draws_eref n : draws (hes [EEquationReference n]) (ihtml (Equation n)).
Proof.
  apply draws_one. cbn [h_element inline_html]. unfold render_equation_reference. apply draws_classed; [reflexivity|]. apply draws_seq.
  - eapply draws_eq; [apply draws_own; [key|apply draws_word]|]. rewrite tag_element0 by reflexivity. unfold own_of, en. cbn [filter map fst snd concat]. rewrite ?app_nil_r. reflexivity.
  - eapply draws_eq; [apply draws_own_empty; key|]. reflexivity.
Qed.
Lemma paints_link ty lk ex lb tab href label class kind l : link_href R lk = Some href -> get_link_label (re_site R) lk lb = Some label ->
  class_of R ty lk = lit "wj-link " ++ class -> ltype_name ty = lit kind -> refs_of l = pages_of lk -> external_links l = addresses_of lk ->
  paints (hes [ELink ty lk ex lb (new_tab tab)]) (link_html (href ++ or_else ex []) tab class kind label) l.
Proof.
  intros Hh Hl Hcl0 Hki Hr He. unfold link_html. rewrite <- Hcl0, <- Hki. clear Hcl0 Hki. set (tg := new_tab tab). replace (if tab then [(lit "target", lit "_blank")] else []) with (if is_some tg then [(lit "target", target_value tg)] else []) by (unfold tg; destruct tab; reflexivity). clearbody tg. apply paints_one. cbn [h_element]. intros c Hc. unfold render_link. rewrite Hh. destruct (add_link_ok R lk c Hc) as (A1 & A2 & A3). destruct (link_class R lk (add_link lk c)) as [cl c1] eqn:Ec.
  destruct (class_right R lk _ _ _ A1 Ec) as (Hcl & B1 & B2 & B3). rewrite Hl. rewrite <- Hcl, Hr, He, <- A2, <- A3, <- B2, <- B3. rewrite <- tag_element0 by reflexivity.
  set (es := [en "href" [href; or_else ex []]; en_if "target" [target_value tg] (is_some tg); en "class" [lit "wj-link "; cl; match ty with LTInterwiki => lit " wj-link-interwiki" | _ => [] end]; en "data-link-type" [ltype_name ty]]).
  assert (Hk : forallb plain_key (map fst (own_of es)) = true) by (unfold es; destruct (is_some tg); reflexivity).
  destruct (draws_own R "a" es _ _ Hk (draws_word label) c1) as (ns & E1 & F1). exists ns, c1. split; [exact E1|]. split; [|auto]. rewrite F1. f_equal.
  unfold own_of, es, en, en_if. destruct (is_some tg); cbn [filter map fst snd concat app]; rewrite ?app_nil_r; reflexivity.
Qed.
Lemma draws_break : draws (tag_empty R "br" []) (html "<br>").
Proof. intro c. unfold tag_empty. destruct (re_debug R); (eexists; split; reflexivity). Qed.
Lemma paints_inline x : good_inline (en_entity E) x -> paints (hes (els E x)) (ihtml x) (ilinks x).
Proof.
  induction x as [s|k o a inside c IH|z inside IH|b n|b a|b n a|b a|e|n|b p c|b a c|o c|b cds inside IH|] using inline_ind'; intro Hg; cbn [els].
  - apply draws_paints. cbn [inline_html]. rewrite <- (flat_pieces s) at 2. rewrite <- map_map. unfold flat. rewrite flat_map_concat_map. apply draws_text.
  - apply good_box in Hg as (_ & _ & Ha & _ & _ & Hg). cbn [inline_html inline_links]. apply paints_box; auto. apply paints_flat. intros x Hx. rewrite Forall_forall in *. auto.
  - apply good_size in Hg as (_ & _ & Hg). cbn [inline_html inline_links]. apply paints_size. apply paints_flat. intros x Hx. rewrite Forall_forall in *. auto.
  - apply draws_paints, draws_user.
  - apply draws_paints, draws_checkbox. exact Hg.
  - apply draws_paints, draws_radio. apply Hg.
  - apply draws_paints, draws_ruby.
  - apply draws_paints, draws_one. cbn [h_element inline_html]. destruct (en_entity E e); [|apply (draws_word [])]. apply draws_word.
  - apply draws_paints, draws_eref.
  - destruct Hg as [Hp Hc]. cbn [inline_html inline_links].
    eapply paints_eq; [eapply paints_link|].
    + unfold link_href, normalize_link. cbn [pr_site pr_page]. instantiate (1 := match on_site p with Some s => build_url R s (full_name p) | None => lit "/" ++ re_normalize R (full_name p) end). destruct (on_site p) eqn:Es; [reflexivity|]. apply full_href; auto.
    + instantiate (1 := page_caption (re_site R) get_page_title p c). unfold get_link_label, page_label, page_caption, bare_caption, site_of, full_name, before_sign. cbn [pr_page]. destruct c; [|destruct (on_site p); reflexivity|reflexivity]. destruct (on_site p), (category p); cbn [app]; rewrite ?app_nil_r; reflexivity.
    + unfold class_of, page_there. cbn [pr_site pr_page]. rewrite app_nil_r. reflexivity.
    + instantiate (1 := "page"%string). reflexivity.
    + reflexivity.
    + reflexivity.
    + unfold page_href, site_of. f_equal. destruct (on_site p); unfold build_url; rewrite <- ?app_assoc; repeat f_equal; destruct (more_of p); reflexivity.
  - destruct Hg as [Ha Hc]. destruct a as [url|name more]; cbn [inline_html inline_links].
    + destruct Ha as (sc & r & Hs & -> & Hr & Hc'). assert (Hu : is_url (sc ++ lit "://" ++ r) = true) by (apply is_url_iff; exists (sc ++ lit "://"), r; split; [|rewrite <- app_assoc; reflexivity]; destruct Hs as [<-|[<-|[<-|[]]]]; vm_compute; tauto).
      assert (H1 : exists c1 u1, sc ++ lit "://" ++ r = c1 :: u1 /\ c1 <> 47%N /\ c1 <> 35%N /\ c1 <> 106%N) by (destruct Hs as [<-|[<-|[<-|[]]]]; (eexists; eexists; split; [reflexivity|]; conj; discriminate)).
      set (u := sc ++ lit "://" ++ r) in *. clearbody u. destruct H1 as (c1 & u1 & -> & N1 & N2 & N3). set (u := c1 :: u1) in *.
      assert (J : seqb u (lit "javascript:;") = false) by (apply not_true_iff_false; intro X; apply seqb_eq in X; unfold u in X; injection X as X _; auto).
      assert (K : no_slash u = u) by (unfold no_slash, u; destruct (ceqb c1 47) eqn:X; auto; apply ceqb_eq in X; congruence).
      eapply paints_eq; [eapply paints_link|].
      * unfold link_href, normalize_link, address_source, normalize_href. rewrite Hu. reflexivity.
      * reflexivity.
      * unfold class_of, address_source. rewrite J. cbn [orb]. replace (starts_with (lit "#") u) with false by (symmetry; apply not_true_iff_false; intro X; apply starts_with_iff in X as [r' X]; unfold u in X; change (lit "#") with [35%N] in X; injection X as X _; auto).
        replace (starts_with (lit "/") u) with false by (symmetry; apply not_true_iff_false; intro X; apply starts_with_iff in X as [r' X]; unfold u in X; change (lit "/") with [47%N] in X; injection X as X _; auto). rewrite app_nil_r. reflexivity.
      * instantiate (1 := "direct"%string). reflexivity.
      * unfold pages_of, address_source. rewrite J, K. change (has_scheme u) with (is_url u). rewrite Hu. reflexivity.
      * unfold addresses_of, address_source. rewrite J, K. change (has_scheme u) with (is_url u). rewrite Hu. reflexivity.
      * cbn [or_else]. rewrite app_nil_r. reflexivity.
    + eapply paints_eq; [eapply paints_link|].
      * unfold link_href, normalize_link. apply local_href; auto.
      * reflexivity.
      * unfold class_of. cbn [address_source]. instantiate (1 := lit "wj-link-internal"). reflexivity.
      * instantiate (1 := "direct"%string). reflexivity.
      * unfold pages_of. cbn [address_source]. change (no_slash (lit "/" ++ name ++ after "/" more)) with (name ++ after "/" more). change (has_scheme (name ++ after "/" more)) with (is_url (name ++ after "/" more)). rewrite (local_no_scheme name more) by auto. reflexivity.
      * unfold addresses_of. cbn [address_source]. change (no_slash (lit "/" ++ name ++ after "/" more)) with (name ++ after "/" more). change (has_scheme (name ++ after "/" more)) with (is_url (name ++ after "/" more)). rewrite (local_no_scheme name more) by auto. reflexivity.
      * cbn [or_else]. rewrite app_nil_r. reflexivity.
  - cbn [inline_html inline_links]. eapply paints_eq; [eapply (paints_link _ _ _ _ false)|].
    + unfold link_href, normalize_link. instantiate (1 := jump_url E o). destruct o as [s|]; [|reflexivity]. cbn [jump_url]. unfold normalize_href. destruct (is_url (lit "#" ++ en_normalize E s)); reflexivity.
    + reflexivity.
    + instantiate (1 := lit "wj-link-anchor"). unfold class_of. destruct o as [s|]; [|reflexivity]. cbn [jump_url]. destruct (seqb _ _); reflexivity.
    + instantiate (1 := "anchor"%string). reflexivity.
    + unfold pages_of. destruct o as [s|]; [|reflexivity]. rewrite same_normalize. reflexivity.
    + unfold addresses_of. destruct o as [s|]; [|reflexivity]. reflexivity.
    + cbn [or_else]. rewrite app_nil_r. f_equal. unfold jump_url. destruct o; [rewrite same_normalize|]; reflexivity.
  - apply good_when in Hg as (_ & _ & _ & Hg). cbn [inline_html inline_links]. destruct (holds _ _ _ _); [|apply paints_nil]. apply paints_flat. intros x Hx. rewrite Forall_forall in *. auto.
  - apply draws_paints, draws_one. cbn [h_element]. exact draws_break.
Qed.
Notation kept := (kept (en_tags E) (own_category E)). Notation left_of := (left_of (en_tags E) (own_category E)).
Lemma kept_links x : flat_map ilinks (kept x) = ilinks x.
Proof.
  induction x as [s|k o a inside c IH|z inside IH|b n|b a|b n a|b a|e|n|b p c|b a c|o c|b cds inside IH|] using inline_ind'; try (cbn [SpecBlocks.kept flat_map]; apply app_nil_r).
  cbn [SpecBlocks.kept inline_links]. destruct (holds _ _ _ _); [|reflexivity]. induction IH as [|x l Hx Hl IH']; [reflexivity|]. cbn [flat_map]. rewrite flat_map_app, Hx, IH'. reflexivity.
Qed.
Lemma left_links l : flat_map ilinks (left_of l) = flat_map ilinks l.
Proof.
  unfold SpecBlocks.left_of. transitivity (flat_map ilinks (flat_map kept l)).
  - generalize (flat_map kept l). clear l. intro l. induction l as [|x l IH]; [reflexivity|]. destruct x; try reflexivity. exact IH.
  - induction l as [|x l IH]; [reflexivity|]. cbn [flat_map]. rewrite flat_map_app, kept_links, IH. reflexivity.
Qed.
Lemma paints_group g es out l : good_group g -> paints (hes es) out l -> paints (hes [group_el g es]) (group_html (get_message "collapsible-open") (get_message "collapsible-hide") g out) l.
Proof.
  intros Hg H. apply paints_one. rewrite h_element_eq. destruct g as [a|w|a|f a]; cbn [group_el h_body group_html].
  - cbn [good_group] in Hg. unfold render_container, render_container_internal. intro c. cbn [container_tag]. revert c. rewrite <- tag_element by reflexivity. apply (paints_tag R "div" []); [key|apply shown_plain; auto|exact H].
  - unfold render_container, render_container_internal. intro c. cbn [container_tag]. revert c. eapply paints_eq; [apply paints_tag; [key|key|exact H]|]. rewrite <- tag_element0 by reflexivity. rewrite merged_alone.
    unfold own_of, en. cbn [filter map fst snd concat]. rewrite app_nil_r. destruct w; reflexivity.
  - cbn [good_group] in Hg. unfold render_container, render_container_internal. intro c. cbn [container_tag]. revert c. rewrite <- tag_element by reflexivity. apply (paints_tag R "blockquote" []); [key|apply shown_plain; auto|exact H].
  - destruct Hg as [Ha _]. unfold render_collapsible, foldable. destruct (match hide_at f with Some w => w | None => (true, false) end) as [top bot]. cbn [fst snd].
    change (or_else (show_label f)) with (or_default (show_label f)). change (or_else (hide_label f)) with (or_default (hide_label f)).
    eapply paints_eq; [apply paints_tag; [|apply shown_plain; exact Ha|]|].
    + destruct (starts_folded f) as [[]|], top, bot; key.
    + apply paints_before; [apply draws_classed; [reflexivity|apply draws_seq; (apply draws_classed; [reflexivity|apply draws_word])]|].
      apply paints_after; [apply paints_classed; [reflexivity|exact H]|]. instantiate (1 := if bot then _ else _). destruct bot; [apply draws_classed; [reflexivity|apply draws_classed; [reflexivity|apply draws_word]]|apply draws_none].
    + rewrite tag_element by reflexivity. destruct (starts_folded f) as [[]|], top, bot; reflexivity.
Qed.
Lemma draws_sprite id : (id =? "wj-karma")%string = false -> draws (sprite R id) (sprite_html id).
Proof.
  intro H. unfold sprite, sprite_html. rewrite H. eapply draws_eq; [apply draws_own; [key|apply draws_own_empty; key]|]. rewrite (tag_element0 (lit "svg")), (tag_element0 (lit "use")) by reflexivity.
  unfold own_of, en. cbn [filter map fst snd concat]. rewrite !app_nil_r. reflexivity.
Qed.
Lemma draws_program l t : draws (tag_with R "wj-code" (Render.own [en "class" [slower (lit "wj-code wj-language-" ++ or_else (option_map slower l) (lit "none"))]])
      (tag_with R "div" (cls "wj-code-panel")
         (tag_with R "wj-code-copy" (Render.own [en "type" [lit "button"]; en "class" [lit "wj-code-copy"]; en "title" [get_message "button-copy-clipboard"]]) (sprite R "wj-clipboard" +++ sprite R "wj-clipboard-success")
          +++ tag_with R "span" (cls "wj-code-language") (Render.text (or_else (option_map slower l) [])))
       +++ tag_with R "pre" [] (tag_with R "code" [] (Render.text t)))) (verbatim_html (Program l) t).
Proof.
  unfold verbatim_html. eapply draws_eq.
  - apply draws_own; [key|]. apply draws_seq; [apply draws_classed; [reflexivity|]; apply draws_seq|].
    + apply draws_own; [key|]. apply draws_seq; apply draws_sprite; reflexivity.
    + apply draws_classed; [reflexivity|apply draws_word].
    + apply draws_bare, draws_bare, draws_word.
  - rewrite (tag_element0 (lit "wj-code")), (tag_element0 (lit "wj-code-copy")) by reflexivity.
    assert (X : slower (lit "wj-code wj-language-" ++ or_else (option_map slower l) (lit "none")) = lit "wj-code wj-language-" ++ slower (or_default l (lit "none"))).
    { unfold slower at 1. rewrite map_app. destruct l as [l|]; [|reflexivity]. cbn [option_map or_else or_default]. fold (slower (slower l)). rewrite slower_twice. reflexivity. }
    rewrite X. replace (or_else (option_map slower l) []) with (slower (or_default l [])) by (destruct l; reflexivity).
    f_equal.
    + unfold own_of, en. cbn [filter map fst snd concat]. rewrite app_nil_r. reflexivity.
    + f_equal. unfold tag_html. change (smem (lit "pre") void_tags) with false. change (smem (lit "code") void_tags) with false. cbv iota. cbn [flat_map app]. rewrite <- !app_assoc. reflexivity.
Qed.
Lemma paints_verbatim v t : paints (hes [verbatim_el v t]) (verbatim_html v t) [].
Proof.
  apply paints_one. destruct v as [l|]; cbn [verbatim_el h_element].
  - unfold render_code. intros c Hc. cbv zeta. destruct (draws_paints R _ _ (draws_program l t) (set_code c (S (hx_code c))) Hc) as (ns & c' & H1 & H2 & H3 & H4 & H5). exists ns, c'. split; [exact H1|]. split; [exact H2|]. split; [exact H3|]. split; [exact H4|exact H5].
  - unfold render_html. apply draws_paints. eapply draws_eq; [apply draws_own_empty; key|]. reflexivity.
Qed.
Lemma paints_insides l : Forall (good_inline (en_entity E)) l -> paints (hes (flat_map (els E) l)) (flat_map ihtml l) (flat_map ilinks l).
Proof. intro Hg. apply paints_flat. intros x Hx. apply paints_inline. rewrite Forall_forall in Hg. auto. Qed.
Lemma paints_user t a inner out l : smem (lit t) void_tags = false -> good_attributes a -> paints inner out l -> paints (tag_with R t (with_map [] (shown_attributes a)) inner) (SpecBlocks.element (lit t) [] a out) l.
Proof. intros Hv Ha H. rewrite <- tag_element by exact Hv. apply (paints_tag R t []); [key|apply shown_plain; exact Ha|exact H]. Qed.
Lemma paints_items b a items : good_block (en_entity E) (Items b a items) -> paints (hes [items_el E b a items]) (bhtml (Items b a items)) (blinks (Items b a items)).
Proof.
  intros (Ha & _ & Hi). apply paints_one. rewrite h_element_eq. unfold items_el. cbn [h_body block_html block_links]. rewrite map_map.
  assert (X : paints (concatM (map (fun i => render_item R (shown_attributes (fst i)) (hes (flat_map (els E) (snd i)))) items)) (flat_map (fun i => SpecBlocks.element (lit "li") [] (fst i) (flat_map ihtml (snd i))) items) (flat_map (fun i => flat_map ilinks (snd i)) items)).
  { apply paints_concat. intros i Hin. rewrite Forall_forall in Hi. destruct (Hi i Hin) as (Hia & _ & _ & Hg). unfold render_item. apply paints_user; [key|exact Hia|]. apply paints_insides. exact Hg. }
  unfold render_list. destruct b; (apply paints_user; [key|exact Ha|exact X]).
Qed.
Lemma cell_span c : good_cell (en_entity E) c ->
  own_of [en_if "colspan" [dec (N.to_nat (N.of_nat (wide c)))] (1 <? N.of_nat (wide c))%N; en_if "class" [[]] false] = if 1 <? wide c then [(lit "colspan", digits (wide c))] else [].
Proof.
  intros (_ & _ & H1 & _). rewrite Nat2N.id. replace (1 <? N.of_nat (wide c))%N with (1 <? wide c); [destruct (1 <? wide c); [|reflexivity]|].
  - unfold own_of, en_if. cbn [filter map fst snd concat]. rewrite app_nil_r. reflexivity.
  - apply eq_true_iff_eq. rewrite Nat.ltb_lt, N.ltb_lt. lia.
Qed.
Lemma paints_cell c : good_cell (en_entity E) c -> paints (render_cell R (cell_el E c) (hes (flat_map (els E) (contents c)))) (cell_html (en_tags E) (own_category E) (en_entity E) dummy_avatar (re_normalize R) (re_site R) (re_page_exists R) get_page_title c) (flat_map ilinks (contents c)).
Proof.
  intro Hg. pose proof (cell_span c Hg) as Ho. destruct Hg as (Ha & _ & _ & _ & _ & _ & Hi). unfold render_cell, cell_el, cell_html. cbn [tc_header tc_column_span tc_align tc_attributes is_some].
  assert (X : forall t, smem (lit t) void_tags = false -> paints (tag_with R t (with_map [en_if "colspan" [dec (N.to_nat (N.of_nat (wide c)))] (1 <? N.of_nat (wide c))%N; en_if "class" [[]] false] (shown_attributes (cell_attributes c))) (hes (flat_map (els E) (contents c))))
    (SpecBlocks.element (lit t) (if 1 <? wide c then [(lit "colspan", digits (wide c))] else []) (cell_attributes c) (flat_map ihtml (contents c))) (flat_map ilinks (contents c))).
  { intros t Hv. rewrite <- tag_element by exact Hv. rewrite <- Ho. apply paints_tag; [rewrite Ho; destruct (1 <? wide c); reflexivity|apply shown_plain; exact Ha|apply paints_insides; exact Hi]. }
  destruct (heading c); apply X; reflexivity.
Qed.
Lemma paints_grid a rs : good_block (en_entity E) (Grid a rs) -> paints (hes [grid_el E a rs]) (bhtml (Grid a rs)) (blinks (Grid a rs)).
Proof.
  intros (Ha & Hr). apply paints_one. rewrite h_element_eq. unfold grid_el. cbn [h_body block_html block_links]. unfold render_table. rewrite map_map. apply paints_user; [key|exact Ha|].
  match goal with |- BlocksRender.paints _ (tag_with _ _ _ ?m) (_ ++ ?o ++ _) ?l => assert (X : paints m o l) end.
  { apply paints_concat. intros r Hin. rewrite Forall_forall in Hr. destruct (Hr r Hin) as (Hra & Hc). unfold render_row, row_el. cbn [tr_attributes tr_cells]. apply paints_user; [key|exact Hra|].
    rewrite map_map. apply paints_concat. intros c Hic. rewrite Forall_forall in Hc. apply paints_cell. auto. }
  pose proof (paints_bare R "tbody" _ _ _ X) as Y. clear X. refine (paints_eq R _ _ _ _ Y _). unfold tag_html. change (smem (lit "tbody") void_tags) with false. cbv iota. reflexivity.
Qed.
(** *** Tables drawn with bars. *)
Lemma short_own c : 1 <= columns c ->
  own_of [en_if "colspan" [dec (N.to_nat (N.of_nat (columns c)))] (1 <? N.of_nat (columns c))%N; en_if "class" [match mark_align (mark_of c) with Some a => align_class a | None => [] end] (is_some (mark_align (mark_of c)))] =
  (if 1 <? columns c then [(lit "colspan", digits (columns c))] else []) ++
  match mark_of c with ToLeft => [(lit "class", lit "wj-align-left")] | ToMiddle => [(lit "class", lit "wj-align-center")] | ToRight => [(lit "class", lit "wj-align-right")] | _ => [] end.
Proof.
  intro H1. rewrite Nat2N.id. replace (1 <? N.of_nat (columns c))%N with (1 <? columns c) by (apply eq_true_iff_eq; rewrite Nat.ltb_lt, N.ltb_lt; lia).
  unfold own_of, en_if. destruct (1 <? columns c); cbn [filter map fst snd concat]; destruct (mark_of c); cbn [mark_align is_some filter map fst snd concat app align_class]; rewrite ?app_nil_r; reflexivity.
Qed.
Lemma paints_short c : good_short (en_entity E) c -> paints (render_cell R (short_cell E c) (hes (flat_map (els E) (said c)))) (short_html (en_tags E) (own_category E) (en_entity E) dummy_avatar (re_normalize R) (re_site R) (re_page_exists R) get_page_title c) (flat_map ilinks (said c)).
Proof.
  intro Hg. pose proof (short_own c (proj1 Hg)) as Ho. destruct Hg as (_ & _ & _ & _ & _ & Hi). unfold render_cell, short_cell, short_html. cbn [tc_header tc_column_span tc_align tc_attributes].
  rewrite <- Ho. assert (X : forall t, smem (lit t) void_tags = false -> paints (tag_with R t (with_map [en_if "colspan" [dec (N.to_nat (N.of_nat (columns c)))] (1 <? N.of_nat (columns c))%N; en_if "class" [match mark_align (mark_of c) with Some a => align_class a | None => [] end] (is_some (mark_align (mark_of c)))] []) (hes (flat_map (els E) (said c))))
    (SpecBlocks.element (lit t) (own_of [en_if "colspan" [dec (N.to_nat (N.of_nat (columns c)))] (1 <? N.of_nat (columns c))%N; en_if "class" [match mark_align (mark_of c) with Some a => align_class a | None => [] end] (is_some (mark_align (mark_of c)))]) [] (flat_map ihtml (said c))) (flat_map ilinks (said c))).
  { intros t Hv. rewrite <- tag_element0 by exact Hv. pose proof (paints_tag R t [en_if "colspan" [dec (N.to_nat (N.of_nat (columns c)))] (1 <? N.of_nat (columns c))%N; en_if "class" [match mark_align (mark_of c) with Some a => align_class a | None => [] end] (is_some (mark_align (mark_of c)))] []) as Y.
    rewrite merged_alone in Y. apply Y; [rewrite Ho; destruct (1 <? columns c), (mark_of c); reflexivity|reflexivity|apply paints_insides; exact Hi]. }
  destruct (mark_of c) eqn:Em; cbn [mark_head]; rewrite <- Em in *; apply X; reflexivity.
Qed.
Lemma paints_bars rows : good_block (en_entity E) (Bars rows) -> paints (hes [bars_el E rows]) (bhtml (Bars rows)) (blinks (Bars rows)).
Proof.
  intros (_ & Hr). apply paints_one. rewrite h_element_eq. unfold bars_el. cbn [h_body block_html block_links]. unfold render_table. rewrite map_map.
  match goal with |- BlocksRender.paints _ (tag_with _ _ _ (tag_with _ _ _ ?m)) (classed _ _ (_ ++ ?o ++ _)) ?l => assert (X : paints (tag_with R "tbody" [] m) (html "<tbody>" ++ o ++ html "</tbody>") l) end.
  { match goal with |- BlocksRender.paints _ (tag_with _ _ _ ?m) (_ ++ ?o ++ _) ?l => assert (X : paints m o l) end.
    { apply paints_concat. intros r Hin. rewrite Forall_forall in Hr. destruct (Hr r Hin) as (_ & Hc). unfold render_row. cbn [tr_attributes tr_cells]. unfold bars_html. rewrite map_map.
      assert (Z : paints (concatM (map (fun x => render_cell R (short_cell E x) (hes (tc_elements (short_cell E x)))) r)) (flat_map (short_html (en_tags E) (own_category E) (en_entity E) dummy_avatar (re_normalize R) (re_site R) (re_page_exists R) get_page_title) r) (flat_map (fun c => flat_map ilinks (said c)) r)).
      { apply paints_concat. intros c Hic. rewrite Forall_forall in Hc. apply paints_short. auto. }
      rewrite <- tag_element0 by reflexivity. pose proof (paints_tag R "tr" [] []) as Y. rewrite merged_alone in Y. apply Y; [reflexivity|reflexivity|exact Z]. }
    pose proof (paints_bare R "tbody" _ _ _ X) as Y. clear X. refine (paints_eq R _ _ _ _ Y _). unfold tag_html. change (smem (lit "tbody") void_tags) with false. cbv iota. reflexivity. }
  revert X. match goal with |- BlocksRender.paints _ ?m ?o ?l -> _ => generalize m o l end. intros m o l X. unfold classed. rewrite <- tag_element0 by reflexivity.
  pose proof (paints_tag R "table" [] [(lit "class", lit "wj-table")] m o l eq_refl eq_refl X) as Y. refine (paints_eq R _ _ _ _ Y _). reflexivity.
Qed.
Lemma draws_line : draws (tag_empty R "hr" []) (html "<hr>").
Proof. intro c. unfold tag_empty. destruct (re_debug R); (eexists; split; reflexivity). Qed.
Lemma paints_divider n : paints (hes [EHorizontalRule]) (bhtml (Divider n)) [].
Proof. apply paints_one. rewrite h_element_eq. cbn [h_body block_html]. apply draws_paints. exact draws_line. Qed.
Lemma paints_clear w n : paints (hes [EClearFloat (clear_of w)]) (bhtml (Clear w n)) [].
Proof.
  apply paints_one. rewrite h_element_eq. cbn [h_body block_html]. apply draws_paints. eapply draws_eq; [apply draws_own_empty; key|]. unfold classed. rewrite <- tag_element0 by reflexivity. destruct w as [[]|]; reflexivity.
Qed.
Lemma paints_block_ b : good_block (en_entity E) b -> paints (hes (block_els E b)) (bhtml b) (blinks b).
Proof.
  induction b as [l|g o inside c IH|v o t c|n a items|a rows|rows|n|w n] using block_ind'; intro Hg; [| | |apply paints_items; exact Hg|apply paints_grid; exact Hg|apply paints_bars; exact Hg|apply paints_divider|apply paints_clear]; cbn [block_els block_html block_links].
  - apply good_par in Hg as (_ & _ & Hg). pose proof (left_good E l Hg) as Hl. rewrite <- left_links. destruct (left_of l) as [|x l']; [apply paints_nil|].
    apply paints_par. apply paints_flat. intros y Hy. apply paints_inline. rewrite Forall_forall in Hl. auto.
  - apply good_group_ in Hg as (_ & _ & Hg & Hi). apply paints_group; auto. apply paints_flat. intros x Hx. rewrite Forall_forall in *. auto.
  - apply paints_verbatim.
Qed.
End Page.
Lemma blocks_render E R n bs docs progs len : good_page (en_entity E) bs -> 1 <= n -> (forall s, re_normalize R s = en_normalize E s) -> (forall c, is_alnum c = true -> re_word R c = true) ->
  html_render R n (TREE (flat_map (block_els E) bs ++ [EFootnoteBlock None false]) [] docs progs [] [] len []) =
  Html (page_html (en_tags E) (own_category E) (en_entity E) dummy_avatar (get_message "collapsible-open") (get_message "collapsible-hide") (re_normalize R) (re_site R) (re_page_exists R) get_page_title bs)
    (refs_of (page_links (en_tags E) (own_category E) (re_normalize R) bs)) (external_links (page_links (en_tags E) (own_category E) (re_normalize R) bs)).
Proof.
  intros Hg Hn Hnorm Hword. destruct n as [|n]; [lia|]. unfold html_render, body_nodes. cbn [tr_toc tr_footnotes tr_bibs tr_elements h_ref].
  assert (H : paints R (h_elements R [] [] [] (h_ref R [] [] [] n) (flat_map (block_els E) bs ++ [EFootnoteBlock None false]))
    (flat_map (block_html (en_tags E) (own_category E) (en_entity E) dummy_avatar (get_message "collapsible-open") (get_message "collapsible-hide") (re_normalize R) (re_site R) (re_page_exists R) get_page_title) bs ++ []) (page_links (en_tags E) (own_category E) (re_normalize R) bs ++ [])).
  { apply paints_app; [apply paints_flat; intros b Hb; apply paints_block_; auto; apply Hg; auto|]. apply draws_paints. intro c. exists []. auto. }
  rewrite !app_nil_r in H. destruct (paints_classed R "wj-body" "wj-body" _ _ _ eq_refl H hctx_new (Forall_nil _)) as (ns & c' & E1 & F & _ & I & X). rewrite E1. rewrite write_nodes_dom, F. cbn [app].
  rewrite I, X. reflexivity.
Qed.
