(** PropBlocks.v -- C74-C79: pages made of blocks in double brackets. *)
From Coq Require Import DecimalString.
From Verif Require Import Base BaseLemmas Strings StringsLemmas SpecStrings Links Attr Html SpecHtml HtmlLemmas Tree Text PState Parse SpecPage ParseInv Render VerbatimLex BlocksLex BlocksVerbatim BlocksGroup BlocksRender BlocksText ParseTestEnv RenderTestEnv PropParse PropRender.
From Verif Require Import SpecBlocks.

(** *** C74: blocks mean what they say *)
(** Take any page made of paragraphs, of the blocks around text ([[b]], [[i]], [[u]], [[s]], [[sub]],
    [[sup]], [[tt]], [[mark]], [[ins]], [[del]], [[span]], [[hidden]], [[invisible]], [[a]] under any of their
    names and in any case, with attributes, and [[size]]), of users, checkboxes, radio buttons, ruby
    texts, character entities, references to equations, links (of three, two or one brackets) and conditional text ([[iftags]], [[ifcategory]]), of the groups [[div]], [[blockquote]],
    [[collapsible]] and the alignments, one inside the other in any way up to 99 deep, and of [[code]] and
    [[html]] blocks, lists ([[ul]], [[ol]]) and tables ([[table]]) in them.  Written down in
    wikitext, it is parsed without errors, and its HTML is exactly what those blocks stand for: the
    texts escaped, each block's element around exactly what was written inside it, with the user's
    attributes (without event handlers) merged with the element's own.  The links recorded are exactly
    the links of the page, in their order, and the programs and documents stored are those of the page. *)
Theorem C74_blocks : forall E R n bs, good_page (en_entity E) bs -> en_text E = source bs -> 1 <= n ->
  (forall s, re_normalize R s = en_normalize E s) -> (forall c, is_alnum c = true -> re_word R c = true) ->
  exists toks t, parsed E toks t /\ tr_errors t = [] /\ tr_footnotes t = [] /\ tr_toc t = [] /\
    tr_html t = flat_map block_documents bs /\ tr_code t = map (fun text => CB text None) (flat_map block_programs bs) /\
    html_render R n t = Html (page_html (en_tags E) match en_category E with Some c => c | None => lit "_default" end (en_entity E) dummy_avatar (get_message "collapsible-open") (get_message "collapsible-hide") (re_normalize R) (re_site R) (re_page_exists R) get_page_title bs)
      (map (fun l => PR (fst l) (snd l)) (internal_links (page_links (en_tags E) match en_category E with Some c => c | None => lit "_default" end (re_normalize R) bs))) (external_links (page_links (en_tags E) match en_category E with Some c => c | None => lit "_default" end (re_normalize R) bs)).
Proof.
  intros E R n bs Hg He Hn Hno Hw. destruct (blocks_parse E bs Hg He) as [toks Hp]. exists toks. eexists. conj; [exact Hp|reflexivity|reflexivity|reflexivity|reflexivity|reflexivity|]. apply blocks_render; auto.
Qed.
Print Assumptions C74_blocks.

(** And its plain text is exactly the texts of the page, those of paragraphs, divisions and quotations on
    lines of their own, with hidden text left out and invisible text blank. *)
Theorem C74_plain_text : forall E site df bs, good_page (en_entity E) bs -> en_text E = source bs ->
  exists toks t out, parsed E toks t /\ text_render site df (tr_elements t) = Some out /\ trims_to (page_lines (en_tags E) match en_category E with Some c => c | None => lit "_default" end (en_entity E) site get_page_title bs) out.
Proof.
  intros E site df bs Hg He. destruct (blocks_parse E bs Hg He) as [toks Hp]. destruct (blocks_text E site df bs Hg) as (out & H1 & H2). exists toks. eexists. exists out. conj; [exact Hp|exact H1|exact H2].
Qed.
Print Assumptions C74_plain_text.

(** *** A page with all of it. *)
(** A checker for the conditions, to show that this page meets them. *)
Fixpoint plain_b (s : str) : bool :=
  match s with
  | [] => true
  | c :: r => (negb (cmem c special) || cmem c alone && match r with d :: _ => negb (cmem d special) | [] => false end) && plain_b r
  end.
Lemma not_mem c l : negb (cmem c l) = true -> ~ In c l.
Proof. intros H X. apply cmem_In in X. rewrite X in H. discriminate. Qed.
Lemma plain_sound s : negb (seqb s []) && plain_b s = true -> plain s.
Proof.
  intro H. apply andb_true_iff in H as [H1 H2]. split; [intros ->; discriminate|]. clear H1. induction s as [|x s IH]; intros pre c post Heq; [destruct pre; discriminate|].
  cbn [plain_b] in H2. apply andb_true_iff in H2 as [H1 H2]. destruct pre as [|y pre]; cbn [app] in Heq; [|eapply IH; [exact H2|]; inversion Heq; reflexivity].
  assert (x = c /\ s = post) as [-> ->] by (split; congruence). apply orb_true_iff in H1 as [H1|H1]; [left; apply not_mem; exact H1|]. right. apply andb_true_iff in H1 as [Ha H1]. split; [apply cmem_In; exact Ha|].
  destruct post as [|d post]; [discriminate|]. exists d, post. split; auto. apply not_mem. exact H1.
Qed.
Definition visible_b (c : char) : bool := ((33 <=? c) && (c <=? 126))%N.
Definition ends_b (s : str) : bool := match s with c :: _ => visible_b c | [] => true end.
Definition value_b (s : str) : bool := negb (seqb s []) && plain_b s && ends_b s && ends_b (rev s).
Lemma ends_sound s : ends_b s = true -> forall c r, s = c :: r -> visible c.
Proof. intros H c r ->. cbn [ends_b] in H. unfold visible_b in H. rewrite andb_true_iff, !N.leb_le in H. exact H. Qed.
Lemma value_sound s : value_b s = true -> value s.
Proof.
  unfold value_b. intro H. apply andb_true_iff in H as [H H3]. apply andb_true_iff in H as [H H2]. unfold value. conj; [apply plain_sound; exact H|apply ends_sound; exact H2|].
  intros c r ->. rewrite rev_app_distr in H3. exact (ends_sound _ H3 c (rev r) eq_refl).
Qed.
Definition word_b (s : str) : bool := value_b s && forallb (fun c => negb (cmem c [32; 9]%N)) s.
Lemma word_sound s : word_b s = true -> word s.
Proof. unfold word_b. intro H. apply andb_true_iff in H as [H1 H2]. split; [apply value_sound; exact H1|]. intros c Hc. rewrite forallb_forall in H2. apply not_mem. auto. Qed.
Definition letters_b (s : str) : bool := negb (seqb s []) && forallb is_alnum s.
Lemma letters_sound s : letters_b s = true -> letters s.
Proof. unfold letters_b. intro H. apply andb_true_iff in H as [H1 H2]. split; [intros ->; discriminate|]. apply forallb_forall. exact H2. Qed.
Definition prefixed_b (p key : str) : bool := match strip_prefix p key with Some r => letters_b r && seqb (slower r) r | None => false end.
Definition key_b (key : str) : bool := smem (slower key) common_attributes || prefixed_b (lit "data-") key || prefixed_b (lit "aria-") key || is_handler key && letters_b key.
Lemma key_sound key : key_b key = true -> good_key key.
Proof.
  unfold key_b. intro H. apply orb_true_iff in H as [H|H]; [apply orb_true_iff in H as [H|H]; [apply orb_true_iff in H as [H|H]|]|].
  - left. apply smem_In. exact H.
  - right. left. unfold prefixed_b in H. destruct (strip_prefix (lit "data-") key) as [r|] eqn:E1; [|discriminate]. apply strip_prefix_inv in E1. apply andb_true_iff in H as [H1 H2]. exists r. conj; [apply letters_sound; exact H1|apply seqb_eq; exact H2|left; exact E1].
  - right. left. unfold prefixed_b in H. destruct (strip_prefix (lit "aria-") key) as [r|] eqn:E1; [|discriminate]. apply strip_prefix_inv in E1. apply andb_true_iff in H as [H1 H2]. exists r. conj; [apply letters_sound; exact H1|apply seqb_eq; exact H2|right; exact E1].
  - right. right. apply andb_true_iff in H as [H1 H2]. split; [exact H1|apply letters_sound; exact H2].
Qed.
Fixpoint nodup_b (l : list str) : bool := match l with [] => true | x :: l' => negb (smem x l') && nodup_b l' end.
Lemma nodup_sound l : nodup_b l = true -> NoDup l.
Proof. induction l as [|x l IH]; intro H; constructor; cbn [nodup_b] in H; apply andb_true_iff in H as [H1 H2]; auto. intro X. apply smem_In in X. rewrite X in H1. discriminate. Qed.
Definition away_b (v : str) : bool := existsb (fun start => starts_with start v) absolute_starts || match v with c :: _ => (c =? 35)%N | [] => false end || seqb v (lit "javascript:;").
Lemma away_sound v : away_b v = true -> leads_away v.
Proof.
  unfold away_b. intro H. apply orb_true_iff in H as [H|H]; [apply orb_true_iff in H as [H|H]|].
  - apply existsb_exists in H as (x & Hx & H). apply starts_with_iff in H as [r ->]. left. exists x, r. split; [exact Hx|reflexivity].
  - right. left. destruct v as [|c r]; [discriminate|]. apply N.eqb_eq in H. subst c. exists r. reflexivity.
  - right. right. apply seqb_eq. exact H.
Qed.
Definition attribute_b (k v : str) : bool := key_b k || smem (slower k) (map lit ["href"; "src"]%string) && away_b v.
Lemma attribute_sound k v : attribute_b k v = true -> good_attribute k v.
Proof. unfold attribute_b. intro H. apply orb_true_iff in H as [H|H]; [left; apply key_sound; exact H|]. apply andb_true_iff in H as [H1 H2]. right. split; [apply smem_In; exact H1|apply away_sound; exact H2]. Qed.
Definition attributes_b (a : list attribute) : bool := nodup_b (map (fun kv => slower (fst kv)) a) && forallb (fun kv => attribute_b (fst kv) (snd kv) && negb (cmem 13 (snd kv))) a.
Lemma attributes_sound a : attributes_b a = true -> good_attributes a.
Proof.
  unfold attributes_b. intro H. apply andb_true_iff in H as [H1 H2]. split; [apply nodup_sound; exact H1|]. intros k v Hi. rewrite forallb_forall in H2. specialize (H2 (k, v) Hi). cbn [fst snd] in H2. apply andb_true_iff in H2 as [H2 H3].
  split; [apply attribute_sound; exact H2|apply not_mem; exact H3].
Qed.
Definition flush_b (s : str) : bool := match s with c :: _ => negb (cmem c [32; 9]%N) | [] => true end.
Lemma flush_sound s : flush_b s = true -> flush s. Proof. intros H c r ->. apply not_mem. exact H. Qed.
Definition beside_b (x y : inline) : bool :=
  match x, y with
  | Text _, Text _ | Break, Break | Break, When _ _ _ | Break, Box Hidden _ _ _ _ | Break, Box Invisible _ _ _ _ => false
  | (Checkbox _ _ | Radio _ _ _), Text t => flush_b t
  | _, _ => true
  end.
Lemma beside_sound x y : beside_b x y = true -> beside x y.
Proof. destruct x, y as [| []| | | | | | | | | | | |]; cbn [beside_b beside]; auto; try discriminate; apply flush_sound. Qed.
Fixpoint pairs_b (l : list inline) : bool :=
  match l with
  | [] => true
  | x :: l' => match l' with y :: _ => beside_b x y | [] => true end && pairs_b l'
  end.
Definition not_break_b (l : list inline) : bool := match l with Break :: _ => false | _ => true end.
Definition apart_b (l : list inline) : bool := pairs_b l && not_break_b l && not_break_b (rev l).
Lemma apart_sound l : apart_b l = true -> apart l.
Proof.
  unfold apart_b. intro H. do 2 (apply andb_true_iff in H as [H ?H]). split.
  - clear H0 H1. induction l as [|x l IH]; intros front y z rest Heq; [destruct front; discriminate|]. cbn [pairs_b] in H. apply andb_true_iff in H as [H1 H2].
    destruct front as [|w front]; cbn [app] in Heq; [|eapply IH; [exact H2|]; inversion Heq; reflexivity]. assert (x = y /\ l = z :: rest) as [-> ->] by (split; congruence). apply beside_sound. exact H1.
  - intro r. split; intros ->; [discriminate H1|]. rewrite rev_app_distr in H0. discriminate H0.
Qed.
Lemma apart_one x : x <> Break -> apart [x].
Proof. intro Hx. split; [intros front y t rest X; destruct front as [|? [|? ?]]; discriminate|]. intro r. split; intro X; [congruence|]. destruct r as [|? [|? ?]]; cbn [app] in X; congruence. Qed.
Definition starts_flush_b (l : list inline) : bool := match l with Text t :: _ => flush_b t | _ => true end.
Lemma starts_flush_sound l : starts_flush_b l = true -> starts_flush l. Proof. intros H t rest ->. apply flush_sound. exact H. Qed.
Definition named_b (names : list str) (name : str) : bool := smem (slower name) names.
Definition option_b {A} (f : A -> bool) (o : option A) : bool := match o with Some x => f x | None => true end.
Lemma option_sound {A} (f : A -> bool) (P : A -> Prop) o : (forall x, f x = true -> P x) -> option_b f o = true -> forall x, o = Some x -> P x.
Proof. intros H1 H2 x ->. auto. Qed.
Definition page_name_b (p : SpecBlocks.page) : bool :=
  value_b (page_name p) && negb (cmem 47 (page_name p)) && option_b letters_b (on_site p) &&
  option_b (fun c => letters_b c && match on_site p with None => negb (smem (slower c) schemes) | Some _ => true end) (category p) &&
  match on_site p, category p with None, None => match page_name p with c :: _ => negb (ceqb c 33) | [] => true end | _, _ => true end &&
  option_b (fun s => value_b (47%N :: s)) (path p) && option_b value_b (spot p).
Lemma page_name_sound p : page_name_b p = true -> good_page_name p.
Proof.
  unfold page_name_b. intro H. do 6 (apply andb_true_iff in H as [H ?H]). unfold good_page_name. conj.
  - apply value_sound. assumption.
  - apply not_mem. assumption.
  - eapply option_sound; [|eassumption]. apply letters_sound.
  - eapply option_sound; [|eassumption]. intros c X. cbv beta in X. apply andb_true_iff in X as [X1 X2]. split; [apply letters_sound; exact X1|]. intros Y Z. rewrite Y in X2. apply smem_In in Z. rewrite Z in X2. discriminate.
  - intros Y Z r W. rewrite Y, Z, W in *. discriminate.
  - eapply option_sound; [|eassumption]. intros s X. apply value_sound. exact X.
  - eapply option_sound; [|eassumption]. apply value_sound.
Qed.
Definition caption_b (c : caption) : bool := match c with Caption s => value_b s | _ => true end.
Definition web_b (url : str) : bool :=
  existsb (fun scheme => match strip_prefix (scheme ++ lit "://") url with Some r => negb (seqb r []) && forallb (fun c => negb (cmem c ([10; 13; 32]%N ++ lit "[]|"))) r | None => false end) (map lit ["http"; "https"; "ftp"]%string).
Definition address_b (a : address) : bool :=
  match a with Web url => web_b url | Local name more => word_b (47%N :: name) && negb (cmem 47 name) && option_b (fun s => word_b (47%N :: s)) more end.
Lemma address_sound a : address_b a = true -> good_address a.
Proof.
  destruct a as [url|name more]; cbn [address_b good_address]; intro H.
  - unfold web_b in H. apply existsb_exists in H as (sc & Hs & H). destruct (strip_prefix (sc ++ lit "://") url) as [r|] eqn:X; [|discriminate]. apply strip_prefix_inv in X. apply andb_true_iff in H as [H1 H2]. exists sc, r. split; [exact Hs|]. split; [rewrite X, <- app_assoc; reflexivity|].
    split; [intros ->; discriminate|]. intros c Hc. rewrite forallb_forall in H2. apply not_mem. auto.
  - apply andb_true_iff in H as [H H3]. apply andb_true_iff in H as [H1 H2]. split; [apply word_sound; exact H1|]. split; [apply not_mem; exact H2|]. eapply option_sound; [|exact H3]. intros s X. apply word_sound. exact X.
Qed.
Definition condition_b (c : sign * str) : bool := word_b (snd c) && match snd c with d :: _ => negb (cmem d special) | [] => true end.
Lemma conditions_sound cs : forallb condition_b cs = true -> Forall good_condition cs.
Proof.
  intro H. apply Forall_forall. intros c Hc. rewrite forallb_forall in H. specialize (H c Hc). unfold condition_b in H. apply andb_true_iff in H as [H1 H2]. split; [apply word_sound; exact H1|]. intros d r X. rewrite X in H2. apply not_mem. exact H2.
Qed.
Section Check.
Variable ents : str -> option str.
Fixpoint inline_b (x : inline) : bool :=
  match x with
  | Text s => negb (seqb s []) && plain_b s
  | Box k o a inside c => named_b (box_names k) o && named_b (box_names k) c && attributes_b a && (match a with [] => starts_flush_b inside | _ => true end) && apart_b inside && forallb inline_b inside
  | Size z inside => value_b z && apart_b inside && forallb inline_b inside
  | User _ n => value_b n
  | Checkbox _ a => attributes_b a
  | Radio _ n a => word_b n && attributes_b a
  | Ruby b a => value_b b && value_b a
  | Character e => letters_b e && match ents e with Some _ => true | None => false end
  | Equation n => value_b n
  | PageLink _ p c => page_name_b p && caption_b c
  | Link _ a c => address_b a && value_b c
  | Jump o c => option_b word_b o && value_b c
  | When _ cs inside => negb (match cs with [] => true | _ => false end) && forallb condition_b cs && apart_b inside && forallb inline_b inside
  | Break => true
  end.
Lemma inline_sound x : inline_b x = true -> good_inline ents x.
Proof.
  induction x as [s|k o a inside c IH|z inside IH|b n|b a|b n a|b a|e|n|b p c|b a c|o c|b cds inside IH|] using inline_ind'; cbn [inline_b]; intro H.
  - apply plain_sound. exact H.
  - repeat apply andb_true_iff in H as [H ?H]. apply good_box. conj; try (apply smem_In; assumption).
    + apply attributes_sound. assumption.
    + intros ->. apply starts_flush_sound. assumption.
    + split; [apply apart_sound; assumption|]. apply Forall_forall. intros x Hx. rewrite Forall_forall in IH. rewrite forallb_forall in H0. auto.
  - apply andb_true_iff in H as [H H0]. apply andb_true_iff in H as [H H1]. apply good_size. split; [apply value_sound; assumption|]. split; [apply apart_sound; assumption|]. apply Forall_forall. intros x Hx. rewrite Forall_forall in IH. rewrite forallb_forall in H0. auto.
  - apply value_sound. exact H.
  - apply attributes_sound. exact H.
  - apply andb_true_iff in H as [H1 H2]. split; [apply word_sound|apply attributes_sound]; assumption.
  - apply andb_true_iff in H as [H1 H2]. split; apply value_sound; assumption.
  - apply andb_true_iff in H as [H1 H2]. split; [apply letters_sound; assumption|]. destruct (ents e); [discriminate|discriminate].
  - apply value_sound. exact H.
  - apply andb_true_iff in H as [H1 H2]. split; [apply page_name_sound; assumption|]. destruct c; cbn [good_caption]; auto. apply value_sound. exact H2.
  - apply andb_true_iff in H as [H1 H2]. split; [apply address_sound|apply value_sound]; assumption.
  - apply andb_true_iff in H as [H1 H2]. split; [|apply value_sound; assumption]. eapply option_sound; [|exact H1]. apply word_sound.
  - do 3 (apply andb_true_iff in H as [H ?H]). apply good_when. conj; [destruct cds; discriminate|apply conditions_sound; assumption|]. split; [apply apart_sound; assumption|]. apply Forall_forall. intros x Hx. rewrite Forall_forall in IH. rewrite forallb_forall in H0. auto.
  - exact I.
Qed.
Definition label_b (o : option str) : bool := match o with Some s => negb (cmem 13 s) | None => true end.
Definition group_b (g : group) : bool := match g with Div a | Quoted a => attributes_b a | Aligned _ => true | Collapsible f a => attributes_b a && label_b (show_label f) && label_b (hide_label f) end.
Lemma group_sound g : group_b g = true -> good_group g.
Proof.
  destruct g as [a|w|a|f a]; cbn [group_b good_group]; intro H; auto; try (apply attributes_sound; exact H). apply andb_true_iff in H as [H H0]. apply andb_true_iff in H as [H H1]. split; [apply attributes_sound; assumption|].
  intros s [X|X]; rewrite X in *; apply not_mem; assumption.
Qed.
Fixpoint take_letters (s : str) : str := match s with c :: r => if is_alnum c then c :: take_letters r else [] | [] => [] end.
Lemma take_rest s : exists r, s = take_letters s ++ r /\ forallb is_alnum (take_letters s) = true /\ forall c q, r = c :: q -> is_alnum c = false.
Proof.
  induction s as [|c s (r & E1 & H1 & H2)]; [exists []; split; [reflexivity|split; [reflexivity|discriminate]]|]. cbn [take_letters]. destruct (is_alnum c) eqn:X.
  - exists r. cbn [app forallb]. rewrite X, <- E1. auto.
  - exists (c :: s). split; [reflexivity|]. split; [reflexivity|]. intros d q Y. injection Y as <- _. exact X.
Qed.
Fixpoint unclosed_b (names : list str) (s : str) : bool :=
  match s with
  | [] => true
  | _ :: r => match strip_prefix (lit "[[/") s with Some back => negb (seqb (take_letters back) []) && negb (smem (slower (take_letters back)) names) | None => true end && unclosed_b names r
  end.
Definition solid_b (s : str) : bool := match s with c :: _ => negb (cmem c [10; 13]%N) | [] => false end.
Definition text_b (names : list str) (s : str) : bool := solid_b s && solid_b (rev s) && unclosed_b names s.
Lemma text_sound names s : text_b names s = true -> good_text names s.
Proof.
  unfold text_b. intro H. apply andb_true_iff in H as [H H3]. apply andb_true_iff in H as [H1 H2]. split; [|split].
  - destruct s as [|c r]; [discriminate|]. exists c, r. split; [reflexivity|]. apply not_mem. exact H1.
  - destruct (rev s) as [|c r] eqn:X; [discriminate|]. exists c, (rev r). split; [|apply not_mem; exact H2]. rewrite <- (rev_involutive s), X. reflexivity.
  - clear H1 H2. induction s as [|x s IH]; intros front back X; [destruct front; discriminate|]. cbn [unclosed_b] in H3. apply andb_true_iff in H3 as [H1 H2].
    destruct front as [|y front]; cbn [app] in X; [|apply (IH H2 front); congruence]. rewrite X, strip_prefix_app in H1. apply andb_true_iff in H1 as [H1 H3]. destruct (take_rest back) as (r & E1 & Hl & Hr).
    exists (take_letters back), r. split; [exact E1|]. split; [apply letters_sound; unfold letters_b; rewrite H1, Hl; reflexivity|]. split; [exact Hr|]. intro Y. apply smem_In in Y. rewrite Y in H3. discriminate.
Qed.
Definition verbatim_b (v : verbatim) : bool := match v with Program l => label_b l | Document => true end.
Definition item_b (i : list attribute * list inline) : bool :=
  attributes_b (fst i) && (match fst i with [] => starts_flush_b (snd i) | _ => true end) && apart_b (snd i) && forallb inline_b (snd i).
Lemma inlines_sound l : forallb inline_b l = true -> Forall (good_inline ents) l.
Proof. intro H. apply Forall_forall. intros x Hx. apply inline_sound. rewrite forallb_forall in H. auto. Qed.
Lemma item_sound i : item_b i = true -> good_item ents i.
Proof.
  unfold item_b. intro H. do 3 (apply andb_true_iff in H as [H ?H]). split; [|split; [|split]]; [apply attributes_sound; assumption| |apply apart_sound; assumption|apply inlines_sound; assumption].
  intro X. rewrite X in *. apply starts_flush_sound. assumption.
Qed.
Definition firm_first (x : inline) (t : str -> str) : bool := match x with Text s => ends_b (t s) | Character _ | When _ _ _ | Break => false | _ => true end.
Definition firm_b (l : list inline) : bool :=
  match l with x :: _ => firm_first x (fun s => s) | [] => true end && match rev l with x :: _ => firm_first x (fun s => rev s) | [] => true end.
Lemma firm_sound l : firm_b l = true -> firm l.
Proof.
  unfold firm_b. intro H. apply andb_true_iff in H as [H1 H2]. split; intros x r X.
  - subst l. destruct x; cbn [firm_first] in H1; auto; try discriminate. apply ends_sound. exact H1.
  - subst l. rewrite rev_app_distr in H2. cbn [rev app] in H2. destruct x; cbn [firm_first] in H2; auto; try discriminate. intros c u ->. rewrite rev_app_distr in H2. exact (ends_sound _ H2 c (rev u) eq_refl).
Qed.
Definition cell_b (c : cell) : bool :=
  attributes_b (cell_attributes c) && negb (smem (lit "colspan") (map (fun kv => slower (fst kv)) (cell_attributes c))) &&
  (1 <=? wide c) && (N.of_nat (wide c) <? 4294967296)%N && firm_b (contents c) && apart_b (contents c) && forallb inline_b (contents c).
Lemma cell_sound c : cell_b c = true -> good_cell ents c.
Proof.
  unfold cell_b. intro H. do 6 (apply andb_true_iff in H as [H ?H]). unfold good_cell. conj.
  - apply attributes_sound; assumption.
  - intro X. apply smem_In in X. rewrite X in *. discriminate.
  - apply Nat.leb_le. assumption.
  - apply N.ltb_lt. assumption.
  - apply firm_sound. assumption.
  - apply apart_sound. assumption.
  - apply inlines_sound. assumption.
Qed.
Definition row_b (r : list attribute * list cell) : bool := attributes_b (fst r) && forallb cell_b (snd r).
Lemma row_sound r : row_b r = true -> good_row ents r.
Proof. unfold row_b. intro H. apply andb_true_iff in H as [H1 H2]. split; [apply attributes_sound; exact H1|]. apply Forall_forall. intros c Hc. rewrite forallb_forall in H2. apply cell_sound. auto. Qed.
Definition short_b (c : short) : bool :=
  (1 <=? columns c) && firm_b (said c) && forallb (fun x => match x with Break => false | _ => true end) (said c) && (match rev (said c) with Checkbox _ _ :: _ | Radio _ _ _ :: _ => false | _ => true end) && apart_b (said c) && forallb inline_b (said c).
Lemma short_sound c : short_b c = true -> good_short ents c.
Proof.
  unfold short_b. intro H. do 5 (apply andb_true_iff in H as [H ?H]). unfold good_short. split; [apply Nat.leb_le; assumption|]. split; [apply firm_sound; assumption|]. split; [intro X; rewrite forallb_forall in *; match goal with Y : forall x, In x (said c) -> match x with _ => _ end = true |- _ => discriminate (Y Break X) end|]. split; [|split; [apply apart_sound; assumption|apply inlines_sound; assumption]].
  intros x r X. rewrite X in *. rewrite rev_app_distr in *. cbn [rev app] in *. destruct x; try exact I; discriminate.
Qed.
Definition some_b {A} (l : list A) : bool := match l with [] => false | _ => true end.
Lemma some_sound {A} (l : list A) : some_b l = true -> l <> []. Proof. intros H ->. discriminate. Qed.
Fixpoint block_b (b : block) : bool :=
  match b with
  | Par l => negb (match l with [] => true | _ => false end) && apart_b l && forallb inline_b l
  | Group g o inside c => named_b (group_names g) o && named_b (group_names g) c && group_b g && forallb block_b inside
  | Verbatim v o t c => named_b (verbatim_names v) o && named_b (verbatim_names v) c && verbatim_b v && text_b (verbatim_names v) t
  | Items _ a items => attributes_b a && negb (match items with [] => true | _ => false end) && forallb item_b items
  | Grid a rows => attributes_b a && forallb row_b rows
  | Bars rows => some_b rows && forallb (fun r => some_b r && forallb short_b r) rows
  | Divider n | Clear _ n => 3 <=? n
  end.
Lemma block_sound b : block_b b = true -> good_block ents b.
Proof.
  induction b as [l|g o inside c IH|v o t c|n a items|a rows|rows|n|w n] using block_ind'; cbn [block_b]; intro H;
    [| | |apply andb_true_iff in H as [H H2]; apply andb_true_iff in H as [H1 H]; cbn [good_block]; conj; [apply attributes_sound; exact H1|destruct items; discriminate|apply Forall_forall; intros i Hi; rewrite forallb_forall in H2; apply item_sound; auto]|
     apply andb_true_iff in H as [H1 H2]; split; [apply attributes_sound; exact H1|apply Forall_forall; intros i Hi; rewrite forallb_forall in H2; apply row_sound; auto]|
     apply andb_true_iff in H as [H1 H2]; split; [apply some_sound; exact H1|apply Forall_forall; intros r Hr; rewrite forallb_forall in H2; specialize (H2 r Hr); apply andb_true_iff in H2 as [H2 H3]; split; [apply some_sound; exact H2|apply Forall_forall; intros c Hc; rewrite forallb_forall in H3; apply short_sound; auto]]|
     apply Nat.leb_le; exact H|apply Nat.leb_le; exact H]; repeat apply andb_true_iff in H as [H ?H].
  - cbn [good_block]. conj; [intros ->; discriminate|apply apart_sound; assumption|]. apply Forall_forall. intros x Hx. apply inline_sound. rewrite forallb_forall in H0. auto.
  - apply good_group_. conj; try (apply smem_In; assumption); [apply group_sound; assumption|]. apply Forall_forall. intros x Hx. rewrite Forall_forall in IH. rewrite forallb_forall in H0. auto.
  - cbn [good_block]. conj; try (apply smem_In; assumption); [|apply text_sound; assumption]. destruct v as [[l|]|]; cbn [good_verbatim]; auto. apply not_mem. assumption.
Qed.
Definition page_b (bs : list block) : bool := forallb (fun b => block_b b && (block_height b <? 100)) bs.
Lemma page_sound bs : page_b bs = true -> good_page ents bs.
Proof. intros H b Hb. unfold page_b in H. rewrite forallb_forall in H. specialize (H b Hb). apply andb_true_iff in H as [H1 H2]. split; [apply block_sound; exact H1|apply Nat.ltb_lt; exact H2]. Qed.
End Check.
Definition sample : list block :=
  [ Par [ Text (lit "a b, c. "); Box Mono (lit "TT") [(lit "class", lit "x"); (lit "data-z", []); (lit "onclick", lit "e"); (lit "Alt", lit "<5")] [Text (lit " q"); Box Strong (lit "b") [] [] (lit "STRONG")] (lit "mono");
          User true (lit "bob"); User false (lit "bo x"); Size (lit "50%") [Text (lit " s!")]; Checkbox true [(lit "class", lit "k")]; Radio false (lit "nm") [(lit "name", lit "k")]; Ruby (lit "x y") (lit "z"); Equation (lit "eq"); Character (lit "lt") ];
    Group (Div [(lit "style", lit "a")]) (lit "div")
      [ Group (Aligned Centred) (lit "=") [] (lit "=");
        Par [Text (lit "k")];
        Group (Collapsible (Folding (Some (lit "sh")) None (Some false) (Some (true, true))) [(lit "class", lit "v")]) (lit "Collapsible") [Par [Box Raised (lit "sup") [] [Text (lit "k & l")] (lit "Super")]; Par [Text (lit "m")]] (lit "collapsible") ] (lit "div");
    Group (Aligned Leftwards) (lit "<") [Group (Aligned Rightwards) (lit ">") [Group (Quoted []) (lit "quote") [] (lit "BLOCKQUOTE")] (lit ">")] (lit "<") ].
Example C74_case : good_page (en_entity (test_env (source sample))) sample /\ en_text (test_env (source sample)) = source sample /\
  map (fun c => if ceqb c 34 then 39%N else c) (source sample) = lit "a b, c. [[TT class='x' data-z='' onclick='e' Alt='<5']] q[[b]][[/STRONG]][[/mono]][[*user bob]][[user bo x]][[size 50%]] s![[/size]][[*checkbox class='k']][[radio nm name='k']][[rb x y|z]][[eref eq]][[char lt]]

[[div style='a']]
[[=]]
[[/=]]

k

[[Collapsible show='sh' folded='no' hideLocation='both' class='v']]
[[sup]]k & l[[/Super]]

m
[[/collapsible]]
[[/div]]

[[<]]
[[>]]
[[quote]]
[[/BLOCKQUOTE]]
[[/>]]
[[/<]]" /\
  page_html [] [] (en_entity (test_env (source sample))) (lit "IMG") (lit "+ open") (lit "- hide") (fun s => s) [] (fun _ _ => true) (fun _ _ => []) sample = html "<wj-body class='wj-body'><p>a b, c. <code class='wj-monospace x' alt='&lt;5' data-z> q<strong></strong></code><span class='wj-user-info'><a class='wj-user-info-link' href='/user:info/bob'><span class='wj-karma' data-karma='5'><svg class='wj-sprite sprite-wj-karma' viewBox='0 0 64 114'><use href='/files--static/media/ui.svg#wj-karma'></use></svg></span><img class='wj-user-info-avatar' src='IMG'><span class='wj-user-info-name'>bob</span></a></span><span class='wj-user-info'><a class='wj-user-info-link' href='/user:info/bo x'><span class='wj-user-info-name'>bo x</span></a></span><span style='font-size: 50%;'> s!</span><input type='checkbox' checked class='k'><input name='nm k' type='radio'><ruby>x y<rp>(</rp><rt>z</rt><rp>)</rp></ruby><span class='wj-equation-ref'><wj-equation-ref-marker class='wj-equation-ref-marker' type='button' data-name='eq'>eq</wj-equation-ref-marker><span class='wj-equation-ref-tooltip' aria-hidden='true'></span></span>&lt;</p><div style='a'><div class='wj-align-center'></div><p>k</p><details class='wj-collapsible v' open data-show-top data-show-bottom><summary class='wj-collapsible-button wj-collapsible-button-top'><span class='wj-collapsible-show-text'>sh</span><span class='wj-collapsible-hide-text'>- hide</span></summary><div class='wj-collapsible-content'><p><sup>k &amp; l</sup></p><p>m</p></div><wj-collapsible-button-bottom class='wj-collapsible-button wj-collapsible-button-bottom'><span class='wj-collapsible-hide-text'>- hide</span></wj-collapsible-button-bottom></details></div><div class='wj-align-left'><div class='wj-align-right'><blockquote></blockquote></div></div></wj-body>".
Proof. conj; [apply page_sound; vm_compute; reflexivity|vm_compute; reflexivity..]. Qed.

Example C74_text_case : let said := lit "a b, c.  qbobbo x s!x y(z)[eq]<


k

k & l

m" in
  trims_to (page_lines [] [] (en_entity (test_env (source sample))) [] (fun _ _ => []) sample) said /\
  page_lines [] [] (fun _ => None) [] (fun _ _ => []) [Par [Text (lit "a "); Box Invisible (lit "invisible") [] [Text (lit "x y"); Equation (lit "e")] (lit "invisible"); Box Hidden (lit "hidden") [] [Text (lit "no")] (lit "hidden")]] = [10%N] ++ lit "a    [e]" ++ [10%N].
Proof.
  intro said. split; [|vm_compute; reflexivity]. exists 1, 4. split; [vm_compute; reflexivity|]. intros c r [H|H].
  - injection H as <- _. discriminate.
  - apply (f_equal (@rev _)) in H. rewrite rev_app_distr in H. vm_compute in H. injection H as <- _. discriminate.
Qed.

(** The condition on texts that start with a blank is needed: a blank (also several) at the start of a
    block without attributes is lost, although it is shown when the block has an attribute. *)
Theorem C74_leading_blank_refuted : exists E toks t, parsed E toks t /\ en_text E = inline_source (Box Strong (lit "b") [] [Text (lit " x")] (lit "b")) /\ tr_errors t = [] /\
  html_render release_renv 1 t = Html (html "<wj-body class='wj-body'><p><strong>x</strong></p></wj-body>") [] [].
Proof. exists (test_env (lit "[[b]] x[[/b]]")). enough (X : exists toks t, parsed (test_env (lit "[[b]] x[[/b]]")) toks t /\ tr_errors t = [] /\ html_render release_renv 1 t = Html (html "<wj-body class='wj-body'><p><strong>x</strong></p></wj-body>") [] []).
  - destruct X as (toks & t & H1 & H2 & H3). exists toks, t. conj; auto.
  - page (lit "[[b]] x[[/b]]").
Qed.
Print Assumptions C74_leading_blank_refuted.

(** *** C75: links lead where they say *)
(** A page with links of all kinds. *)
Definition linked_page : list block :=
  [ Par [ Text (lit "see "); PageLink false (Page None None (lit "Some Page") None None) Bare; PageLink true (Page None (Some (lit "scp")) (lit "the page") (Some (lit "a/b")) (Some (lit "toc"))) (Caption (lit "x & y"));
          Box Strong (lit "b") [] [PageLink false (Page (Some (lit "other")) None (lit "start") None (Some (lit "s"))) Bare] (lit "b"); PageLink false (Page None None (lit "a") (Some (lit "b")) None) Title ];
    Group (Div []) (lit "div") [Par [Link true (Web (lit "https://example.com/?a=1#b")) (lit "ex"); Text (lit ", "); Link false (Local (lit "My") (Some (lit "edit"))) (lit "me"); Jump (Some (lit "Top")) (lit "up"); Jump None (lit "no where")]] (lit "div") ].
Example C75_case : good_page (fun _ => None) linked_page /\
  source linked_page = lit "see [[[Some Page]]][[[*scp:the page/a/b#toc|x & y]]][[b]][[[:other:start#s]]][[/b]][[[a/b|]]]

[[div]]
[*https://example.com/?a=1#b ex], [/My/edit me][#Top up][# no where]
[[/div]]" /\
  page_html [] [] (fun _ => None) [] [] [] (map (fun c => if ceqb c 32 then 45%N else lower c)) (lit "here") (fun s _ => seqb s (lit "here")) (fun s p => lit "title of " ++ p) linked_page = html "<wj-body class='wj-body'><p>see <a href='/some-page' class='wj-link wj-link-internal' data-link-type='page'>Some Page</a><a href='/scp:the-page/a/b#toc' target='_blank' class='wj-link wj-link-internal' data-link-type='page'>x &amp; y</a><strong><a href='https://other.wikijump.com/start#s' class='wj-link wj-link-internal wj-link-missing' data-link-type='page'>start#s</a></strong><a href='/a/b' class='wj-link wj-link-internal' data-link-type='page'>title of a</a></p><div><p><a href='https://example.com/?a=1#b' target='_blank' class='wj-link wj-link-external' data-link-type='direct'>ex</a>, <a href='/my/edit' class='wj-link wj-link-internal' data-link-type='direct'>me</a><a href='#top' class='wj-link wj-link-anchor' data-link-type='anchor'>up</a><a href='javascript:;' class='wj-link wj-link-anchor' data-link-type='anchor'>no where</a></p></div></wj-body>" /\
  page_links [] [] (fun s => s) linked_page = [Internal None (lit "Some Page"); Internal None (lit "scp:the page"); Internal (Some (lit "other")) (lit "start"); Internal None (lit "a"); External (lit "https://example.com/?a=1#b"); Internal None (lit "My/edit"); Internal None (lit "#Top")].
Proof. conj; [apply page_sound; vm_compute; reflexivity|vm_compute; reflexivity..]. Qed.

Definition one_link (href : str) (tab : bool) (class : String.string) (kind : String.string) (shown : str) : str :=
  html "<wj-body class='wj-body'><p><a href='" ++ escape href ++ html "'" ++ (if tab then html " target='_blank'" else []) ++ html " class='wj-link " ++ lit class ++ html "' data-link-type='" ++ lit kind ++ html "'>" ++ escape shown ++ html "</a></p></wj-body>".
Lemma one_link_page tg ct ents a o h nrm st ex ti x href tab class kind shown : href <> [] -> ~ In 34%N (lit class) -> inline_html tg ct ents a nrm st ex ti x = link_html href tab (lit class) kind shown ->
  escape (lit class) = lit class -> escape (lit kind) = lit kind -> lit kind <> [] -> left_of tg ct [x] = [x] ->
  page_html tg ct ents a o h nrm st ex ti [Par [x]] = one_link href tab class kind shown.
Proof.
  intros Hh _ Hx Hc Hk Hn Hv. unfold page_html, one_link. cbn [flat_map block_html]. rewrite Hv. cbn [flat_map]. rewrite !app_nil_r, Hx. unfold link_html, SpecBlocks.element, open_tag. change (shown_attributes []) with (@nil attribute). rewrite merged_alone.
  rewrite !flat_map_app. cbn [flat_map]. unfold attribute_html at 1. cbn [fst snd]. destruct href as [|h0 h1]; [congruence|]. set (hr := h0 :: h1). clearbody hr.
  assert (X : flat_map attribute_html (if tab then [(lit "target", lit "_blank")] else []) = if tab then html " target='_blank'" else []) by (destruct tab; reflexivity). rewrite X.
  unfold attribute_html. cbn [fst snd]. change (lit "wj-link " ++ lit class) with (119%N :: lit "j-link " ++ lit class). cbv iota. change (119%N :: lit "j-link " ++ lit class) with (lit "wj-link " ++ lit class). rewrite escape_app, Hc.
  destruct (lit kind) as [|k0 k1] eqn:Ek; [congruence|]. rewrite Hk. rewrite <- !app_assoc. reflexivity.
Qed.
(** A link in three brackets leads to the page it names -- on this site or on another --, with the path
    and the anchor after it, in a new tab if there is an asterisk; it is marked missing exactly if the
    page does not exist; it shows its caption, the title of the page if the caption is left empty, or the
    name of the page if there is none; and the page is recorded as linked to. *)
Theorem C75_page_link : forall E R n (tab : bool) p c, good_page_name p -> good_caption c ->
  en_text E = (if tab then lit "[[[*" else lit "[[[") ++ page_source p ++ caption_source c ++ lit "]]]" -> 1 <= n ->
  (forall s, re_normalize R s = en_normalize E s) -> (forall c, is_alnum c = true -> re_word R c = true) ->
  let site := match on_site p with Some s => s | None => re_site R end in
  exists toks t, parsed E toks t /\ tr_errors t = [] /\
    html_render R n t = Html
      (one_link (match on_site p with Some s => lit "https://" ++ s ++ lit ".wikijump.com/" | None => lit "/" end ++ re_normalize R (full_name p) ++ more_of p) tab
         (if re_page_exists R site (full_name p) then "wj-link-internal" else "wj-link-internal wj-link-missing") "page"
         match c with Caption s => s | Title => get_page_title site (full_name p) | Bare => page_name p ++ match on_site p, category p with None, None => [] | _, _ => more_of p end end)
      [PR (on_site p) (full_name p)] [].
Proof.
  intros E R n tab p c Hp Hc He Hn Hno Hw site. destruct (C74_blocks E R n [Par [PageLink tab p c]]) as (toks & t & H1 & H2 & _ & _ & _ & _ & H3); auto.
  - intros b [<-|[]]. split; [|cbn; lia]. cbn [good_block]. split; [discriminate|]. split; [|constructor; [split; auto|constructor]]. apply apart_one. discriminate.
  - rewrite He. unfold source. cbn [block_source flat_map inline_source]. rewrite !app_nil_r. reflexivity.
  - exists toks, t. split; [exact H1|]. split; [exact H2|]. rewrite H3. f_equal. apply one_link_page; try discriminate.
    + destruct (on_site p); discriminate.
    + intro X. apply cmem_In in X. destruct (re_page_exists R site (full_name p)); vm_compute in X; discriminate.
    + reflexivity.
    + destruct (re_page_exists R site (full_name p)); reflexivity.
    + reflexivity.
    + reflexivity.
Qed.
Print Assumptions C75_page_link.
(** A link in one bracket leads to the address it is written with, outside or on this site; one that
    starts with a number sign leads to the place it names, on this page. *)
Theorem C75_bracket_link : forall E R n (tab : bool) a c, good_address a -> value c ->
  en_text E = (if tab then lit "[*" else lit "[") ++ address_source a ++ lit " " ++ c ++ lit "]" -> 1 <= n ->
  (forall s, re_normalize R s = en_normalize E s) -> (forall c, is_alnum c = true -> re_word R c = true) ->
  exists toks t, parsed E toks t /\ tr_errors t = [] /\
    html_render R n t = match a with
      | Web url => Html (one_link url tab "wj-link-external" "direct" c) [] [url]
      | Local name more => Html (one_link (lit "/" ++ re_normalize R name ++ after "/" more) tab "wj-link-internal" "direct" c) [PR None (name ++ after "/" more)] []
      end.
Proof.
  intros E R n tab a c Ha Hc He Hn Hno Hw. destruct (C74_blocks E R n [Par [Link tab a c]]) as (toks & t & H1 & H2 & _ & _ & _ & _ & H3); auto.
  - intros b [<-|[]]. split; [|cbn; lia]. cbn [good_block]. split; [discriminate|]. split; [|constructor; [split; auto|constructor]]. apply apart_one. discriminate.
  - rewrite He. unfold source. cbn [block_source flat_map inline_source]. rewrite !app_nil_r. reflexivity.
  - exists toks, t. split; [exact H1|]. split; [exact H2|]. rewrite H3. destruct a as [url|name more]; f_equal; (apply one_link_page; [|intro X; apply cmem_In in X; vm_compute in X; discriminate|reflexivity|reflexivity|reflexivity|discriminate|reflexivity]).
    + destruct Ha as (sc & r & [<-|[<-|[<-|[]]]] & -> & _); discriminate.
    + discriminate.
Qed.
Print Assumptions C75_bracket_link.
Theorem C75_jump : forall E R n place c, (forall s, place = Some s -> word s) -> value c ->
  en_text E = lit "[#" ++ match place with Some s => s | None => [] end ++ lit " " ++ c ++ lit "]" -> 1 <= n ->
  (forall s, re_normalize R s = en_normalize E s) -> (forall c, is_alnum c = true -> re_word R c = true) ->
  exists toks t links, parsed E toks t /\ tr_errors t = [] /\
    html_render R n t = Html (one_link match place with Some s => lit "#" ++ re_normalize R s | None => lit "javascript:;" end false "wj-link-anchor" "anchor" c) links [].
Proof.
  intros E R n place c Hp Hc He Hn Hno Hw. destruct (C74_blocks E R n [Par [Jump place c]]) as (toks & t & H1 & H2 & _ & _ & _ & _ & H3); auto.
  - intros b [<-|[]]. split; [|cbn; lia]. cbn [good_block]. split; [discriminate|]. split; [|constructor; [split; auto|constructor]]. apply apart_one. discriminate.
  - rewrite He. unfold source. cbn [block_source flat_map inline_source]. rewrite !app_nil_r. reflexivity.
  - exists toks, t. eexists. split; [exact H1|]. split; [exact H2|]. rewrite H3. rewrite (one_link_page _ _ _ _ _ _ _ _ _ _ _ match place with Some s => lit "#" ++ re_normalize R s | None => lit "javascript:;" end false "wj-link-anchor" "anchor" c).
    + destruct place; reflexivity.
    + destruct place; discriminate.
    + intro X; apply cmem_In in X; vm_compute in X; discriminate.
    + reflexivity.
    + reflexivity.
    + reflexivity.
    + discriminate.
    + reflexivity.
Qed.
Print Assumptions C75_jump.
Example C75_hypotheses : (forall s, re_normalize release_renv s = en_normalize (test_env []) s) /\ (forall c, is_alnum c = true -> re_word release_renv c = true) /\
  good_page_name (Page (Some (lit "other")) (Some (lit "scp")) (lit "the page") (Some (lit "a/b")) (Some (lit "toc"))) /\ good_address (Web (lit "https://example.com/?a=1#b")) /\ good_address (Local (lit "My") (Some (lit "edit"))).
Proof. conj; [reflexivity|intros c H; change (is_alnum c || ceqb c 95 = true); rewrite H; reflexivity|apply page_name_sound; vm_compute; reflexivity|apply address_sound; vm_compute; reflexivity..]. Qed.
(** Outside addresses in three brackets are not among those pages: without a caption the link does not
    show its address but what comes after the first colon, as if the scheme were a category. *)
Theorem C75_url_label_refuted : exists toks t, parsed (test_env (lit "[[[https://example.com]]]")) toks t /\ tr_errors t = [] /\
  html_render release_renv 1 t = Html (one_link (lit "https://example.com") false "wj-link-external" "direct" (lit "//example.com")) [] [lit "https://example.com"].
Proof. page (lit "[[[https://example.com]]]"). Qed.
Print Assumptions C75_url_label_refuted.

(** *** C76: text in code and html blocks is not wikitext *)
(** Whatever the text of a [[code]] block is -- markup, other blocks, unclosed or closing tags of other
    blocks, comments, quotes, several blank lines --, as long as it does not close the block and neither
    starts nor ends with a line break, it is stored as it is, and the page shows exactly that text,
    escaped, under the name of its language. *)
Theorem C76_code : forall E R n language text, good_text [lit "code"] text -> (forall l, language = Some l -> ~ In 13%N l) ->
  en_text E = lit "[[code" ++ match language with Some l => html " type='" ++ quote_inside l ++ html "'" | None => [] end ++ lit "]]" ++ [10%N] ++ text ++ [10%N] ++ lit "[[/code]]" -> 1 <= n ->
  (forall s, re_normalize R s = en_normalize E s) -> (forall c, is_alnum c = true -> re_word R c = true) ->
  exists toks t, parsed E toks t /\ tr_errors t = [] /\ tr_code t = [CB text None] /\ tr_html t = [] /\
    html_render R n t = Html (html "<wj-body class='wj-body'><wj-code class='wj-code wj-language-" ++ escape (slower (or_default language (lit "none"))) ++
      html "'><div class='wj-code-panel'><wj-code-copy type='button' class='wj-code-copy' title='Copy to Clipboard'><svg class='wj-sprite sprite-wj-clipboard' viewBox='0 0 24 24'><use href='/files--static/media/ui.svg#wj-clipboard'></use></svg><svg class='wj-sprite sprite-wj-clipboard-success' viewBox='0 0 24 24'><use href='/files--static/media/ui.svg#wj-clipboard-success'></use></svg></wj-code-copy><span class='wj-code-language'>" ++
      escape (slower (or_default language [])) ++ html "</span></div><pre><code>" ++ escape text ++ html "</code></pre></wj-code></wj-body>") [] [].
Proof.
  intros E R n l text Ht Hl He Hn Hno Hw. destruct (C74_blocks E R n [Verbatim (Program l) (lit "code") text (lit "code")]) as (toks & t & H1 & H2 & _ & _ & H3 & H4 & H5); auto.
  - intros b [<-|[]]. split; [|cbn; lia]. cbn [good_block]. conj; [left; reflexivity|left; reflexivity|destruct l; cbn; auto|exact Ht].
  - rewrite He. unfold source. cbn [block_source flat_map]. rewrite app_nil_r. destruct l as [l|]; [|reflexivity]. cbn [verbatim_attributes optional attributes_source flat_map]. rewrite app_nil_r. unfold attribute_source. cbn [fst snd]. rewrite <- !app_assoc. reflexivity.
  - exists toks, t. cbn [flat_map block_programs block_documents app map] in *. conj; auto. rewrite H5. f_equal. unfold page_html. cbn [flat_map block_html]. rewrite app_nil_r. unfold verbatim_html, SpecBlocks.element at 1, open_tag. change (shown_attributes []) with (@nil attribute). rewrite merged_alone.
    cbn [flat_map]. unfold attribute_html. cbn [fst snd]. set (x := slower (or_default l (lit "none"))). change (lit "wj-code wj-language-" ++ x) with (119%N :: lit "j-code wj-language-" ++ x). cbv iota. change (119%N :: lit "j-code wj-language-" ++ x) with (lit "wj-code wj-language-" ++ x). rewrite escape_app.
    set (y := escape (slower (or_default l []))). set (z := escape text). clearbody x y z.
    assert (W : classed "div" "wj-code-panel" (SpecBlocks.element (lit "wj-code-copy") [(lit "type", lit "button"); (lit "class", lit "wj-code-copy"); (lit "title", lit "Copy to Clipboard")] [] (sprite_html "wj-clipboard" ++ sprite_html "wj-clipboard-success") ++ classed "span" "wj-code-language" y) =
      html "<div class='wj-code-panel'><wj-code-copy type='button' class='wj-code-copy' title='Copy to Clipboard'><svg class='wj-sprite sprite-wj-clipboard' viewBox='0 0 24 24'><use href='/files--static/media/ui.svg#wj-clipboard'></use></svg><svg class='wj-sprite sprite-wj-clipboard-success' viewBox='0 0 24 24'><use href='/files--static/media/ui.svg#wj-clipboard-success'></use></svg></wj-code-copy><span class='wj-code-language'>" ++ y ++ html "</span></div>").
    { unfold classed, SpecBlocks.element. rewrite <- !app_assoc. reflexivity. }
    rewrite W. rewrite <- !app_assoc. reflexivity.
Qed.
Print Assumptions C76_code.
(** And so is the text of an [[html]] block, which the page only refers to. *)
Theorem C76_html : forall E R n text, good_text [lit "html"] text ->
  en_text E = lit "[[html]]" ++ [10%N] ++ text ++ [10%N] ++ lit "[[/html]]" -> 1 <= n ->
  (forall s, re_normalize R s = en_normalize E s) -> (forall c, is_alnum c = true -> re_word R c = true) ->
  exists toks t, parsed E toks t /\ tr_errors t = [] /\ tr_html t = [text] /\ tr_code t = [] /\
    html_render R n t = Html (html "<wj-body class='wj-body'><iframe src='https://example.com/' crossorigin></iframe></wj-body>") [] [].
Proof.
  intros E R n text Ht He Hn Hno Hw. destruct (C74_blocks E R n [Verbatim Document (lit "html") text (lit "html")]) as (toks & t & H1 & H2 & _ & _ & H3 & H4 & H5); auto.
  - intros b [<-|[]]. split; [|cbn; lia]. cbn [good_block]. conj; [left; reflexivity|left; reflexivity|exact I|exact Ht].
  - rewrite He. unfold source. cbn [block_source flat_map]. rewrite app_nil_r. reflexivity.
  - exists toks, t. cbn [flat_map block_programs block_documents app map] in *. conj; auto.
Qed.
Print Assumptions C76_html.
Example C76_case : good_text [lit "code"] (lit "[[div]] **x** [!-- [[[p]]] @@ <b>&amp;</b> [[/div]] --]



[[code]] ]] [[/html]] || ~ __") /\ good_text [lit "html"] (lit "<script>[[/code]]</script>").
Proof. split; apply text_sound; vm_compute; reflexivity. Qed.
(** The conditions are needed.  A text that starts or ends with an empty line gets a line break it does
    not have; and the text also ends at what is not a closing tag. *)
Definition code_page (text : str) : str := lit "[[code]]" ++ [10%N] ++ text ++ [10%N] ++ lit "[[/code]]".
Theorem C76_empty_lines_refuted :
  (exists E toks t, parsed E toks t /\ en_text E = code_page ([10%N] ++ lit "x") /\ tr_errors t = [] /\ tr_code t = [CB ([10; 10]%N ++ lit "x") None]) /\
  (exists E toks t, parsed E toks t /\ en_text E = code_page (lit "x" ++ [10%N]) /\ tr_errors t = [] /\ tr_code t = [CB (lit "x" ++ [10; 10]%N) None]).
Proof.
  split.
  - enough (X : exists toks t, parsed (test_env (code_page ([10%N] ++ lit "x"))) toks t /\ (tr_errors t = [] /\ tr_code t = [CB ([10; 10]%N ++ lit "x") None])).
    + destruct X as (toks & t & H1 & H2 & H3). exists (test_env (code_page ([10%N] ++ lit "x"))), toks, t. conj; auto.
    + page (code_page ([10%N] ++ lit "x")).
  - enough (X : exists toks t, parsed (test_env (code_page (lit "x" ++ [10%N]))) toks t /\ (tr_errors t = [] /\ tr_code t = [CB (lit "x" ++ [10; 10]%N) None])).
    + destruct X as (toks & t & H1 & H2 & H3). exists (test_env (code_page (lit "x" ++ [10%N]))), toks, t. conj; auto.
    + page (code_page (lit "x" ++ [10%N])).
Qed.
Print Assumptions C76_empty_lines_refuted.
Theorem C76_false_end_refuted : exists E toks t, parsed E toks t /\ en_text E = code_page (lit "a [[/[[code]] b") /\ tr_code t = [CB (lit "a ") None].
Proof.
  enough (X : exists toks t, parsed (test_env (code_page (lit "a [[/[[code]] b"))) toks t /\ tr_code t = [CB (lit "a ") None]).
  - destruct X as (toks & t & H1 & H2). exists (test_env (code_page (lit "a [[/[[code]] b"))), toks, t. conj; auto.
  - page (code_page (lit "a [[/[[code]] b")).
Qed.
Print Assumptions C76_false_end_refuted.

(** *** C77: conditional text is there exactly when its conditions hold *)
(** What a list of conditions says, in words: every tag with a plus sign is there, no tag with a minus sign
    is there, and if there are tags without a sign, one of them is there. *)
Definition satisfied (present : str -> Prop) (cs : list (sign * str)) : Prop :=
  (forall t, In (Must, t) cs -> present t) /\ (forall t, In (MustNot, t) cs -> ~ present t) /\
  ((exists t, In (OneOf, t) cs) -> exists t, In (OneOf, t) cs /\ present t).
Lemma meets_satisfied present cs : meets present cs = true <-> satisfied (fun t => In t present) cs.
Proof.
  unfold meets, satisfied. rewrite andb_true_iff, forallb_forall, orb_true_iff, negb_true_iff, existsb_exists. split.
  - intros [H1 H2]. conj.
    + intros t Ht. specialize (H1 _ Ht). apply smem_In. exact H1.
    + intros t Ht X. specialize (H1 _ Ht). cbn [fst snd] in H1. apply smem_In in X. rewrite X in H1. discriminate.
    + intros (t & Ht). destruct H2 as [H2|([k t'] & Hc & H2)].
      * exfalso. apply not_true_iff_false in H2. apply H2, existsb_exists. exists (OneOf, t). auto.
      * apply andb_true_iff in H2 as [H2 H3]. destruct k; try discriminate. exists t'. split; auto. apply smem_In. exact H3.
  - intros (H1 & H2 & H3). split.
    + intros [[] t] Hc; cbn [fst snd]; auto; [apply smem_In; auto|]. apply negb_true_iff, not_true_iff_false. intro X. apply smem_In in X. exact (H2 t Hc X).
    + destruct (existsb is_one cs) eqn:X; [|left; reflexivity]. right. apply existsb_exists in X as ([k t] & Hc & Hk). destruct k; try discriminate. destruct (H3 (ex_intro _ t Hc)) as (t' & Hc' & Ht'). exists (OneOf, t'). split; auto. apply smem_In. exact Ht'.
Qed.
(** On a page that has only one category, its own, one of the conditions that do not have a minus sign
    (if there are any) must name it, and none with a minus sign may. *)
Definition satisfied_by_category (own : str) (cs : list (sign * str)) : Prop :=
  ~ In (MustNot, own) cs /\ ((exists k t, k <> MustNot /\ In (k, t) cs) -> exists k, k <> MustNot /\ In (k, own) cs).
Lemma category_satisfied tg own cs : holds tg own true cs = true <-> satisfied_by_category own cs.
Proof.
  unfold holds. rewrite meets_satisfied. unfold satisfied, satisfied_by_category. set (f := fun c : sign * str => (match fst c with Must => OneOf | s => s end, snd c)).
  assert (N : forall t, In (MustNot, t) (map f cs) <-> In (MustNot, t) cs).
  { intro t. rewrite in_map_iff. split; [intros ([[] t'] & Hf & Hi); try discriminate; injection Hf as <-; exact Hi|]. intro Hi. exists (MustNot, t). auto. }
  assert (P : forall t, In (OneOf, t) (map f cs) <-> exists k, k <> MustNot /\ In (k, t) cs).
  { intro t. rewrite in_map_iff. split.
    - intros ([k t'] & Hf & Hi). exists k. destruct k; try discriminate; injection Hf as <-; (split; [discriminate|exact Hi]).
    - intros (k & Hk & Hi). exists (k, t). split; auto. destruct k; try reflexivity. congruence. }
  assert (M : forall t, ~ In (Must, t) (map f cs)) by (intros t X; apply in_map_iff in X as ([[] t'] & Hf & _); discriminate).
  split.
  - intros (_ & H2 & H3). split; [intro X; apply (H2 own); [apply N; exact X|left; reflexivity]|]. intros (k & t & Hk & Hi). destruct H3 as (t' & Ht & [<-|[]]); [exists t; apply P; eauto|]. apply P. exact Ht.
  - intros [H1 H2]. conj.
    + intros t X. destruct (M t X).
    + intros t X [<-|[]]. apply H1, N. exact X.
    + intros (t & X). apply P in X as (k & Hk & Hi). destruct H2 as (k' & Hk' & Hi'); [eauto|]. exists own. split; [apply P; eauto|left; reflexivity].
Qed.
(** A page with conditional text in some paragraph is shown, and its links are recorded, as if the text
    (which may have any markup in it, also further conditions) was written there without condition, if the
    conditions hold for the tags of the page, and as if it was not there at all if they do not. *)
Lemma conditional E R n bs1 front b cs inside back bs2 : let bs := bs1 ++ Par (front ++ When b cs inside :: back) :: bs2 in
  good_page (en_entity E) bs -> en_text E = source bs -> 1 <= n -> (forall s, re_normalize R s = en_normalize E s) -> (forall c, is_alnum c = true -> re_word R c = true) ->
  exists toks t, parsed E toks t /\ tr_errors t = [] /\
    let own := match en_category E with Some c => c | None => lit "_default" end in
    let bs' := bs1 ++ Par (front ++ (if holds (en_tags E) own b cs then inside else []) ++ back) :: bs2 in
    html_render R n t = Html (page_html (en_tags E) own (en_entity E) dummy_avatar (get_message "collapsible-open") (get_message "collapsible-hide") (re_normalize R) (re_site R) (re_page_exists R) get_page_title bs')
      (map (fun l => PR (fst l) (snd l)) (internal_links (page_links (en_tags E) own (re_normalize R) bs'))) (external_links (page_links (en_tags E) own (re_normalize R) bs')).
Proof.
  intros bs Hg He Hn Hno Hw. destruct (C74_blocks E R n bs Hg He Hn Hno Hw) as (toks & t & H1 & H2 & _ & _ & _ & _ & H3). exists toks, t. split; [exact H1|]. split; [exact H2|]. cbv zeta. rewrite H3. clear H3.
  set (own := match en_category E with Some c => c | None => lit "_default" end).
  assert (X1 : forall a o h nr si ex ti, page_html (en_tags E) own (en_entity E) a o h nr si ex ti bs = page_html (en_tags E) own (en_entity E) a o h nr si ex ti (bs1 ++ Par (front ++ (if holds (en_tags E) own b cs then inside else []) ++ back) :: bs2)).
  { intros. unfold page_html, bs. f_equal. f_equal. rewrite !flat_map_app. cbn [flat_map]. f_equal. f_equal. cbn [block_html].
    replace (left_of (en_tags E) own (front ++ When b cs inside :: back)) with (left_of (en_tags E) own (front ++ (if holds (en_tags E) own b cs then inside else []) ++ back)); [reflexivity|].
    unfold left_of. rewrite !flat_map_app. cbn [flat_map kept]. destruct (holds (en_tags E) own b cs); reflexivity. }
  assert (X2 : forall nr, page_links (en_tags E) own nr bs = page_links (en_tags E) own nr (bs1 ++ Par (front ++ (if holds (en_tags E) own b cs then inside else []) ++ back) :: bs2)).
  { intros. unfold page_links, bs. rewrite !flat_map_app. cbn [flat_map]. f_equal. f_equal. cbn [block_links]. rewrite !flat_map_app. cbn [flat_map inline_links]. destruct (holds (en_tags E) own b cs); reflexivity. }
  rewrite X1, X2. reflexivity.
Qed.
Definition shows (E : env) (R : renv) (n : nat) (t : tree) (bs : list block) : Prop :=
  let own := match en_category E with Some c => c | None => lit "_default" end in
  html_render R n t = Html (page_html (en_tags E) own (en_entity E) dummy_avatar (get_message "collapsible-open") (get_message "collapsible-hide") (re_normalize R) (re_site R) (re_page_exists R) get_page_title bs)
    (map (fun l => PR (fst l) (snd l)) (internal_links (page_links (en_tags E) own (re_normalize R) bs))) (external_links (page_links (en_tags E) own (re_normalize R) bs)).
Theorem C77_iftags : forall E R n bs1 front cs inside back bs2, let bs := bs1 ++ Par (front ++ When false cs inside :: back) :: bs2 in
  good_page (en_entity E) bs -> en_text E = source bs -> 1 <= n -> (forall s, re_normalize R s = en_normalize E s) -> (forall c, is_alnum c = true -> re_word R c = true) ->
  exists toks t, parsed E toks t /\ tr_errors t = [] /\
    (satisfied (fun tag => In tag (en_tags E)) cs -> shows E R n t (bs1 ++ Par (front ++ inside ++ back) :: bs2)) /\
    (~ satisfied (fun tag => In tag (en_tags E)) cs -> shows E R n t (bs1 ++ Par (front ++ back) :: bs2)).
Proof.
  intros E R n bs1 front cs inside back bs2 bs Hg He Hn Hno Hw. destruct (conditional E R n bs1 front false cs inside back bs2 Hg He Hn Hno Hw) as (toks & t & H1 & H2 & H3). exists toks, t. split; [exact H1|]. split; [exact H2|]. cbv zeta in H3. unfold holds in H3.
  split; intro Hs; [apply meets_satisfied in Hs; rewrite Hs in H3; exact H3|]. rewrite <- meets_satisfied in Hs. apply not_true_iff_false in Hs. rewrite Hs in H3. exact H3.
Qed.
Print Assumptions C77_iftags.
Theorem C77_ifcategory : forall E R n bs1 front cs inside back bs2, let bs := bs1 ++ Par (front ++ When true cs inside :: back) :: bs2 in
  let own := match en_category E with Some c => c | None => lit "_default" end in
  good_page (en_entity E) bs -> en_text E = source bs -> 1 <= n -> (forall s, re_normalize R s = en_normalize E s) -> (forall c, is_alnum c = true -> re_word R c = true) ->
  exists toks t, parsed E toks t /\ tr_errors t = [] /\
    (satisfied_by_category own cs -> shows E R n t (bs1 ++ Par (front ++ inside ++ back) :: bs2)) /\
    (~ satisfied_by_category own cs -> shows E R n t (bs1 ++ Par (front ++ back) :: bs2)).
Proof.
  intros E R n bs1 front cs inside back bs2 bs own Hg He Hn Hno Hw. destruct (conditional E R n bs1 front true cs inside back bs2 Hg He Hn Hno Hw) as (toks & t & H1 & H2 & H3). exists toks, t. split; [exact H1|]. split; [exact H2|]. cbv zeta in H3.
  split; intro Hs; [apply (category_satisfied (en_tags E)) in Hs; fold own in H3; rewrite Hs in H3; exact H3|]. rewrite <- (category_satisfied (en_tags E)) in Hs. apply not_true_iff_false in Hs. fold own in H3. rewrite Hs in H3. exact H3.
Qed.
Print Assumptions C77_ifcategory.
Definition tagged_page : list block :=
  [ Par [Text (lit "a "); When false [(Must, lit "scp"); (MustNot, lit "old"); (OneOf, lit "keter"); (OneOf, lit "safe")] [Text (lit " b"); Box Strong (lit "b") [] [When true [(OneOf, lit "component"); (MustNot, lit "x")] [Text (lit "c")]] (lit "b")]];
    Par [When false [(MustNot, lit "scp")] [Text (lit "none")]]; Par [Text (lit "d")] ].
Example C77_case : good_page (fun _ => None) tagged_page /\
  source tagged_page = lit "a [[iftags +scp -old keter safe]] b[[b]][[ifcategory component -x]]c[[/ifcategory]][[/b]][[/iftags]]

[[iftags -scp]]none[[/iftags]]

d" /\
  page_html [lit "safe"; lit "scp"] (lit "component") (fun _ => None) [] [] [] (fun s => s) [] (fun _ _ => true) (fun _ _ => []) tagged_page = html "<wj-body class='wj-body'><p>a  b<strong>c</strong></p><p>d</p></wj-body>" /\
  page_html [lit "safe"] (lit "y") (fun _ => None) [] [] [] (fun s => s) [] (fun _ _ => true) (fun _ _ => []) tagged_page = html "<wj-body class='wj-body'><p>a </p><p>none</p><p>d</p></wj-body>" /\
  satisfied (fun tag => In tag [lit "safe"; lit "scp"]) [(Must, lit "scp"); (MustNot, lit "old"); (OneOf, lit "keter"); (OneOf, lit "safe")] /\
  ~ satisfied (fun tag => In tag [lit "safe"]) [(Must, lit "scp"); (MustNot, lit "old"); (OneOf, lit "keter"); (OneOf, lit "safe")].
Proof.
  conj; [apply page_sound; vm_compute; reflexivity|vm_compute; reflexivity..|apply meets_satisfied; reflexivity|rewrite <- meets_satisfied; discriminate].
Qed.
(** But "as if it was not there" is not true of what a page stores beside its text: the footnotes, the
    programs and the headings of text that is left out are still collected. *)
Theorem C77_left_out_refuted : exists E toks t, parsed E toks t /\ ~ In (lit "secret") (en_tags E) /\
  en_text E = lit "x[[iftags +secret]][[footnote]]hidden[[/footnote]][[/iftags]]" /\ tr_errors t = [] /\ length (tr_footnotes t) = 1.
Proof.
  enough (X : exists toks t, parsed (test_env (lit "x[[iftags +secret]][[footnote]]hidden[[/footnote]][[/iftags]]")) toks t /\ (tr_errors t = [] /\ length (tr_footnotes t) = 1)).
  - destruct X as (toks & t & H1 & H2 & H3). exists (test_env (lit "x[[iftags +secret]][[footnote]]hidden[[/footnote]][[/iftags]]")), toks, t.
    split; [exact H1|]. split; [|split; [reflexivity|split; [exact H2|exact H3]]]. intros [X|[X|[]]]; discriminate X.
  - page (lit "x[[iftags +secret]][[footnote]]hidden[[/footnote]][[/iftags]]").
Qed.
Print Assumptions C77_left_out_refuted.

(** *** C78: lists have the items and tables the cells they are written with *)
(** A list whose items are texts: each text becomes an item of the list, in the order and with the words
    it is written with. *)
Lemma one_block E R n b : good_block (en_entity E) b -> block_height b < 100 -> en_text E = block_source b -> 1 <= n ->
  (forall s, re_normalize R s = en_normalize E s) -> (forall c, is_alnum c = true -> re_word R c = true) ->
  exists toks t, parsed E toks t /\ tr_errors t = [] /\ shows E R n t [b].
Proof.
  intros Hb Hh He Hn Hno Hw. destruct (C74_blocks E R n [b]) as (toks & t & H1 & H2 & _ & _ & _ & _ & H3); auto.
  - intros c [<-|[]]. auto.
  - rewrite He. unfold source. cbn [flat_map]. rewrite app_nil_r. reflexivity.
  - exists toks, t. auto.
Qed.
Lemma bare_element t inside : SpecBlocks.element t [] [] inside = lit "<" ++ t ++ lit ">" ++ inside ++ lit "</" ++ t ++ lit ">".
Proof. unfold SpecBlocks.element, open_tag. change (merged [] (shown_attributes [])) with (@nil attribute). cbn [flat_map app]. rewrite <- !app_assoc. reflexivity. Qed.
Lemma highest_zero {A} (f : A -> nat) l : (forall x, In x l -> f x = 0) -> highest f l = 0.
Proof. induction l as [|x l IH]; intro H; [reflexivity|]. change (highest f (x :: l)) with (Nat.max (f x) (highest f l)). rewrite IH by (intros; apply H; right; auto). rewrite (H x) by (left; auto). reflexivity. Qed.
Theorem C78_list : forall E R n (numbered : bool) items, items <> [] -> (forall s, In s items -> plain s /\ flush s) ->
  let tag := lit (if numbered then "ol" else "ul") in
  en_text E = lit "[[" ++ tag ++ lit "]]" ++ [10%N] ++ flat_map (fun s => lit "[[li]]" ++ s ++ lit "[[/li]]" ++ [10%N]) items ++ lit "[[/" ++ tag ++ lit "]]" -> 1 <= n ->
  (forall s, re_normalize R s = en_normalize E s) -> (forall c, is_alnum c = true -> re_word R c = true) ->
  exists toks t, parsed E toks t /\ tr_errors t = [] /\
    html_render R n t = Html (html "<wj-body class='wj-body'><" ++ tag ++ html ">" ++ flat_map (fun s => html "<li>" ++ escape s ++ html "</li>") items ++ html "</" ++ tag ++ html "></wj-body>") [] [].
Proof.
  intros E R n numbered items Hn0 Hi tag He Hn Hno Hw. destruct (one_block E R n (Items numbered [] (map (fun s => ([], [Text s])) items))) as (toks & t & H1 & H2 & H3); auto.
  - split; [split; [constructor|intros k v []]|]. split; [destruct items; [congruence|discriminate]|]. apply Forall_forall. intros i Hin. apply in_map_iff in Hin as (s & <- & Hs). destruct (Hi s Hs) as [Hp Hf].
    split; [split; [constructor|intros k v []]|]. split; [intros _ u rest X; injection X as <- _; exact Hf|]. split; [apply apart_one; discriminate|]. constructor; [exact Hp|constructor].
  - cbn [block_height]. enough (X : highest (fun i : list attribute * list inline => highest inline_height (snd i)) (map (fun s => ([], [Text s])) items) = 0) by (rewrite X; lia). apply highest_zero. intros i Hin. apply in_map_iff in Hin as (s & <- & _). reflexivity.
  - rewrite He. cbn [block_source].
    assert (Y : flat_map (fun i => tagged "li" (fst i) (flat_map inline_source (snd i)) ++ [10%N]) (map (fun s => ([], [Text s])) items) = flat_map (fun s => lit "[[li]]" ++ s ++ lit "[[/li]]" ++ [10%N]) items).
    { clear. induction items as [|s items IH]; [reflexivity|]. cbn [map flat_map]. rewrite IH. f_equal. unfold tagged. cbn [fst snd flat_map inline_source]. rewrite app_nil_r. change (attributes_source []) with (@nil N). rewrite <- !app_assoc. reflexivity. }
    unfold tagged at 1. unfold each_line. unfold list_name. fold tag. rewrite Y. change (attributes_source []) with (@nil N). rewrite <- !app_assoc. reflexivity.
  - exists toks, t. split; [exact H1|]. split; [exact H2|]. unfold shows in H3. cbv zeta in H3. rewrite H3.
    assert (L : forall nr tg ct, page_links tg ct nr [Items numbered [] (map (fun s => ([], [Text s])) items)] = []).
    { intros. unfold page_links. cbn [flat_map block_links]. rewrite app_nil_r. clear. induction items as [|s items IH]; [reflexivity|exact IH]. }
    rewrite L. cbn [internal_links external_links flat_map map]. f_equal. unfold page_html. cbn [flat_map block_html]. rewrite app_nil_r, bare_element. unfold list_name. fold tag.
    match goal with |- context [flat_map ?f (map ?g items)] => assert (Y : flat_map f (map g items) = flat_map (fun s => html "<li>" ++ escape s ++ html "</li>") items) end.
    { clear. induction items as [|s items IH]; [reflexivity|]. cbn [map flat_map]. rewrite IH. f_equal. cbn [fst snd flat_map inline_html]. rewrite app_nil_r, bare_element. reflexivity. }
    rewrite Y. set (u := flat_map _ items). clearbody u tag. rewrite <- !app_assoc. reflexivity.
Qed.
Print Assumptions C78_list.
(** A table whose cells are texts: row by row, each cell is there, as a heading or not, over as many columns
    as it is written to be. *)
Definition text_cell (c : bool * nat * str) : cell := Cell (fst (fst c)) (snd (fst c)) [] [Text (snd c)].
Definition text_row (r : list (bool * nat * str)) : list attribute * list cell := ([], map text_cell r).
Definition number (n : nat) : str := lit (NilZero.string_of_uint (Nat.to_uint n)).
Definition written_cell (c : bool * nat * str) : str :=
  let '(h, w, s) := c in let tag := lit (if h then "hcell" else "cell") in
  lit "[[" ++ tag ++ (if w =? 1 then [] else html " colspan='" ++ number w ++ html "'") ++ lit "]]" ++ s ++ lit "[[/" ++ tag ++ lit "]]" ++ [10%N].
Definition shown_cell (c : bool * nat * str) : str :=
  let '(h, w, s) := c in let tag := lit (if h then "th" else "td") in
  lit "<" ++ tag ++ (if w =? 1 then [] else html " colspan='" ++ number w ++ html "'") ++ lit ">" ++ escape s ++ lit "</" ++ tag ++ lit ">".
Lemma number_digits w : forallb is_digit (number w) = true.
Proof.
  unfold number. assert (X : forall u, forallb is_digit (lit (NilEmpty.string_of_uint u)) = true).
  { induction u as [|u IH|u IH|u IH|u IH|u IH|u IH|u IH|u IH|u IH|u IH]; [reflexivity|exact IH..]. }
  destruct (Nat.to_uint w); [reflexivity|exact (X _)..].
Qed.
Lemma number_some w : number w <> [].
Proof. unfold number. destruct (Nat.to_uint w); discriminate. Qed.
Lemma digits_same (f : char -> list char) s : (forall c, is_digit c = true -> f c = [c]) -> forallb is_digit s = true -> flat_map f s = s.
Proof. intros Hf H. induction s as [|c s IH]; [reflexivity|]. cbn [forallb] in H. apply andb_true_iff in H as [H1 H2]. cbn [flat_map]. rewrite Hf, IH by auto. reflexivity. Qed.
Ltac no_digit c H := unfold is_digit in H; apply andb_true_iff in H as [?H1 ?H2]; apply N.leb_le in H1, H2;
  assert (HD : (c = 48 \/ c = 49 \/ c = 50 \/ c = 51 \/ c = 52 \/ c = 53 \/ c = 54 \/ c = 55 \/ c = 56 \/ c = 57)%N) by lia; decompose [or] HD; subst; reflexivity.
Lemma number_quoted w : quote_inside (number w) = number w.
Proof. apply digits_same; [|apply number_digits]. intros c H. no_digit c H. Qed.
Lemma number_escape w : escape (number w) = number w.
Proof.
  apply plain_escape. unfold plain_key, is_alphanumeric. pose proof (number_digits w) as H. rewrite forallb_forall in *. intros c Hc. rewrite (H c Hc). rewrite orb_true_r. reflexivity.
Qed.
Theorem C78_table : forall E R n rows,
  (forall r h w s, In r rows -> In (h, w, s) r -> value s /\ 1 <= w /\ (N.of_nat w < 4294967296)%N) ->
  en_text E = lit "[[table]]" ++ [10%N] ++ flat_map (fun r => lit "[[row]]" ++ [10%N] ++ flat_map written_cell r ++ lit "[[/row]]" ++ [10%N]) rows ++ lit "[[/table]]" -> 1 <= n ->
  (forall s, re_normalize R s = en_normalize E s) -> (forall c, is_alnum c = true -> re_word R c = true) ->
  exists toks t, parsed E toks t /\ tr_errors t = [] /\
    html_render R n t = Html (html "<wj-body class='wj-body'><table><tbody>" ++ flat_map (fun r => html "<tr>" ++ flat_map shown_cell r ++ html "</tr>") rows ++ html "</tbody></table></wj-body>") [] [].
Proof.
  intros E R n rows Hr He Hn Hno Hw. destruct (one_block E R n (Grid [] (map text_row rows))) as (toks & t & H1 & H2 & H3); auto.
  - split; [split; [constructor|intros k v []]|]. apply Forall_forall. intros i Hin. apply in_map_iff in Hin as (r & <- & Hs). split; [split; [constructor|intros k v []]|]. apply Forall_forall. intros c Hc. apply in_map_iff in Hc as ([[h w] s] & <- & Hc).
    destruct (Hr r h w s Hs Hc) as (Hv & Hw1 & Hw2). unfold good_cell, text_cell. cbn [fst snd heading wide cell_attributes contents map]. conj; auto.
    + split; [constructor|intros k v []].
    + destruct Hv as (_ & Hv1 & Hv2). split; intros x l X.
      * injection X as <- _. exact Hv1.
      * destruct l as [|? [|? ?]]; try discriminate. injection X as <-. intros c u Y. exact (Hv2 c u Y).
    + apply apart_one. discriminate.
    + constructor; [exact (proj1 Hv)|constructor].
  - cbn [block_height]. match goal with |- S (S (S ?m)) < _ => enough (X : m = 0) by (rewrite X; lia) end. apply highest_zero. intros i Hin. apply in_map_iff in Hin as (r & <- & _). apply highest_zero. intros c Hc. apply in_map_iff in Hc as (x & <- & _). reflexivity.
  - rewrite He. cbn [block_source].
    assert (X : forall c, cell_source (text_cell c) ++ [10%N] = written_cell c).
    { intros [[h w] s]. unfold cell_source, tagged, text_cell, written_cell. cbn [fst snd heading wide cell_attributes contents flat_map inline_source app]. rewrite app_nil_r. destruct (w =? 1).
      - change (attributes_source []) with (@nil N). rewrite <- !app_assoc. destruct h; reflexivity.
      - cbn [attributes_source flat_map]. unfold attribute_source. cbn [fst snd]. change (digits w) with (number w). rewrite (number_quoted w). set (u := number w). clearbody u. rewrite <- !app_assoc. destruct h; reflexivity. }
    assert (Y : flat_map (fun r => tagged "row" (fst r) (each_line cell_source (snd r)) ++ [10%N]) (map text_row rows) = flat_map (fun r => lit "[[row]]" ++ [10%N] ++ flat_map written_cell r ++ lit "[[/row]]" ++ [10%N]) rows).
    { clear - X. induction rows as [|r rows IH]; [reflexivity|]. cbn [map flat_map]. rewrite IH. f_equal. unfold text_row, tagged, each_line. cbn [fst snd]. change (attributes_source []) with (@nil N).
      assert (Z : flat_map (fun x => cell_source x ++ [10%N]) (map text_cell r) = flat_map written_cell r) by (clear - X; induction r as [|c r IH]; [reflexivity|]; cbn [map flat_map]; rewrite X, IH; reflexivity).
      rewrite Z. rewrite <- !app_assoc. reflexivity. }
    unfold tagged at 1. unfold each_line at 1. rewrite Y. change (attributes_source []) with (@nil N). rewrite <- !app_assoc. reflexivity.
  - exists toks, t. split; [exact H1|]. split; [exact H2|]. unfold shows in H3. cbv zeta in H3. rewrite H3.
    assert (L : forall nr tg ct, page_links tg ct nr [Grid [] (map text_row rows)] = []).
    { intros. unfold page_links. cbn [flat_map block_links]. rewrite app_nil_r. clear. induction rows as [|r rows IH]; [reflexivity|]. cbn [map flat_map]. rewrite IH, app_nil_r. unfold text_row. cbn [snd]. clear. induction r as [|c r IH]; [reflexivity|exact IH]. }
    rewrite L. cbn [internal_links external_links flat_map map]. f_equal. unfold page_html. cbn [flat_map block_html]. rewrite app_nil_r, bare_element.
    match goal with |- context [flat_map ?f (map text_row rows)] => assert (X : flat_map f (map text_row rows) = flat_map (fun r => html "<tr>" ++ flat_map shown_cell r ++ html "</tr>") rows) end.
    { clear - Hr. induction rows as [|r rows IH]; [reflexivity|]. cbn [map flat_map]. rewrite IH by (intros; eapply Hr; [right|]; eauto). f_equal. unfold text_row. cbn [fst snd]. rewrite bare_element.
      match goal with |- context [flat_map ?f (map text_cell r)] => assert (X : flat_map f (map text_cell r) = flat_map shown_cell r) end.
      { specialize (fun h w s => Hr r h w s (or_introl eq_refl)). clear IH. induction r as [|c r IH]; [reflexivity|]. cbn [map flat_map]. rewrite IH by (intros h w s Hi; apply (Hr h w s); right; exact Hi). f_equal. destruct c as [[h w] s]. destruct (Hr h w s (or_introl eq_refl)) as (_ & Hw & _).
        unfold cell_html, text_cell, shown_cell. cbn [fst snd heading wide cell_attributes contents flat_map inline_html]. rewrite app_nil_r. unfold SpecBlocks.element, open_tag. change (shown_attributes []) with (@nil attribute). rewrite merged_alone.
        destruct (w =? 1) eqn:E1; [apply Nat.eqb_eq in E1 as ->; destruct h; reflexivity|]. apply Nat.eqb_neq in E1. replace (1 <? w) with true by (symmetry; apply Nat.ltb_lt; lia). cbn [flat_map]. rewrite app_nil_r.
        unfold attribute_html. cbn [fst snd]. change (digits w) with (number w). pose proof (number_some w) as Z. destruct (number w) as [|d0 d1] eqn:W; [congruence|]. rewrite <- W, number_escape. set (u := number w). clearbody u. rewrite <- !app_assoc. destruct h; reflexivity. }
      rewrite X. reflexivity. }
    rewrite X. rewrite <- !app_assoc. reflexivity.
Qed.
Print Assumptions C78_table.
Definition hall : list block :=
  [ Grid [(lit "class", lit "wiki")]
      [ ([], [Cell true 2 [(lit "style", lit "a")] [Text (lit "A & B")]; Cell false 1 [] []]);
        ([(lit "onclick", lit "e"); (lit "align", lit "left")], [Cell false 1 [] [Box Strong (lit "b") [] [Text (lit "x")] (lit "b"); Text (lit " y")]; Cell false 1 [] [PageLink false (Page None None (lit "p") None None) Bare]]); ([], []) ];
    Group (Div []) (lit "div") [Items true [] [([], [Text (lit "one")]); ([(lit "class", lit "k")], [Text (lit " two"); When false [(Must, lit "t")] [Text (lit "!")]]); ([], [])]; Items false [] [([], [When false [(Must, lit "t")] [Text (lit "gone")]])]] (lit "div") ].
Example C78_case : good_page (fun _ => None) hall /\
  map (fun c => if ceqb c 34 then 39%N else c) (source hall) = lit "[[table class='wiki']]
[[row]]
[[hcell style='a' colspan='2']]A & B[[/hcell]]
[[cell]][[/cell]]
[[/row]]
[[row onclick='e' align='left']]
[[cell]][[b]]x[[/b]] y[[/cell]]
[[cell]][[[p]]][[/cell]]
[[/row]]
[[row]]
[[/row]]
[[/table]]

[[div]]
[[ol]]
[[li]]one[[/li]]
[[li class='k']] two[[iftags +t]]![[/iftags]][[/li]]
[[li]][[/li]]
[[/ol]]

[[ul]]
[[li]][[iftags +t]]gone[[/iftags]][[/li]]
[[/ul]]
[[/div]]" /\
  page_html [] [] (fun _ => None) [] [] [] (fun s => s) [] (fun _ _ => true) (fun _ _ => []) hall = html "<wj-body class='wj-body'><table class='wiki'><tbody><tr><th colspan='2' style='a'>A &amp; B</th><td></td></tr><tr align='left'><td><strong>x</strong> y</td><td><a href='/p' class='wj-link wj-link-internal' data-link-type='page'>p</a></td></tr><tr></tr></tbody></table><div><ol><li>one</li><li class='k'> two</li><li></li></ol><ul><li></li></ul></div></wj-body>" /\
  page_lines [] [] (fun _ => None) [] (fun _ _ => []) hall = lit "A & B
x yp



one
 two

" /\
  page_links [] [] (fun s => s) hall = [Internal None (lit "p")] /\ value (lit "A & B") /\ plain (lit "one, two") /\ flush (lit "one, two").
Proof. conj; [apply page_sound; vm_compute; reflexivity|vm_compute; reflexivity..|apply value_sound; reflexivity|apply plain_sound; reflexivity|apply flush_sound; reflexivity]. Qed.
(** Not so the blanks at the ends of a cell; and the plain text of a table does not tell where a cell ends. *)
Definition blank_cell : str := html "[[table]]
[[row]]
[[cell align='left']] x [[/cell]]
[[/row]]
[[/table]]".
Theorem C78_blanks_refuted : exists E toks t, parsed E toks t /\ en_text E = blank_cell /\ tr_errors t = [] /\
  html_render release_renv 1 t = Html (html "<wj-body class='wj-body'><table><tbody><tr><td align='left'>x</td></tr></tbody></table></wj-body>") [] [].
Proof.
  enough (X : exists toks t, parsed (test_env blank_cell) toks t /\ (tr_errors t = [] /\ html_render release_renv 1 t = Html (html "<wj-body class='wj-body'><table><tbody><tr><td align='left'>x</td></tr></tbody></table></wj-body>") [] [])).
  - destruct X as (toks & t & H1 & H2 & H3). exists (test_env blank_cell), toks, t. split; [exact H1|]. split; [reflexivity|]. split; [exact H2|exact H3].
  - page blank_cell.
Qed.
Print Assumptions C78_blanks_refuted.
Definition row_of (a b : String.string) : str := lit "[[table]]
[[row]]
[[cell]]" ++ lit a ++ lit "[[/cell]]
[[cell]]" ++ lit b ++ lit "[[/cell]]
[[/row]]
[[/table]]".
Theorem C78_plain_text_refuted : exists E1 toks1 t1 E2 toks2 t2, parsed E1 toks1 t1 /\ en_text E1 = row_of "1" "23" /\ parsed E2 toks2 t2 /\ en_text E2 = row_of "12" "3" /\
  text_render [] (fun _ => None) (tr_elements t1) = Some (lit "123") /\ text_render [] (fun _ => None) (tr_elements t2) = Some (lit "123").
Proof.
  enough (X : exists toks t, parsed (test_env (row_of "1" "23")) toks t /\ text_render [] (fun _ => None) (tr_elements t) = Some (lit "123")).
  enough (Y : exists toks t, parsed (test_env (row_of "12" "3")) toks t /\ text_render [] (fun _ => None) (tr_elements t) = Some (lit "123")).
  - destruct X as (k1 & t1 & X1 & X2), Y as (k2 & t2 & Y1 & Y2). exists (test_env (row_of "1" "23")), k1, t1, (test_env (row_of "12" "3")), k2, t2. split; [exact X1|]. split; [reflexivity|]. split; [exact Y1|]. split; [reflexivity|]. split; [exact X2|exact Y2].
  - page (row_of "12" "3").
  - page (row_of "1" "23").
Qed.
Print Assumptions C78_plain_text_refuted.

(** *** C79: tables drawn with bars, and lines *)
(** A table drawn with bars, whose cells are texts: row by row, each cell is there, as a heading or not, set
    to the side its mark says, over as many columns as there are bars before it. *)
Definition text_short (c : mark * nat * str) : short := Short (fst (fst c)) (snd (fst c)) [Text (snd c)].
Definition drawn_cell (c : mark * nat * str) : str :=
  let '(m, w, s) := c in
  concat (repeat (lit "||") w) ++ lit match m with Usual => "" | Head => "~" | ToLeft => "<" | ToMiddle => "=" | ToRight => ">" end ++ lit " " ++ s ++ lit " ".
Definition drawn_row (r : list (mark * nat * str)) : str := flat_map drawn_cell r ++ lit "||".
Definition barred_cell (c : mark * nat * str) : str :=
  let '(m, w, s) := c in let tag := lit match m with Head => "th" | _ => "td" end in
  lit "<" ++ tag ++ (if w =? 1 then [] else html " colspan='" ++ number w ++ html "'") ++
  html match m with ToLeft => " class='wj-align-left'" | ToMiddle => " class='wj-align-center'" | ToRight => " class='wj-align-right'" | _ => "" end ++ lit ">" ++ escape s ++ lit "</" ++ tag ++ lit ">".
Lemma text_drawn c : 1 <= snd (fst c) -> short_source (text_short c) = drawn_cell c.
Proof.
  destruct c as [[m w] s]. cbn [fst snd]. intro Hw. unfold short_source, text_short, drawn_cell. cbn [fst snd mark_of columns said flat_map inline_source]. rewrite app_nil_r. destruct w as [|w]; [lia|]. cbn [Nat.sub]. rewrite Nat.sub_0_r.
  replace (concat (repeat (lit "||") (S w))) with (concat (repeat (lit "||") w) ++ lit "||").
  - destruct m; cbn [mark_source]; rewrite <- !app_assoc; reflexivity.
  - clear. induction w as [|w IH]; [reflexivity|]. cbn [repeat concat] in *. rewrite <- app_assoc, IH. reflexivity.
Qed.
Lemma text_barred tg ct ents av nr si ex ti c : 1 <= snd (fst c) -> short_html tg ct ents av nr si ex ti (text_short c) = barred_cell c.
Proof.
  destruct c as [[m w] s]. cbn [fst snd]. intro Hw. unfold short_html, text_short, barred_cell. cbn [fst snd mark_of columns said flat_map inline_html]. rewrite app_nil_r. unfold SpecBlocks.element, open_tag. change (shown_attributes []) with (@nil attribute). rewrite merged_alone.
  destruct (w =? 1) eqn:E1; [apply Nat.eqb_eq in E1 as ->; destruct m; reflexivity|]. apply Nat.eqb_neq in E1. replace (1 <? w) with true by (symmetry; apply Nat.ltb_lt; lia). cbn [app flat_map].
  unfold attribute_html at 1. cbn [fst snd]. change (digits w) with (number w). pose proof (number_some w) as Z. destruct (number w) as [|d0 d1] eqn:W; [congruence|]. rewrite <- W, number_escape. set (u := number w). clearbody u.
  destruct m; cbn [flat_map]; rewrite <- !app_assoc; reflexivity.
Qed.
Lemma flat_map_same {A B} (f g : A -> list B) l : (forall x, In x l -> f x = g x) -> flat_map f l = flat_map g l.
Proof. induction l as [|x l IH]; intro H; [reflexivity|]. cbn [flat_map]. rewrite (H x) by (left; auto). rewrite IH by (intros; apply H; right; auto). reflexivity. Qed.
Lemma flat_map_map {A B C} (f : B -> list C) (g : A -> B) l : flat_map f (map g l) = flat_map (fun x => f (g x)) l.
Proof. induction l as [|x l IH]; [reflexivity|]. cbn [map flat_map]. rewrite IH. reflexivity. Qed.
Theorem C79_bars : forall E R n row rows,
  (forall r, In r (row :: rows) -> r <> []) ->
  (forall r m w s, In r (row :: rows) -> In (m, w, s) r -> value s /\ 1 <= w) ->
  en_text E = drawn_row row ++ flat_map (fun r => [10%N] ++ drawn_row r) rows -> 1 <= n ->
  (forall s, re_normalize R s = en_normalize E s) -> (forall c, is_alnum c = true -> re_word R c = true) ->
  exists toks t, parsed E toks t /\ tr_errors t = [] /\
    html_render R n t = Html (html "<wj-body class='wj-body'><table class='wj-table'><tbody>" ++ flat_map (fun r => html "<tr>" ++ flat_map barred_cell r ++ html "</tr>") (row :: rows) ++ html "</tbody></table></wj-body>") [] [].
Proof.
  intros E R n row rows Hr0 Hr He Hn Hno Hw. destruct (one_block E R n (Bars (map (map text_short) (row :: rows)))) as (toks & t & H1 & H2 & H3); auto.
  - split; [discriminate|]. apply Forall_forall. intros i Hin. apply in_map_iff in Hin as (r & <- & Hs). split; [specialize (Hr0 r Hs); destruct r; [congruence|discriminate]|]. apply Forall_forall. intros c Hc. apply in_map_iff in Hc as ([[m w] s] & <- & Hc).
    destruct (Hr r m w s Hs Hc) as (Hv & Hw1). unfold good_short, text_short. cbn [fst snd mark_of columns said]. split; [exact Hw1|]. split; [|split; [intros [X|[]]; discriminate|split; [|split; [apply apart_one; discriminate|constructor; [exact (proj1 Hv)|constructor]]]]].
    + destruct Hv as (_ & Hv1 & Hv2). split; intros x l X.
      * injection X as <- _. exact Hv1.
      * destruct l as [|? [|? ?]]; try discriminate. injection X as <-. intros c u Y. exact (Hv2 c u Y).
    + intros x l X. destruct l as [|? [|? ?]]; try discriminate. injection X as <-. exact I.
  - cbn [block_height]. match goal with |- S ?m < _ => enough (X : m = 0) by (rewrite X; lia) end. apply highest_zero. intros i Hin. apply in_map_iff in Hin as (r & <- & _). apply highest_zero. intros c Hc. apply in_map_iff in Hc as (x & <- & _). reflexivity.
  - rewrite He. cbn [block_source map].
    assert (X : forall r, In r (row :: rows) -> bars_source (map text_short r) = drawn_row r).
    { intros r Hs. unfold bars_source, drawn_row. rewrite flat_map_map. f_equal. apply flat_map_same. intros [[m w] s] Hc. apply text_drawn. exact (proj2 (Hr r m w s Hs Hc)). }
    rewrite X by (left; auto). f_equal. rewrite flat_map_map. apply flat_map_same. intros r Hs. rewrite X by (right; auto). reflexivity.
  - set (U := flat_map (fun r => html "<tr>" ++ flat_map barred_cell r ++ html "</tr>") (row :: rows)). exists toks, t. split; [exact H1|]. split; [exact H2|]. unfold shows in H3. cbv zeta in H3. rewrite H3.
    assert (L : forall nr tg ct, page_links tg ct nr [Bars (map (map text_short) (row :: rows))] = []).
    { intros. unfold page_links. cbn [flat_map block_links]. rewrite app_nil_r. generalize (row :: rows). clear. intro rows. apply flat_nil. intros i Hin. apply in_map_iff in Hin as (r & <- & _). apply flat_nil. intros c Hc. apply in_map_iff in Hc as (x & <- & _). reflexivity. }
    rewrite L. cbn [internal_links external_links flat_map map]. f_equal. unfold page_html. cbn [flat_map block_html]. rewrite app_nil_r.
    change (bars_html ?a ?b ?c ?d ?e ?f ?g ?h (map text_short row) ++ flat_map (bars_html ?a ?b ?c ?d ?e ?f ?g ?h) (map (map text_short) rows)) with (flat_map (bars_html a b c d e f g h) (map (map text_short) (row :: rows))).
    match goal with |- context [flat_map ?f (map (map text_short) (row :: rows))] => assert (X : flat_map f (map (map text_short) (row :: rows)) = flat_map (fun r => html "<tr>" ++ flat_map barred_cell r ++ html "</tr>") (row :: rows)) end.
    { rewrite flat_map_map. apply flat_map_same. intros r Hs. unfold bars_html. rewrite bare_element, flat_map_map.
      match goal with |- context [flat_map ?f r] => assert (X : flat_map f r = flat_map barred_cell r) end.
      { apply flat_map_same. intros [[m w] s] Hc. apply text_barred. exact (proj2 (Hr r m w s Hs Hc)). }
      rewrite X. reflexivity. }
    rewrite X. fold U. clearbody U. unfold classed, SpecBlocks.element, open_tag. change (shown_attributes []) with (@nil attribute). rewrite merged_alone. rewrite <- !app_assoc. reflexivity.
Qed.
Print Assumptions C79_bars.
(** Lines: a line of at least three dashes (and nothing else) is a line across the page; one of at least three
    tildes, maybe with an arrow, ends what floats beside the text. *)
Theorem C79_lines : forall E R n k, 3 <= k -> 1 <= n ->
  (forall s, re_normalize R s = en_normalize E s) -> (forall c, is_alnum c = true -> re_word R c = true) ->
  (en_text E = repeat 45%N k -> exists toks t, parsed E toks t /\ tr_errors t = [] /\ html_render R n t = Html (html "<wj-body class='wj-body'><hr></wj-body>") [] []) /\
  (forall arrow side, In (arrow, side) [("", "both"); ("<", "left"); (">", "right")]%string -> en_text E = repeat 126%N k ++ lit arrow ->
    exists toks t, parsed E toks t /\ tr_errors t = [] /\ html_render R n t = Html (html "<wj-body class='wj-body'><div class='wj-clear-float wj-clear-float-" ++ lit side ++ html "'></div></wj-body>") [] []).
Proof.
  intros E R n k Hk Hn Hno Hw. split.
  - intro He. destruct (one_block E R n (Divider k) Hk) as (toks & t & H1 & H2 & H3); auto; [cbn [block_height]; lia|]. exists toks, t. split; [exact H1|]. split; [exact H2|]. unfold shows in H3. cbv zeta in H3. rewrite H3. reflexivity.
  - intros arrow side Ha He. assert (X : exists w, arrow = match w with Some true => "<" | Some false => ">" | None => "" end%string /\ side = match w with Some true => "left" | Some false => "right" | None => "both" end%string).
    { destruct Ha as [X|[X|[X|[]]]]; apply pair_equal_spec in X as [<- <-]; [exists None|exists (Some true)|exists (Some false)]; split; reflexivity. }
    destruct X as (w & -> & ->). destruct (one_block E R n (Clear w k) Hk) as (toks & t & H1 & H2 & H3); auto; [cbn [block_height]; lia|]. exists toks, t. split; [exact H1|]. split; [exact H2|]. unfold shows in H3. cbv zeta in H3. rewrite H3. destruct w as [[]|]; reflexivity.
Qed.
Print Assumptions C79_lines.
Definition board : list block :=
  [ Bars [[Short Head 1 [Text (lit "Name")]; Short Head 2 [Text (lit "Size & sort")]]; [Short ToLeft 1 [Box Strong (lit "b") [] [Text (lit "a")] (lit "b"); Text (lit " x y")]; Short ToMiddle 1 []; Short ToRight 1 [Text (lit "4 & 5")]]];
    Divider 5; Par [Text (lit "x")]; Clear (Some true) 4;
    Group (Div []) (lit "div") [Clear None 3; Group (Div []) (lit "div") [Divider 3] (lit "div"); Bars [[Short Usual 3 [PageLink false (Page None None (lit "p") None None) Bare]]]] (lit "div") ].
Example C79_case : good_page (fun _ => None) board /\
  source board = lit "||~ Name ||||~ Size & sort ||
||< [[b]]a[[/b]] x y ||= ||> 4 & 5 ||

-----

x

~~~~<

[[div]]
~~~

[[div]]
---
[[/div]]

|||||| [[[p]]] ||
[[/div]]" /\
  page_html [] [] (fun _ => None) [] [] [] (fun s => s) [] (fun _ _ => true) (fun _ _ => []) board = html "<wj-body class='wj-body'><table class='wj-table'><tbody><tr><th>Name</th><th colspan='2'>Size &amp; sort</th></tr><tr><td class='wj-align-left'><strong>a</strong> x y</td><td class='wj-align-center'></td><td class='wj-align-right'>4 &amp; 5</td></tr></tbody></table><hr><p>x</p><div class='wj-clear-float wj-clear-float-left'></div><div><div class='wj-clear-float wj-clear-float-both'></div><div><hr></div><table class='wj-table'><tbody><tr><td colspan='3'><a href='/p' class='wj-link wj-link-internal' data-link-type='page'>p</a></td></tr></tbody></table></div></wj-body>" /\
  page_links [] [] (fun s => s) board = [Internal None (lit "p")].
Proof. conj; [apply page_sound; vm_compute; reflexivity|vm_compute; reflexivity..]. Qed.
(** But a row that is not closed is dropped, without an error: its text is nowhere on the page. *)
Theorem C79_unfinished_refuted : exists E toks t, parsed E toks t /\ en_text E = lit "|| a ||" ++ [10%N] ++ lit "|| b" /\ tr_errors t = [] /\
  html_render release_renv 1 t = Html (html "<wj-body class='wj-body'><table class='wj-table'><tbody><tr><td>a</td></tr></tbody></table></wj-body>") [] [].
Proof.
  set (w := lit "|| a ||" ++ [10%N] ++ lit "|| b"). enough (X : exists toks t, parsed (test_env w) toks t /\ (tr_errors t = [] /\ html_render release_renv 1 t = Html (html "<wj-body class='wj-body'><table class='wj-table'><tbody><tr><td>a</td></tr></tbody></table></wj-body>") [] [])).
  - destruct X as (toks & t & H1 & H2 & H3). exists (test_env w), toks, t. split; [exact H1|]. split; [reflexivity|]. split; [exact H2|exact H3].
  - unfold w. clear w. page (lit "|| a ||" ++ [10%N] ++ lit "|| b").
Qed.
Print Assumptions C79_unfinished_refuted.

(** *** C80: line breaks in text. *)
(** The lines of a paragraph are written under each other, and shown under each other: with [<br>]
    between them in HTML, and as lines in plain text.  They may have any markup in them; that a line
    starts with what is conditional, hidden or invisible is the exception below. *)
Definition opens_line (l : list inline) : Prop :=
  match l with [] | Break :: _ | When _ _ _ :: _ | Box (Hidden | Invisible) _ _ _ _ :: _ => False | _ => True end.
Definition a_line (entities : str -> option str) (l : list inline) : Prop :=
  opens_line l /\ ~ In Break l /\ apart l /\ Forall (fun x => good_inline entities x /\ inline_height x < 100) l.
(** The same as one paragraph. *)
Fixpoint under (lines : list (list inline)) : list inline :=
  match lines with [] => [] | [l] => l | l :: rest => l ++ Break :: under rest end.
Definition adjacent (l : list inline) : Prop := forall front x y rest, l = front ++ x :: y :: rest -> beside x y.
Lemma adjacent_cons x l : adjacent (x :: l) <-> (forall y r, l = y :: r -> beside x y) /\ adjacent l.
Proof.
  unfold adjacent. split.
  - intro H. split; [intros y r ->; exact (H [] x y r eq_refl)|]. intros f a b r ->. exact (H (x :: f) a b r eq_refl).
  - intros [H1 H2] f a b r X. destruct f as [|z f]; cbn [app] in X; injection X as -> X; [exact (H1 b r X)|exact (H2 f a b r X)].
Qed.
Lemma adjacent_break l m : adjacent l -> l <> [] -> ~ In Break l -> adjacent m -> opens_line m -> adjacent (l ++ Break :: m).
Proof.
  intros Hl Hn Hb Hm Ho. assert (H : adjacent (Break :: m)).
  { apply adjacent_cons. split; [|exact Hm]. intros y r ->. destruct y as [|[]| | | | | | | | | | | |]; cbn [opens_line beside] in *; auto. }
  induction l as [|x l IH]; [congruence|]. apply adjacent_cons in Hl as [H1 H2]. cbn [app]. apply adjacent_cons. destruct l as [|y l].
  - split; [|exact H]. intros y r X. injection X as <- _. destruct x as [|[]| | | | | | | | | | | |]; cbn [beside]; auto. apply Hb. left. reflexivity.
  - split; [intros z r X; injection X as <- _; exact (H1 y l eq_refl)|]. apply IH; [exact H2|discriminate|]. intro X. apply Hb. right. exact X.
Qed.
Lemma under_opens lines : (forall l, In l lines -> opens_line l) -> lines <> [] -> opens_line (under lines).
Proof.
  intros H Hn. destruct lines as [|l [|m r]]; [congruence|exact (H l (or_introl eq_refl))|]. specialize (H l (or_introl eq_refl)). cbn [under]. destruct l as [|x l]; [destruct H|exact H].
Qed.
Lemma under_last ents lines : (forall l, In l lines -> a_line ents l) -> forall r, under lines <> r ++ [Break].
Proof.
  induction lines as [|l lines IH]; intros H r X; [destruct r; discriminate|]. destruct lines as [|m lines].
  - cbn [under] in X. destruct (H l (or_introl eq_refl)) as (_ & Hb & _). apply Hb. rewrite X. apply in_or_app. right. left. reflexivity.
  - change (under (l :: m :: lines)) with (l ++ Break :: under (m :: lines)) in X. assert (Hu : under (m :: lines) <> []).
    { intro Y. pose proof (under_opens (m :: lines) (fun z Hz => proj1 (H z (or_intror Hz)))) as Z. rewrite Y in Z. apply Z. discriminate. }
    destruct (exists_last Hu) as (u & z & Hz). apply (IH (fun a Ha => H a (or_intror Ha)) u). rewrite Hz in X. rewrite Hz. f_equal. f_equal. change (l ++ Break :: u ++ [z] = r ++ [Break]) in X. replace (l ++ Break :: u ++ [z]) with ((l ++ Break :: u) ++ [z]) in X by (rewrite <- app_assoc; reflexivity). apply app_inj_tail in X as [_ X]. exact X.
Qed.
Lemma under_apart ents lines : (forall l, In l lines -> a_line ents l) -> lines <> [] -> apart (under lines).
Proof.
  intros H Hn. split.
  - change (adjacent (under lines)). induction lines as [|l lines IH]; [congruence|]. destruct (H l (or_introl eq_refl)) as (Ho & Hb & Ha & _). destruct lines as [|m lines]; [exact (proj1 Ha)|].
    change (under (l :: m :: lines)) with (l ++ Break :: under (m :: lines)). apply adjacent_break; auto; [exact (proj1 Ha)|intros ->; exact Ho|apply IH; [intros; apply H; right; auto|discriminate]|].
    apply under_opens; [|discriminate]. intros z Hz. exact (proj1 (H z (or_intror Hz))).
  - intro r. split; [|eapply under_last; eauto]. intro X. pose proof (under_opens lines (fun z Hz => proj1 (H z Hz)) Hn) as Y. rewrite X in Y. exact Y.
Qed.
Lemma under_all (P : inline -> Prop) lines : P Break -> (forall l, In l lines -> Forall P l) -> Forall P (under lines).
Proof.
  intros Hb H. induction lines as [|l lines IH]; [constructor|]. destruct lines as [|m lines]; [exact (H l (or_introl eq_refl))|]. change (under (l :: m :: lines)) with (l ++ Break :: under (m :: lines)).
  apply Forall_app. split; [exact (H l (or_introl eq_refl))|]. constructor; [exact Hb|]. apply IH. intros; apply H; right; auto.
Qed.
Lemma under_flat (f : inline -> str) lines : flat_map f (under lines) = join (f Break) (map (flat_map f) lines).
Proof.
  induction lines as [|l lines IH]; [reflexivity|]. destruct lines as [|m lines]; [reflexivity|]. change (under (l :: m :: lines)) with (l ++ Break :: under (m :: lines)).
  rewrite flat_map_app. cbn [flat_map]. rewrite IH. reflexivity.
Qed.
(** What is conditional makes no difference inside a line that something else opens. *)
Lemma left_same tags own (f : inline -> str) l : (forall b cs inside, f (When b cs inside) = if holds tags own b cs then flat_map f inside else []) -> opens_line l ->
  flat_map f (left_of tags own l) = flat_map f l /\ left_of tags own l <> [].
Proof.
  intros Hf Ho. assert (K : forall x, flat_map f (kept tags own x) = f x).
  { intro x. induction x as [s|k o a inside c IH|z inside IH|b n|b a|b n a|b a|e|n|b p c|b a c|o c|b cds inside IH|] using inline_ind'; try (cbn [kept flat_map]; apply app_nil_r). cbn [kept]. rewrite Hf. destruct (holds _ _ _ _); [|reflexivity]. induction IH as [|x l0 Hx Hl IH']; [reflexivity|]. cbn [flat_map]. rewrite flat_map_app, Hx, IH'. reflexivity. }
  assert (X : flat_map f (flat_map (kept tags own) l) = flat_map f l) by (induction l as [|x l0 IH]; [reflexivity|]; clear - K; induction (x :: l0) as [|y m IHm]; [reflexivity|]; cbn [flat_map]; rewrite flat_map_app, K, IHm; reflexivity).
  rewrite <- X. unfold left_of. destruct l as [|x l]; [destruct Ho|]. destruct x as [|[]| | | | | | | | | | | |]; cbn [opens_line] in Ho; try (destruct Ho; fail); cbn [flat_map kept app skip_breaks]; (split; [reflexivity|discriminate]).
Qed.
Lemma lines_page ents lines : lines <> [] -> (forall l, In l lines -> a_line ents l) -> good_page ents [Par (under lines)].
Proof.
  intros Hn H b [<-|[]]. assert (X : Forall (fun x => good_inline ents x /\ inline_height x < 100) (under lines)).
  { apply under_all; [split; [exact I|cbn [inline_height]; lia]|]. intros l Hl. apply (H l Hl). }
  split.
  - split; [|split].
    + intro Y. pose proof (under_opens lines (fun z Hz => proj1 (H z Hz)) Hn) as Z. rewrite Y in Z. exact Z.
    + eapply under_apart; eauto.
    + eapply Forall_impl; [|exact X]. intros x Hx. apply Hx.
  - cbn [block_height]. induction X as [|x l Hx Hl IH]; [unfold highest; cbn [fold_right map]; lia|]. change (highest inline_height (x :: l)) with (Nat.max (inline_height x) (highest inline_height l)). lia.
Qed.
Lemma trims_inside s t : trims_to (own_lines s) t -> trims_to s t.
Proof.
  intros (m & n & H1 & H2). destruct t as [|c t].
  - cbn [app] in H1. rewrite <- repeat_app in H1. unfold own_lines in H1. destruct (m + n) as [|k] eqn:K; [discriminate|]. cbn [repeat app] in H1. injection H1 as H1.
    destruct k as [|k]; [destruct s; discriminate|]. exists k, 0. split; [|exact H2]. cbn [repeat app]. rewrite app_nil_r.
    replace (repeat 10%N (S k)) with (repeat 10%N k ++ [10%N]) in H1 by (symmetry; apply (repeat_cons k 10%N)). apply app_inj_tail in H1. apply H1.
  - destruct m as [|m].
    { unfold own_lines in H1. cbn [repeat app] in H1. injection H1 as <- _. destruct (H2 10%N t (or_introl eq_refl) eq_refl). }
    unfold own_lines in H1. cbn [repeat app] in H1. injection H1 as H1. destruct n as [|n].
    { cbn [repeat] in H1. rewrite app_nil_r in H1. assert (X : c :: t <> []) by discriminate. destruct (exists_last X) as (u & d & Hd). rewrite Hd in *. rewrite app_assoc in H1. apply app_inj_tail in H1 as [_ <-]. destruct (H2 10%N u (or_intror eq_refl) eq_refl). }
    exists m, n. split; [|exact H2]. replace (repeat 10%N (S n)) with (repeat 10%N n ++ [10%N]) in H1 by (symmetry; apply (repeat_cons n 10%N)).
    apply (app_inj_tail s (repeat 10%N m ++ (c :: t) ++ repeat 10%N n) 10%N 10%N). rewrite H1, <- !app_assoc. reflexivity.
Qed.
Theorem C80_lines : forall E R n site df lines, lines <> [] -> (forall l, In l lines -> a_line (en_entity E) l) -> en_text E = join [10%N] (map (flat_map inline_source) lines) -> 1 <= n ->
  (forall s, re_normalize R s = en_normalize E s) -> (forall c, is_alnum c = true -> re_word R c = true) ->
  let own := match en_category E with Some c => c | None => lit "_default" end in
  exists toks t out, parsed E toks t /\ tr_errors t = [] /\
    (exists pages addresses, html_render R n t = Html (html "<wj-body class='wj-body'><p>" ++
      join (html "<br>") (map (flat_map (inline_html (en_tags E) own (en_entity E) dummy_avatar (re_normalize R) (re_site R) (re_page_exists R) get_page_title)) lines) ++ html "</p></wj-body>") pages addresses) /\
    text_render site df (tr_elements t) = Some out /\
    trims_to (join [10%N] (map (flat_map (inline_text (en_tags E) own (en_entity E) site get_page_title false)) lines)) out.
Proof.
  intros E R n site df lines Hl0 Hl He Hn Hno Hw own. pose proof (lines_page _ _ Hl0 Hl) as Hg. pose proof (under_opens lines (fun l Hi => proj1 (Hl l Hi)) Hl0) as Ho.
  assert (He' : en_text E = source [Par (under lines)]) by (rewrite He; unfold source; cbn [flat_map block_source]; rewrite app_nil_r; symmetry; exact (under_flat inline_source lines)).
  destruct (blocks_parse E _ Hg He') as [toks Hp]. destruct (blocks_text E site df _ Hg) as (out & H1 & H2). exists toks. eexists. exists out. split; [exact Hp|]. split; [reflexivity|]. split; [|split; [exact H1|]].
  - rewrite (blocks_render E R n) by auto. eexists. eexists. f_equal. change (BlocksRun.own_category E) with own. unfold page_html. cbn [flat_map block_html]. rewrite app_nil_r.
    destruct (left_same (en_tags E) own (inline_html (en_tags E) own (en_entity E) dummy_avatar (re_normalize R) (re_site R) (re_page_exists R) get_page_title) (under lines)) as [X Y]; [reflexivity|exact Ho|].
    rewrite under_flat in X. change (inline_html (en_tags E) own (en_entity E) dummy_avatar (re_normalize R) (re_site R) (re_page_exists R) get_page_title Break) with (html "<br>") in X.
    rewrite <- X. destruct (left_of (en_tags E) own (under lines)) as [|x l]; [congruence|].
    set (f := inline_html (en_tags E) own (en_entity E) dummy_avatar (re_normalize R) (re_site R) (re_page_exists R) get_page_title) in *. change (f x ++ flat_map f l) with (flat_map f (x :: l)). set (u := flat_map f (x :: l)). clearbody u. change (SpecBlocks.element (lit "wj-body") [(lit "class", lit "wj-body")] [] (html "<p>" ++ u ++ html "</p>")) with (html "<wj-body class='wj-body'>" ++ (html "<p>" ++ u ++ html "</p>") ++ html "</wj-body>"). rewrite <- !app_assoc. reflexivity.
  - change (BlocksRun.own_category E) with own in H2. unfold page_lines in H2. cbn [flat_map block_lines] in H2. rewrite app_nil_r in H2.
    destruct (left_same (en_tags E) own (inline_text (en_tags E) own (en_entity E) site get_page_title false) (under lines)) as [X Y]; [reflexivity|exact Ho|]. rewrite under_flat in X. change (inline_text (en_tags E) own (en_entity E) site get_page_title false Break) with [10%N] in X.
    rewrite <- X. destruct (left_of (en_tags E) own (under lines)) as [|x l]; [congruence|]. apply trims_inside. exact H2.
Qed.
Print Assumptions C80_lines.
(** Lines of text, exactly. *)
Lemma trims_same s t : trims_to s t -> (forall c r, s = c :: r \/ s = r ++ [c] -> c <> 10%N) -> t = s.
Proof.
  intros (m & n & H1 & _) H. destruct m as [|m]; [|exfalso; apply (H 10%N (repeat 10%N m ++ t ++ repeat 10%N n)); [left; exact H1|reflexivity]].
  destruct n as [|n]; [cbn [repeat app] in H1; rewrite app_nil_r in H1; auto|]. exfalso. apply (H 10%N (t ++ repeat 10%N n)); [right|reflexivity]. rewrite H1. cbn [repeat app]. rewrite <- app_assoc. f_equal. apply (repeat_cons n 10%N).
Qed.
Lemma plain_no_break s c : plain s -> In c s -> c <> 10%N.
Proof.
  intros [_ H] Hc ->. apply in_split in Hc as (a & b & X). destruct (H a 10%N b X) as [Y|[Y _]]; [apply Y; apply cmem_In; reflexivity|apply cmem_In in Y; discriminate].
Qed.
Lemma join_one (f : inline -> str) (lines : list str) : map (flat_map f) (map (fun s => [Text s]) lines) = map (fun s => f (Text s)) lines.
Proof. rewrite map_map. apply map_ext. intro s. cbn [flat_map]. apply app_nil_r. Qed.
Theorem C80_text : forall E R n site df lines, lines <> [] -> (forall s, In s lines -> plain s) -> en_text E = join [10%N] lines -> 1 <= n ->
  (forall s, re_normalize R s = en_normalize E s) -> (forall c, is_alnum c = true -> re_word R c = true) ->
  exists toks t, parsed E toks t /\ tr_errors t = [] /\
    (exists pages addresses, html_render R n t = Html (html "<wj-body class='wj-body'><p>" ++ join (html "<br>") (map escape lines) ++ html "</p></wj-body>") pages addresses) /\
    text_render site df (tr_elements t) = Some (join [10%N] lines).
Proof.
  intros E R n site df lines Hl0 Hp He Hn Hno Hw. destruct (C80_lines E R n site df (map (fun s => [Text s]) lines)) as (toks & t & out & H1 & H2 & H3 & H4 & H5); auto.
  - destruct lines; [congruence|discriminate].
  - intros l Hl. apply in_map_iff in Hl as (s & <- & Hs). split; [exact I|]. split; [intros [X|[]]; discriminate|]. split; [apply apart_one; discriminate|]. constructor; [|constructor]. split; [exact (Hp s Hs)|cbn [inline_height]; lia].
  - rewrite join_one. change (fun s => inline_source (Text s)) with (fun s : str => s). rewrite map_id. exact He.
  - rewrite join_one in H3, H5. change (fun s => inline_text (en_tags E) match en_category E with Some c => c | None => lit "_default" end (en_entity E) site get_page_title false (Text s)) with (fun s : str => s) in H5. rewrite map_id in H5.
    exists toks, t. split; [exact H1|]. split; [exact H2|]. split; [exact H3|]. rewrite H4. f_equal. apply trims_same; [exact H5|].
    intros c r [X|X].
    + destruct lines as [|s lines]; [congruence|]. pose proof (Hp s (or_introl eq_refl)) as Hs. destruct s as [|d s]; [destruct Hs; congruence|]. assert (d = c) by (destruct lines; cbn [join app] in X; congruence). subst d. apply (plain_no_break (c :: s)); [exact Hs|left; reflexivity].
    + destruct (exists_last Hl0) as (u & s & ->). pose proof (Hp s) as Hs. assert (Y : exists v, join [10%N] (u ++ [s]) = v ++ s).
      { clear. induction u as [|a u (v & IH)]; [exists []; reflexivity|]. cbn [app]. destruct (u ++ [s]) as [|b l] eqn:Z; [destruct u; discriminate|]. exists (a ++ [10%N] ++ v). change (join [10%N] (a :: b :: l)) with (a ++ [10%N] ++ join [10%N] (b :: l)). rewrite IH, <- !app_assoc. reflexivity. }
      destruct Y as [v Y]. rewrite Y in X. assert (Hs' : plain s) by (apply Hs, in_or_app; right; left; reflexivity). destruct Hs' as [Hne Hs']. destruct (exists_last Hne) as (w & d & ->). rewrite app_assoc in X. apply app_inj_tail in X as [_ <-]. apply (plain_no_break (w ++ [d])); [split; assumption|apply in_or_app; right; left; reflexivity].
Qed.
Print Assumptions C80_text.
Definition verse : list (list inline) :=
  [ [Text (lit "one "); Box Strong (lit "b") [] [Text (lit "two"); Break; Text (lit "three"); When false [(MustNot, lit "x")] [Text (lit "x"); Break; Text (lit "y")]] (lit "b")];
    [Character (lit "amp"); Text (lit " four")]; [Text (lit " five - "); When false [(Must, lit "x")] [Text (lit "six")]; Size (lit "2em") [Text (lit "me")]] ].
Definition line_b (ents : str -> option str) (l : list inline) : bool :=
  match l with [] | Break :: _ | When _ _ _ :: _ | Box (Hidden | Invisible) _ _ _ _ :: _ => false | _ => true end && forallb (fun x => match x with Break => false | _ => true end) l && apart_b l && forallb (fun x => inline_b ents x && (inline_height x <? 100)) l.
Lemma line_sound ents l : line_b ents l = true -> a_line ents l.
Proof.
  unfold line_b. intro H. do 3 (apply andb_true_iff in H as [H ?H]). split; [destruct l as [|[|[]| | | | | | | | | | | |] l]; first [exact I|discriminate]|]. split; [intro X; rewrite forallb_forall in H2; discriminate (H2 Break X)|]. split; [apply apart_sound; assumption|].
  apply Forall_forall. intros x Hx. rewrite forallb_forall in H0. specialize (H0 x Hx). apply andb_true_iff in H0 as [X Y]. split; [apply inline_sound; exact X|apply Nat.ltb_lt; exact Y].
Qed.
Example C80_case : (forall l, In l verse -> a_line (fun _ => Some [38%N]) l) /\
  join [10%N] (map (flat_map inline_source) verse) = lit "one [[b]]two
three[[iftags -x]]x
y[[/iftags]][[/b]]
[[char amp]] four
 five - [[iftags +x]]six[[/iftags]][[size 2em]]me[[/size]]" /\
  join (html "<br>") (map (flat_map (inline_html [] [] (fun _ => Some [38%N]) [] (fun s => s) [] (fun _ _ => true) (fun _ _ => []))) verse) = html "one <strong>two<br>threex<br>y</strong><br>&amp; four<br> five - <span style='font-size: 2em;'>me</span>".
Proof. conj; [intros l Hl; apply line_sound; revert l Hl; apply forallb_forall; vm_compute; reflexivity|vm_compute; reflexivity|vm_compute; reflexivity]. Qed.
(** But a line break before conditional text is lost, also when the text is shown; where the text is not
    conditional, the line break is there (C80_text). *)
Theorem C80_condition_refuted : exists E toks t, parsed E toks t /\ In (lit "fruit") (en_tags E) /\ en_text E = lit "a" ++ [10%N] ++ lit "[[iftags +fruit]]b[[/iftags]]" /\ tr_errors t = [] /\
  html_render release_renv 1 t = Html (html "<wj-body class='wj-body'><p>ab</p></wj-body>") [] [].
Proof.
  set (w := lit "a" ++ [10%N] ++ lit "[[iftags +fruit]]b[[/iftags]]"). enough (X : exists toks t, parsed (test_env w) toks t /\ (tr_errors t = [] /\ html_render release_renv 1 t = Html (html "<wj-body class='wj-body'><p>ab</p></wj-body>") [] [])).
  - destruct X as (toks & t & H1 & H2 & H3). exists (test_env w), toks, t. split; [exact H1|]. split; [left; reflexivity|]. split; [reflexivity|]. split; [exact H2|exact H3].
  - unfold w. clear w. page (lit "a" ++ [10%N] ++ lit "[[iftags +fruit]]b[[/iftags]]").
Qed.
Print Assumptions C80_condition_refuted.
Theorem C80_hidden_refuted : exists E toks t, parsed E toks t /\ en_text E = lit "a" ++ [10%N] ++ lit "[[invisible]]b[[/invisible]]" ++ [10%N] ++ lit "c" /\ tr_errors t = [] /\
  html_render release_renv 1 t = Html (html "<wj-body class='wj-body'><p>a<span class='wj-invisible'>b</span><br>c</p></wj-body>") [] [].
Proof.
  set (w := lit "a" ++ [10%N] ++ lit "[[invisible]]b[[/invisible]]" ++ [10%N] ++ lit "c"). enough (X : exists toks t, parsed (test_env w) toks t /\ (tr_errors t = [] /\ html_render release_renv 1 t = Html (html "<wj-body class='wj-body'><p>a<span class='wj-invisible'>b</span><br>c</p></wj-body>") [] [])).
  - destruct X as (toks & t & H1 & H2 & H3). exists (test_env w), toks, t. split; [exact H1|]. split; [reflexivity|]. split; [exact H2|exact H3].
  - unfold w. clear w. page (lit "a" ++ [10%N] ++ lit "[[invisible]]b[[/invisible]]" ++ [10%N] ++ lit "c").
Qed.
Print Assumptions C80_hidden_refuted.
