(** PropBlockless.v -- property C70: what a page without double brackets can have; and the letters
    of such a page in HTML (C69). *)
From Verif Require Import Base BaseLemmas Strings Links Attr Lexer SpecLexer LexerLemmas
  Depth Tree Text PState SpecParse SpecPage ParseInv Blocks Rules Parse ParseLemmas PropParse PropPage SpecText PropText SpecLetters LettersLemmas PropLetters ParseTestEnv SpecBlockless
  Toc Html SpecHtml SpecReader Render SpecRender RenderLemmas SpecShown PropRender RenderView PropShown.

Lemma partial_occurs E toks n fb F A e y : okE E toks n fb F A e -> occurs (EPartial y) e -> has_block toks.
Proof.
  intros H Ho. revert A H. remember (EPartial y) as x eqn:Ex. induction Ho as [|e z Hz Ho IH]; intros A H; inversion H as [A' e' H1 H2 H3]; subst.
  - destruct (H2 y eq_refl) as [_ X]. exact X.
  - rewrite Forall_forall in H3. eapply IH; eauto.
Qed.
Lemma page_partial E toks t y : parsed E toks t -> on_page t (EPartial y) -> has_block toks.
Proof.
  intros [Ht Hp] (es & Hin & e & He & Ho). pose proof (page_elements E toks Ht t Hp) as H1. pose proof (page_shared E toks Ht t Hp) as [_ _ _ _ _ _ H2 H3]. cbn in H2, H3.
  destruct Hin as [<-|Hin].
  - rewrite Forall_forall in H1. eapply partial_occurs; eauto.
  - apply in_app_or in Hin as [Hin|Hin].
    + rewrite Forall_forall in H2. specialize (H2 es Hin). rewrite Forall_forall in H2. eapply partial_occurs; eauto.
    + apply in_flat_map in Hin as (b & Hb & Hin). apply in_map_iff in Hin as (le & <- & Hle).
      rewrite Forall_forall in H3. destruct (H3 b Hb) as [_ H4]. rewrite Forall_forall in H4. specialize (H4 le Hle).
      rewrite Forall_forall in H4. eapply partial_occurs; eauto.
Qed.
(** C70: a page whose text has no double opening bracket has only text, formatting, links, lists,
    tables and rules; its elements carry no attributes but the class of a table, and it stores no
    HTML, code, footnotes or bibliographies.  So images, frames, forms, styles, modules and so on
    come only from text in double brackets. *)
Theorem C70_no_blocks : forall E toks t, parsed E toks t -> ~ substr (lit "[[") (en_text E) ->
  tr_html t = [] /\ tr_code t = [] /\ tr_footnotes t = [] /\ tr_bibs t = [] /\
  forall x, on_page t x -> bracket_free x = true /\
    forall m k v, In m (attrs_of x) -> In (k, v) m -> k = lit "class" /\ v = lit "wj-table".
Proof.
  intros E toks t Hpt Hn. pose proof Hpt as [Ht Hp].
  assert (Hb : ~ has_block toks) by (intro X; apply Hn, (block_in_text E toks Ht X)).
  assert (Hl : ~ has_link toks).
  { intros [X|X]; apply Hn; [apply (substr_prefix _ (lit "["))|apply (substr_prefix _ (lit "[*"))];
      [eapply (token_in_text E toks Ht TLeftLink)|eapply (token_in_text E toks Ht TLeftLinkStar)]; eauto; cbn; tauto. }
  assert (Ha : ~ has_token toks TLeftBlockAnchor).
  { intro X. apply Hn, (substr_prefix _ (lit "#")). eapply (token_in_text E toks Ht TLeftBlockAnchor); eauto; cbn; tauto. }
  assert (Hm : ~ has_token toks TLeftMath).
  { intro X. apply Hn, (substr_prefix _ (lit "$")). eapply (token_in_text E toks Ht TLeftMath); eauto; cbn; tauto. }
  pose proof (page_shared E toks Ht t Hp) as [_ S1 S2 _ S3 S4 _ _]. cbn in S1, S2, S3, S4.
  split; [destruct (tr_html t) as [|h l]; auto; exfalso; inversion S2 as [|? ? [_ X]]; auto|].
  split; [destruct (tr_code t) as [|h l]; auto; exfalso; inversion S1 as [|? ? [_ X]]; auto|].
  split; [destruct (tr_footnotes t) as [|h l]; auto; exfalso; apply Hb, S3; discriminate|].
  split; [destruct (tr_bibs t) as [|h l]; auto; exfalso; apply Hb, S4; discriminate|].
  intros x Hx. destruct (on_page_ok E toks Ht t x Hp Hx) as (F & HA & H). split.
  - destruct x; try reflexivity; try (exfalso; tauto); try (exfalso; destruct H as [_ H]; tauto).
    + destruct ctype; try reflexivity; exfalso; apply Hb, H; reflexivity.
    + destruct H as [H|(-> & H & u & ->)]; [exfalso; auto|]. destruct label; try reflexivity. contradiction.
    + destruct e; exfalso; auto.
    + exfalso. eapply Hb, page_partial; eauto.
  - intros m k v Hm' Hk. rewrite Forall_forall in HA. destruct (HA m Hm') as [_ HA']. destruct (HA' k v Hk) as (_ & _ & Ho). inversion Ho; subst; auto; contradiction.
Qed.
Print Assumptions C70_no_blocks.
(** A page with much of what needs no double brackets. *)
Definition bracketless_page : str := lit "+ Title
a **b** [http://x.y link] ##red|c##
* one
> two
||d||e||

: k : v
----".
Example C70_case : exists toks t, parsed (test_env bracketless_page) toks t /\ tr_errors t = [] /\ ~ substr (lit "[[") (en_text (test_env bracketless_page)) /\
  11 <= length (flat_map flat (tr_elements t)).
Proof.
  enough (X : exists toks t, parsed (test_env bracketless_page) toks t /\ tr_errors t = [] /\ 11 <=? length (flat_map flat (tr_elements t)) = true).
  { destruct X as (toks & t & Hp & He & Hl). exists toks, t. split; [exact Hp|]. split; [exact He|]. split; [|apply Nat.leb_le; exact Hl].
    change (en_text (test_env bracketless_page)) with bracketless_page. intros (a & b & X).
    assert (W : forall s, (fix go s := match s with x :: ((y :: _) as r) => negb (ceqb x 91 && ceqb y 91) && go r | _ => true end) s = true -> forall a b, s <> a ++ lit "[[" ++ b).
    { induction s as [|x s IH]; intros Hs a' b' Hx; [destruct a'; discriminate Hx|]. destruct a' as [|y a'].
      - cbn in Hx. injection Hx as -> ->. discriminate Hs.
      - cbn [app] in Hx. injection Hx as <- Hx. destruct s as [|z s]; [destruct a'; discriminate Hx|]. apply andb_prop in Hs as [_ Hs]. exact (IH Hs a' b' Hx). }
    apply (W bracketless_page) with (a := a) (b := b); [vm_compute; reflexivity|exact X]. }
  page bracketless_page.
Qed.

(** *** C69 in HTML *)
Lemma letters_shown s : letters (shown s) = letters s.
Proof.
  unfold letters, shown. induction s as [|c s IH]; auto. cbn [map filter]. destruct (ceqb c 0) eqn:Ec.
  - apply ceqb_eq in Ec. subst c. exact IH.
  - rewrite IH. reflexivity.
Qed.
Lemma letters_flat_eq {A} (f g : A -> str) l : (forall x, In x l -> letters (f x) = letters (g x)) -> letters (flat_map f l) = letters (flat_map g l).
Proof.
  induction l as [|x l IH]; intro H; auto. cbn [flat_map]. rewrite !letters_app, (H x), IH; auto; intros; [apply H|]; cbn; auto.
Qed.
Lemma words_letters site df site' df' t el : tr_footnotes t = [] -> forall e, (forall x, occurs x e -> bracket_free x = true) ->
  letters (words site df t el [] e) = letters (said site' df' [] false e).
Proof.
  intros Hf. enough (X : forall n e, length (flat e) < n -> (forall x, occurs x e -> bracket_free x = true) ->
    letters (words site df t el [] e) = letters (said site' df' [] false e)) by (intros e He; eapply X; eauto).
  induction n as [|n IH]; intros e Hn He; [lia|].
  assert (Hch : forall x, In x (children e) -> letters (words site df t el [] x) = letters (said site' df' [] false x)).
  { intros x Hx. apply IH; [pose proof (size_child x e Hx); lia|]. intros y Hy. apply He. eapply occ_child; eauto. }
  pose proof (He e (occ_self e)) as Hb. destruct e; try discriminate Hb; try reflexivity.
  - destruct ctype; try discriminate Hb; cbn [words said]; apply letters_flat_eq; auto.
  - cbn [words said]. apply letters_flat_eq. intros r Hr. apply letters_flat_eq. intros c Hc. apply letters_flat_eq. intros x Hx. apply Hch. cbn [children].
    apply in_flat_map. exists r. split; auto. apply in_flat_map. exists c. auto.
  - destruct link, extra, label; try discriminate Hb; reflexivity.
  - cbn [words said]. apply letters_flat_eq. intros i Hi. destruct i as [a es|x].
    + apply letters_flat_eq. intros x Hx. apply Hch. cbn [children]. apply in_flat_map. exists (LIElements a es). auto.
    + apply Hch. cbn [children]. apply in_flat_map. exists (LISubList x). cbn. auto.
  - cbn [words said]. apply letters_flat_eq. intros d Hd. rewrite !letters_app. change (letters (lit " ")) with (@nil char). cbn [app]. f_equal; apply letters_flat_eq; intros x Hx; apply Hch; cbn [children];
      apply in_flat_map; exists d; (split; [auto|]); unfold def_children; apply in_or_app; auto.
  - cbn [words said]. destruct hide; [reflexivity|]. rewrite Hf. reflexivity.
  - cbn [words said]. apply letters_flat_eq; auto.
Qed.
