(** PropPipeline.v -- C64, from the source to the page: include, preprocess, tokenize, parse, render. *)
From Verif Require Import Base BaseLemmas Regex Peg Strings Links Attr Preproc SpecPreproc PreprocLemmas PreprocFacts PreprocFacts3 PropPreproc PropFixed
  Includes SpecIncludes IncludesLemmas PropIncludes SpecWriting SpecPipeline Lexer SpecLexer LexerLemmas WritingLex WritingBlocks
  Tree Text Toc SpecTree PState Parse SpecParse SpecPage Html Render ParseTestEnv RenderTestEnv PropRender PropWriting.

Lemma split2 {A} (x y a b : list A) : x ++ y = a ++ b -> (exists z, a = x ++ z /\ y = z ++ b) \/ (exists z, x = a ++ z /\ b = z ++ y).
Proof. intro H. apply app_eq_app in H as [z [[H1 H2]|[H1 H2]]]; [right|left]; exists z; auto. Qed.
Lemma cmem_false c s : cmem c s = false -> ~ In c s. Proof. intros H Hi. apply cmem_In in Hi. congruence. Qed.
Ltac conj := match goal with |- _ /\ _ => split; conj | _ => idtac end.
Definition nl_item (i : item) : bool := match i with INewline | IBreak _ => true | _ => false end.
Definition fin_item (i : item) : Prop := match i with IWords s => finished_words s | IBreak k => k <= 2 | _ => True end.
Lemma in_item_text i c : item_ok i -> In c (item_text i) ->
  match i with IWords s => In c s | INewline | IBreak _ => c = 10%N | _ => In c (lit "*/_^,~-{}+ #>") end.
Proof.
  destruct i as [s| |k|[|] m|n b|k|d b|d]; cbn [item_text]; intros Ho H; auto.
  - cbn in H. intuition.
  - apply repeat_spec in H. auto.
  - destruct m; cbn in H |- *; intuition.
  - destruct m; cbn in H |- *; intuition.
  - apply in_app_or in H as [H|H]; [apply repeat_spec in H; subst c; cbn; tauto|]. destruct b; cbn in H |- *; intuition.
  - apply repeat_spec in H. subst c. cbn. tauto.
  - apply in_app_or in H as [H|H]; [apply repeat_spec in H; subst c; cbn; tauto|]. destruct b; cbn in H |- *; intuition.
  - apply in_app_or in H as [H|H]; [apply repeat_spec in H; subst c; cbn; tauto|]. cbn in H |- *; intuition.
Qed.
(** What an item that is not a line break looks like. *)
Lemma item_line i : item_ok i -> fin_item i -> nl_item i = false -> ~ In 10%N (item_text i) /\ exists c, In c (item_text i) /\ is_ws c = false.
Proof.
  intros Ho Hf Hn. split.
  - intro H. apply in_item_text in H; auto. destruct i; cbn in Hn; try discriminate; try (revert H; apply cmem_false; reflexivity).
    cbn in Ho. destruct Ho as (_ & Ho & _). apply (Ho 10%N H). cbn. auto.
  - destruct i as [s| |k|[|] m|n b|k|d b|d]; try discriminate Hn; cbn [item_text].
    + apply Hf.
    + exists (hd 0%N (opening m)). destruct m; cbn; auto.
    + exists (hd 0%N (closing m)). destruct m; cbn; auto.
    + exists 43%N. cbn in Ho. destruct n; [lia|]. cbn. auto.
    + exists 45%N. cbn in Ho. destruct k; [lia|]. cbn. auto.
    + destruct b; [exists 35%N|exists 42%N]; (split; [|reflexivity]); apply in_or_app; right; cbn; auto.
    + exists 62%N. cbn in Ho. destruct d; [lia|]. cbn. auto.
Qed.
Lemma item_indent i c r : item_ok i -> fin_item i -> item_text i = c :: r -> is_nonstd_space c = false.
Proof.
  intros Ho Hf He. assert (Hi : In c (item_text i)) by (rewrite He; left; auto). apply in_item_text in Hi; auto.
  assert (K : forall c l, In c l -> forallb (fun c => negb (is_nonstd_space c)) l = true -> is_nonstd_space c = false).
  { intros c' l' H1 H2. rewrite forallb_forall in H2. specialize (H2 _ H1). apply negb_true_iff in H2. auto. }
  destruct i; try (eapply K; [exact Hi|reflexivity]); try (subst c; reflexivity).
  cbn [item_text] in He. destruct Hf as (_ & _ & Hf & _). specialize (Hf c r He). unfold is_nonstd_space. destruct (_ || _) eqn:Eo; auto. exfalso. apply Hf.
  apply orb_true_iff in Eo as [E|E]; apply ceqb_eq in E; subst c; cbn; auto.
Qed.
Lemma nb_inside x : forall c y, ~ In 10%N x -> c <> 10%N -> (forall p, p <> 10%N -> no_blank (Some p) y) -> no_blank (Some c) (x ++ y).
Proof.
  induction x as [|d x IH]; intros c y Hx Hc H; [apply H; auto|]. cbn [app no_blank]. split.
  - unfold bol. intro E. apply ceqb_eq in E. exfalso; apply Hc; exact E.
  - apply IH; auto; [intro Hi; apply Hx; right; auto|intros ->; apply Hx; left; auto].
Qed.
Lemma ni_inside x : forall c y, ~ In 10%N x -> c <> 10%N -> (forall p, p <> 10%N -> no_indent (Some p) y) -> no_indent (Some c) (x ++ y).
Proof.
  induction x as [|d x IH]; intros c y Hx Hc H; [apply H; auto|]. cbn [app no_indent]. split.
  - unfold bol. intro E. apply ceqb_eq in E. exfalso; apply Hc; exact E.
  - apply IH; auto; [intro Hi; apply Hx; right; auto|intros ->; apply Hx; left; auto].
Qed.
(** A list of items, read from the left. *)
Definition head_ok (l : list item) : Prop := match l with [] => True | i :: _ => nl_item i = false end.
Lemma beside_nl a b : nl_item a = true -> beside (Some a) (Some b) -> nl_item b = false.
Proof. destruct a, b; cbn; try discriminate; auto; contradiction. Qed.
Lemma lines_ok l : forall a p, all_beside a l None -> Forall item_ok l -> Forall fin_item l -> (forall r, flat_map item_text l <> r ++ [10%N]) ->
  (bol p = true -> head_ok l) -> no_blank p (flat_map item_text l) /\ no_indent p (flat_map item_text l).
Proof.
  induction l as [|i l IH]; intros a p Hb Ho Hf He Hh; [split; exact I|]. cbn [all_beside] in Hb. destruct Hb as [Hab Hb]. inversion Ho as [|? ? Hi Ho']; inversion Hf as [|? ? Hfi Hf']; subst.
  cbn [flat_map] in *. assert (He' : forall r, flat_map item_text l <> r ++ [10%N]).
  { intros r Hr. apply (He (item_text i ++ r)). rewrite Hr, app_assoc. reflexivity. }
  specialize (IH (Some i)).
  destruct (nl_item i) eqn:En.
  - assert (Hp : bol p = false) by (destruct (bol p); auto; specialize (Hh eq_refl); cbn in Hh; congruence).
    assert (Hhl : head_ok l). { destruct l as [|j l]; [exact I|]. cbn [all_beside] in Hb. apply (beside_nl i j); auto. apply Hb. }
    destruct (IH (Some 10%N) Hb Ho' Hf' He' (fun _ => Hhl)) as [H1 H2].
    assert (One : no_blank p (10%N :: flat_map item_text l) /\ no_indent p (10%N :: flat_map item_text l)).
    { cbn [no_blank no_indent]. conj; auto; congruence. }
    destruct i as [s| |k|o m|n b|k|d b|d]; try discriminate En; [exact One|]. cbn [item_text]. cbn in Hi, Hfi.
    destruct k as [|[|[|k]]]; try lia; [exact One|]. cbn [repeat app].
    assert (Hw : wl (flat_map item_text l) = None).
    { destruct l as [|j l]; [exfalso; apply (He [10%N]); reflexivity|]. cbn [flat_map]. cbn in Hhl. inversion Ho'; inversion Hf'; subst. destruct (item_line j) as [? ?]; auto. apply wl_nonws; auto. }
    cbn [no_blank no_indent]. conj; auto; intros; congruence.
  - destruct (item_line i Hi Hfi En) as [Hn10 Hv]. destruct (item_text i) as [|c x] eqn:Ex; [destruct Hv as (? & [] & _)|].
    assert (Hc10 : c <> 10%N) by (intros ->; apply Hn10; left; auto).
    assert (Hx10 : ~ In 10%N x) by (intro Hx; apply Hn10; right; auto).
    assert (Hrest : forall p, p <> 10%N -> no_blank (Some p) (flat_map item_text l) /\ no_indent (Some p) (flat_map item_text l)).
    { intros q Hq. apply IH; auto. unfold bol. intro E. apply ceqb_eq in E. exfalso; apply Hq; exact E. }
    cbn [app no_blank no_indent]. conj.
    + intros _ Hw. apply wl_nonws; auto. destruct Hv as (v & [->|Hv] & Hw'); [congruence|eauto].
    + apply nb_inside; auto. intros q Hq. apply Hrest; auto.
    + intros _. apply (item_indent i c x); auto.
    + apply ni_inside; auto. intros q Hq. apply Hrest; auto.
Qed.
(** A piece of the text that starts with a character only words have, and goes on with characters that
    no mark or line break starts with, is in the words. *)
Lemma in_words l : forall a c x b e, all_beside e l None -> Forall item_ok l -> flat_map item_text l = a ++ c :: x ++ b ->
  ~ In c (10%N :: lit "*/_^,~-{}+ #>") -> (forall d, In d x -> ~ In d (10%N :: lit "*/_^,~-{}")) -> exists s, In (IWords s) l /\ substr (c :: x) s.
Proof.
  induction l as [|i l IH]; intros a c x b e Hb Ho He Hc Hx; [destruct a; discriminate|]. cbn [flat_map all_beside] in *. destruct Hb as [_ Hb]. inversion Ho as [|? ? Hi Ho']; subst.
  apply split2 in He as [(z & -> & Hl)|(z & Hl & Hr)].
  - destruct (IH z c x b (Some i) Hb Ho' Hl Hc Hx) as (s & Hs & Hs'). exists s. split; auto. right. auto.
  - assert (Hci : z <> [] -> In c (item_text i)). { intro Hz. rewrite Hl. destruct z as [|c' z]; [contradiction|]. cbn in Hr. injection Hr as <- _. apply in_or_app. right. left. auto. }
    destruct z as [|c' z].
    { cbn in Hr. destruct (IH [] c x b (Some i) Hb Ho' (eq_sym Hr) Hc Hx) as (s & Hs & Hs'). exists s. split; auto. right. auto. }
    cbn in Hr. injection Hr as <- Hr. specialize (Hci ltac:(discriminate)). apply in_item_text in Hci; auto.
    destruct i as [s| |k|o m|n bb|k|d bb|d]; try (exfalso; apply Hc; right; exact Hci); try (exfalso; apply Hc; left; congruence).
    exists s. split; [left; auto|]. cbn [item_text] in Hl. apply split2 in Hr as [(y & -> & Hy)|(y & -> & Hy)].
    + exists a, y. cbn [app] in *. rewrite Hl. reflexivity.
    + destruct y as [|d y]; [exists a, []; rewrite !app_nil_r; auto|]. exfalso. destruct l as [|j l]; [discriminate Hy|].
      cbn [all_beside] in Hb. destruct Hb as [Hj _]. inversion Ho' as [|? ? Hjo _]; subst. destruct (item_char j Hjo) as (c1 & r1 & Et & Hf). cbn [flat_map] in Hy. rewrite Et in Hy. cbn in Hy. injection Hy as <- _.
      assert (Hd : ~ In c1 (10%N :: lit "*/_^,~-{}")) by (apply Hx; apply in_or_app; right; left; auto).
      assert (Hin : In c1 (item_text j)) by (rewrite Et; left; auto).
      destruct j as [s'| |k|o m|n bb|k|d bb|d]; cbn [beside] in Hj; try contradiction; apply Hd; cbn in Hf; try (left; congruence).
      right. subst c1. destruct o, m; cbn; auto 10.
Qed.
Lemma source_char ps c : Forall item_ok (page_items ps) -> In c (source ps) -> (exists s, In (IWords s) (page_items ps) /\ In c s) \/ In c (10%N :: lit "*/_^,~-{}+ #>").
Proof.
  intros Ho H. unfold source in H. apply in_flat_map in H as (i & Hi & Hc). rewrite Forall_forall in Ho. apply in_item_text in Hc; [|apply Ho; auto].
  destruct i; try (right; right; exact Hc); [left; eauto|right; left; auto|right; left; auto].
Qed.
Lemma per_line_head i l ls : exists r, one_per_line ((i :: l) :: ls) = i :: r.
Proof. destruct ls; cbn [one_per_line app]; eauto. Qed.
Lemma finished_settled ps : good_page ps -> finished ps -> settled (source ps).
Proof.
  intros (Hsp & Hb & Hg) (Hw & Hk & He). pose proof (page_items_ok ps Hsp Hg) as Ho.
  assert (Hf : Forall fin_item (page_items ps)). { apply Forall_forall. intros i Hi. destruct i; try exact I; [apply Hw; auto|apply Hk; auto]. }
  assert (Hh : head_ok (page_items ps)).
  { destruct ps as [|[b k] ps]; [exact I|]. specialize (Hg b k (or_introl eq_refl)). rewrite page_items_cons.
    assert (X : exists i l, block_items b = i :: l /\ nl_item i = false); [|destruct X as (i & l & -> & Hi); exact Hi].
    destruct b as [p|n lst l|d|ls|xs]; cbn [good_block block_items] in *.
    - destruct Hg as [(x & l & -> & Hx) _]. destruct x as [s| |m l']; [|contradiction|]; cbn; eauto.
    - eauto.
    - eauto.
    - destruct Hg as (Hne & _ & Hg & _). destruct ls as [|[num xs] ls]; [contradiction|]. specialize (Hg _ (or_introl eq_refl)). cbn [well_nested fst snd] in Hg. destruct Hg as ((l & xs' & ->) & _).
      unfold list_lines. cbn [flat_map fst snd lines app map]. edestruct per_line_head as [r ->]. eauto.
    - destruct Hg as [((l & xs' & ->) & _) _]. cbn [flat_map fst snd lines app map]. edestruct per_line_head as [r ->]. eauto. }
  destruct (lines_ok (page_items ps) None None Hb Ho Hf He (fun _ => Hh)) as [H1 H2]. fold (source ps) in H1, H2.
  assert (Hnc : forall c, In c [0; 9; 13; 92; 96]%N -> ~ In c (source ps)).
  { intros c Hc Hi. apply source_char in Hi as [(s & Hs & Hi)|Hi]; auto.
    - assert (Hc' : In c [0; 9; 92; 96]%N \/ c = 13%N) by (cbn in Hc |- *; intuition). destruct Hc' as [Hc'| ->].
      + apply Hw in Hs. destruct Hs as (Hs & _). exact (Hs c Hi Hc').
      + rewrite Forall_forall in Ho. specialize (Ho _ Hs). destruct Ho as (_ & Ho & _). apply (Ho 13%N Hi). cbn. auto.
    - revert Hi. apply cmem_false. cbn in Hc. repeat destruct Hc as [<-|Hc]; try reflexivity. destruct Hc. }
  assert (Hdots : forall x, In x [lit "''"; lit "..."; lit ". . ."] -> ~ substr x (source ps)).
  { intros x Hx (a & b & Hs).
    assert (Y : exists s, In (IWords s) (page_items ps) /\ substr x s).
    { cbn [In] in Hx. destruct Hx as [<-|[<-|[<-|[]]]]; eapply in_words with (a := a) (b := b); try exact Hs; eauto; try (apply cmem_false; reflexivity);
        intros d Hd; apply cmem_false; cbn in Hd; repeat destruct Hd as [<-|Hd]; try reflexivity; destruct Hd. }
    destruct Y as (s & Hi & Hss). apply Hw in Hi as (_ & _ & _ & H3 & H4 & H5). cbn [In] in Hx. destruct Hx as [<-|[<-|[<-|[]]]]; auto. }
  split.
  - intros c Hc. apply Hnc. cbn in Hc |- *. intuition.
  - apply no_indent_settled. exact H2.
  - apply no_blank_settled. exact H1.
  - intros (a & b & Hs). apply (Hnc 92%N); [cbn; tauto|]. rewrite Hs. apply in_or_app. right. left. reflexivity.
  - intros r Hr. unfold source in Hr. destruct (page_items ps) as [|i l] eqn:Ei; [discriminate Hr|]. cbn in Hh. inversion Ho as [|? ? Hi _]; inversion Hf as [|? ? Hfi _]; subst.
    destruct (item_line i) as [Hn (c & Hc & _)]; auto. cbn [flat_map] in Hr. destruct (item_text i) as [|d x]; [destruct Hc|]. cbn in Hr. injection Hr as -> _. apply Hn. left. auto.
  - exact He.
  - intros t Ht. inversion Ht; subst.
    + apply (Hnc 96%N); [cbn; tauto|]. rewrite <- H. apply in_or_app. right. left. reflexivity.
    + apply (Hdots (lit "''")); [left; auto|]. exists (a ++ [44; 44]%N ++ m), b. rewrite <- H, <- !app_assoc. reflexivity.
    + apply (Hnc 96%N); [cbn; tauto|]. rewrite <- H. apply in_or_app. right. left. reflexivity.
    + apply (Hdots d); [cbn; destruct H0 as [-> | ->]; auto|]. exists a, b. auto.
Qed.
(** *** C64, from the source to the page *)
(** A page written down as in C64, in a way that leaves nothing for the preprocessor to do, comes
    through the whole pipeline: the includer is asked for no pages and the text stays the same, the
    preprocessor leaves it alone, and the HTML and the plain text are exactly the page. *)
Theorem C64_pipeline : forall St Err (I : includer St Err) inv compat st st' E R n ps,
  good_page ps -> finished ps -> include_pages St Err I st [] = (st', inl []) -> en_text E = source ps -> 1 <= n -> (re_true_ids R = false -> forall k, re_random R k <> []) ->
  include St Err I inv true compat st (source ps) = IOk (source ps) [] /\
  preprocess (source ps) = Preproc.ROk (source ps) /\
  exists toks t, extract_all (source ps) = Some toks /\ parse E toks = Parsed t /\ tr_errors t = [] /\
    html_render R n t = Html (page_html (fun k => if re_true_ids R then lit "toc" ++ dec k else re_random R k) ps) [] [] /\
    forall site df, text_render site df (tr_elements t) = Some (page_text ps).
Proof.
  intros St Err I inv compat st st' E R n ps Hg Hf Ha He Hn Hid. conj.
  - apply C15_no_block with (st' := st'); auto. intros pre b rest page args Hs _ _ Hbt.
    assert (Ho : Forall item_ok (page_items ps)) by (destruct Hg as (H1 & _ & H3); apply page_items_ok; auto).
    enough (X : ~ In 91%N (source ps)).
    { apply X. rewrite Hs. apply in_or_app. right. apply in_or_app. left. destruct Hbt as (w1 & kw & w2 & body & -> & _). left. reflexivity. }
    intro Hi. apply source_char in Hi as [(s & Hs' & Hi)|Hi]; auto.
    + rewrite Forall_forall in Ho. specialize (Ho _ Hs'). destruct Ho as (_ & Ho & _). apply (Ho 91%N Hi). cbn. auto.
    + revert Hi. apply cmem_false. reflexivity.
  - apply C03_unchanged_exactly, finished_settled; auto.
  - destruct (C64_formatted_text E R n ps Hg He Hn Hid) as (toks & t & [H1 H2] & H3 & _ & _ & H4 & H5). exists toks, t. rewrite He in H1. conj; auto.
Qed.
Print Assumptions C64_pipeline.
Fixpoint has_sub (x s : str) : bool := seqb (firstn (length x) s) x || match s with [] => false | _ :: r => has_sub x r end.
Lemma has_sub_no x s : has_sub x s = false -> ~ substr x s.
Proof.
  induction s as [|c s IH]; intros H (a & b & Hs); cbn [has_sub] in H; apply orb_false_iff in H as [H1 H2].
  - symmetry in Hs. apply app_eq_nil in Hs as [_ Hs]. apply app_eq_nil in Hs as [-> _]. discriminate.
  - destruct a as [|d a]; cbn [app] in Hs.
    + rewrite Hs, firstn_app, Nat.sub_diag, firstn_all, firstn_O, app_nil_r in H1. assert (X : seqb x x = true) by (apply seqb_eq; auto). congruence.
    + injection Hs as _ Hs. apply IH; auto. exists a, b. auto.
Qed.
Definition finished_words_b (s : str) : bool :=
  forallb (fun c => negb (cmem c [0; 9; 92; 96]%N)) s && existsb (fun c => negb (is_ws c)) s && match s with c :: _ => negb (cmem c [160; 8199]%N) | [] => true end &&
  forallb (fun x => negb (has_sub x s)) [lit "''"; lit "..."; lit ". . ."].
Lemma finished_words_sound s : finished_words_b s = true -> finished_words s.
Proof.
  unfold finished_words_b. intro H. apply andb_true_iff in H as [H H4]. apply andb_true_iff in H as [H H3]. apply andb_true_iff in H as [H1 H2].
  assert (X : forall x, In x [lit "''"; lit "..."; lit ". . ."] -> ~ substr x s). { intros x Hx. rewrite forallb_forall in H4. apply has_sub_no, negb_true_iff, H4, Hx. }
  unfold finished_words. conj; try (apply X; cbn [In]; auto; fail).
  - intros c Hc. rewrite forallb_forall in H1. apply cmem_false, negb_true_iff, H1, Hc.
  - apply existsb_exists in H2 as (c & Hc & H2). exists c. split; auto. apply negb_true_iff; auto.
  - intros c r ->. apply cmem_false, negb_true_iff. auto.
Qed.
Definition finished_b (ps : page) : bool :=
  forallb (fun i => match i with IWords s => finished_words_b s | IBreak k => k <=? 2 | _ => true end) (page_items ps) && negb (ceqb (last (source ps) 0%N) 10).
Lemma finished_sound ps : finished_b ps = true -> finished ps.
Proof.
  intro H. apply andb_true_iff in H as [H1 H2]. rewrite forallb_forall in H1. unfold finished. conj.
  - intros s Hs. apply finished_words_sound. exact (H1 _ Hs).
  - intros k Hk. apply Nat.leb_le. exact (H1 _ Hk).
  - intros r Hr. rewrite Hr, last_last in H2. discriminate.
Qed.
Example C64_pipeline_case : exists ps, good_page ps /\ finished ps /\ source ps = lit "+ It's a **title**

Some //text// with H,,2,,O, e.g.
two lines. And dots: 1. 2.
* one
 * //two//

> quoted" /\
  page_text ps = lit "It's a title

Some text with H2O, e.g.
two lines. And dots: 1. 2.
one
two


quoted".
Proof.
  exists [ (Heading 1 true [Words (lit "It's a "); Marked Bold (w "title")], 2);
    (Paragraph [Words (lit "Some "); Marked Italics (w "text"); Words (lit " with H"); Marked Subscript (w "2"); Words (lit "O, e.g."); Newline; Words (lit "two lines. And dots: 1. 2.")], 1);
    (Lists [(false, [Line (w "one"); Inner false [Line [Marked Italics (w "two")]]])], 2);
    (Quote [Line (w "quoted")], 0) ].
  conj; [apply page_sound; vm_compute; reflexivity| |vm_compute; reflexivity..].
  apply finished_sound. vm_compute. reflexivity.
Qed.
