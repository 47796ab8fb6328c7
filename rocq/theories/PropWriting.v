(** PropWriting.v -- C64: pages of formatted text come out as they were meant. *)
From Verif Require Import Base BaseLemmas Strings Links Attr Html SpecHtml HtmlLemmas Lexer SpecLexer LexerLemmas Depth SpecDepth DepthLemmas DepthBuild Tree Text Toc SpecTree TreeLemmas PState Blocks Rules Parse
  SpecParse SpecPage ParseInv SpecWriting ProseLemmas WritingLex WritingParse WritingBlocks ParseTestEnv PropParse
  Render SpecReader SpecRender RenderLemmas RenderDom WritingRender RenderTestEnv PropRender.
Import SpecWriting.

(** *** Parsing *)
Lemma spans_items l : all_nests l -> Forall item_ok (flat_map items l).
Proof.
  assert (Hx : forall k l, length (flat_map items l) <= k -> all_nests l -> Forall item_ok (flat_map items l)); [|eauto].
  clear l. induction k as [|k IHk]; intros l0 Hl Hn.
  - destruct (flat_map items l0); [constructor|cbn in Hl; lia].
  - induction l0 as [|x l0 IH]; [constructor|]. cbn [flat_map] in Hl |- *. rewrite app_length in Hl. destruct Hn as [Hnx Hnl]. apply Forall_app. split; [|apply IH; auto; lia].
    destruct x as [s| |m i]; [constructor; auto|constructor; cbn; auto|]. cbn [items] in Hl |- *. apply nests_marked in Hnx as (_ & _ & Hi). constructor; [exact I|].
    apply Forall_app. split; [|constructor; [exact I|constructor]]. apply IHk; auto. cbn [length] in Hl. rewrite app_length in Hl. lia.
Qed.
Lemma line_items l : good_line l -> Forall item_ok (flat_map items l).
Proof. intro H. apply spans_items. apply (line_nests l H). Qed.
Lemma per_line_ok ls : Forall (Forall item_ok) ls -> Forall item_ok (one_per_line ls).
Proof.
  induction 1 as [|l ls Hl H IH]; [constructor|]. cbn [one_per_line]. destruct ls; auto. apply Forall_app. split; auto. constructor; auto. cbn. lia.
Qed.
Lemma lines_deep {K} (x : nested K) : forall d k y, In y (lines d k x) -> d <= fst (fst y).
Proof.
  induction x as [l|k0 xs IH] using nested_all; intros d k y Hy; cbn [lines] in Hy; [destruct Hy as [<-|[]]; cbn; lia|].
  apply in_flat_map in Hy as (z & Hz & Hy). rewrite Forall_forall in IH. specialize (IH z Hz _ _ _ Hy). lia.
Qed.
Lemma block_ok b : good_block b -> Forall item_ok (block_items b).
Proof.
  destruct b as [p|n b l|d|ls|xs]; cbn [good_block block_items]; intro H.
  - apply spans_items. apply (all_nests_in p (proj2 H)).
  - destruct H as [H1 H2]. constructor; auto. apply line_items; auto.
  - constructor; auto.
  - destruct H as (_ & _ & H & _). apply per_line_ok, Forall_forall. intros r Hr. apply in_map_iff in Hr as (x & <- & Hx). constructor; [exact I|]. apply line_items.
    apply in_flat_map in Hx as (l & Hl & Hx). specialize (H l Hl). apply (nested_lines (Inner (fst l) (snd l)) H 0 (fst l) (S (fst (fst x)), snd (fst x), snd x)).
    cbn [lines]. rewrite forest_S. apply in_map_iff. eexists. split; [reflexivity|exact Hx].
  - destruct H as (H & _). apply per_line_ok, Forall_forall. intros r Hr. apply in_map_iff in Hr as (x & <- & Hx). constructor.
    + apply in_flat_map in Hx as (y & _ & Hx). apply lines_deep in Hx. exact Hx.
    + apply line_items. apply (nested_lines (Inner tt xs) H 0 tt x). exact Hx.
Qed.
Lemma page_items_ok ps : spaced ps -> (forall b k, In (b, k) ps -> good_block b) -> Forall item_ok (page_items ps).
Proof.
  intros _. induction ps as [|[b k] ps IH]; intro H; [constructor|]. rewrite page_items_cons. apply Forall_app. split; [|apply Forall_app; split].
  - apply block_ok. apply (H b k). left. auto.
  - destruct k; constructor; [cbn; lia|constructor].
  - apply IH. intros b' k' Hi. apply (H b' k'). right. auto.
Qed.
Lemma safe_app a b : (exists x, all_paragraph_safe a = Some x) -> (exists x, all_paragraph_safe b = Some x) -> exists x, all_paragraph_safe (a ++ b) = Some x.
Proof.
  intros [x Hx] Hb. revert x Hx. induction a as [|e a IH]; intros x Hx; [exact Hb|]. cbn [app all_paragraph_safe] in *. destruct (paragraph_safe e) as [[|]|]; try discriminate; eauto.
Qed.
Lemma block_safe b es : block_reads b es -> exists x, all_paragraph_safe es = Some x.
Proof.
  destruct 1; try (eexists; reflexivity).
  destruct ts as [|t ts]; [eexists; reflexivity|]. exists false. reflexivity.
Qed.
Lemma page_safe bs ess : Forall2 block_reads bs ess -> exists x, all_paragraph_safe (concat ess) = Some x.
Proof. induction 1 as [|b es bs ess Hb _ IH]; [exists true; reflexivity|]. cbn [concat]. apply safe_app; auto. eapply block_safe; eauto. Qed.
Lemma page_parse E ps : good_page ps -> en_text E = source ps -> exists toks t ess toc, parsed E toks t /\ Forall2 block_reads (map fst ps) ess /\
  flat_map (toc_reading 0) toc = expected_toc 0 (page_headings ps) /\
  t = TREE (concat ess ++ [EFootnoteBlock None false]) toc [] [] [] [] (blen (source ps)) [].
Proof.
  intros (Hsp & Hb & Hg) He. destruct (extract_stepped (en_text E)) as (mid & Hex & Hsl & Hsh & Hch & Hstp). rewrite He in Hsl.
  destruct (lex_items (page_items ps) None mid (conj Hsh (conj Hch Hstp)) Hsl Hb (page_items_ok _ Hsp Hg)) as (tss & -> & Hlx).
  set (st := XT TInputStart [] 0 0) in *. set (e := XT TInputEnd [] (blen (en_text E)) (blen (en_text E))) in *.
  set (p := PST st (concat tss ++ [e]) "page" 0 APNone false false true).
  destruct (head_ex tss e) as (u & r & Eu).
  assert (Hstart : consume_n E 100 p shared_new = ROk (PSu [] [] true) (at_ p true (concat tss ++ [e])) shared_new).
  { rewrite Eu. apply (start_consume E 99 p shared_new u r); [cbn; unfold MAX_RECURSION_DEPTH; lia|exact Eu|reflexivity]. }
  assert (Hst0 : steps E 100 shared_new (goes_on OnPage) p [] (at_ p true (concat tss ++ [e]))).
  { apply steps_one with (es := []); auto; [unfold goes_on, cur_tok; cbn; conj; auto; discriminate|]. rewrite Eu. unfold p. cbn [at_ rem]. rewrite Eu. cbn. lia. }
  destruct (gather_go E 100 shared_new p [] _ Hst0 (S (length (rem p))) ps_new true ltac:(lia)) as (k' & f' & Hk' & Hlo').
  destruct (page_run E e eq_refl (length ps) ps (le_n _) p None tss (PS [] []) k' f' shared_new true Hlx (conj Hb (conj Hsp (conj Hg (fun _ => eq_refl)))) (fun _ => eq_refl) ltac:(cbn; unfold MAX_RECURSION_DEPTH; lia) (fun _ => eq_refl))
    as (ess & stk & q & Hrs & Hie & Hq & Hlp).
  { rewrite Eu in Hk' |- *. cbn [at_ rem length] in Hk' |- *. lia. }
  destruct (page_safe _ ess Hrs) as [b Hbs]. destruct (build_toc_ok (page_headings ps)) as (toc & Htoc & Hread).
  exists (st :: concat tss ++ [e]), (TREE (concat ess ++ [EFootnoteBlock None false]) toc [] [] [] [] (blen (source ps)) []), ess, toc. conj; auto.
  assert (Hgp : gather_paragraphs (consume E) "page" None p shared_new = ROk (PSu (concat ess) [] b) q (add_toc shared_new (page_headings ps))).
  { unfold gather_paragraphs. unfold PState.bind at 1. unfold set_rule, modify. change (with_rule "page" p) with p. unfold PState.bind at 1. unfold looping.
    change (loop (S (length (rem p))) _ (ps_new, [], true) p shared_new) with (loop (S (length (rem p))) (gather_body E 100) (ps_new, [], true) p shared_new).
    rewrite Hlo'. change (push_elements ps_new [] true) with (PS [] []). rewrite Hlp. unfold PState.bind, or_panic, into_result. rewrite Hie. cbn [into_elements end_paragraph build_paragraph ps_finished ps_current app]. rewrite Hbs. reflexivity. }
  split; auto. unfold parse. cbn [parser_new]. fold p. rewrite Hgp. cbn [su_item su_errors add_toc sh_toc shared_new app]. rewrite Htoc, Hq, He. reflexivity.
Qed.

(** *** C64: formatted text *)
(** Take any page made of paragraphs, headings, rules, nested lists (with bullets or numbers) and
    nested quotes, where the text is words, line breaks and emphasis marks (nested in any way, up to
    99 deep), written down in wikitext so that the words do not contain other syntax.  Parsing that
    text reports no errors, the HTML is exactly the page's words, escaped, inside the right tags, the
    table of contents has exactly the page's listed headings, and the plain text is exactly the page's
    words; there are no backlinks. *)
Theorem C64_formatted_text : forall E R n ps, good_page ps -> en_text E = source ps -> 1 <= n -> (re_true_ids R = false -> forall k, re_random R k <> []) ->
  exists toks t, parsed E toks t /\ tr_errors t = [] /\ tr_footnotes t = [] /\
    flat_map (toc_reading 0) (tr_toc t) = expected_toc 0 (page_headings ps) /\
    html_render R n t = Html (page_html (fun k => if re_true_ids R then lit "toc" ++ dec k else re_random R k) ps) [] [] /\
    forall site df, text_render site df (tr_elements t) = Some (page_text ps).
Proof.
  intros E R n ps Hg He Hn Hid. destruct (page_parse E ps Hg He) as (toks & t & ess & toc & Hp & Hr & Ht & ->).
  assert (Hgb : Forall good_block (map fst ps)) by (apply Forall_forall; intros b Hb; apply in_map_iff in Hb as ([b' k] & <- & Hb); destruct Hg as (_ & _ & Hg); exact (Hg _ _ Hb)).
  exists toks. eexists. conj; [exact Hp|reflexivity|reflexivity|exact Ht| |].
  - apply page_render with (ess := ess); auto.
  - intros site df. apply text_page; auto.
Qed.
Print Assumptions C64_formatted_text.
(** In particular, one line of words. *)
Theorem C64_one_line : forall E R n s, words s -> starts_line s -> ends_line s -> en_text E = s -> 1 <= n -> (re_true_ids R = false -> forall k, re_random R k <> []) ->
  exists toks t, parsed E toks t /\ tr_errors t = [] /\ html_render R n t = Html (page_html (fun _ => []) [(Paragraph [Words s], 0)]) [] [].
Proof.
  intros E R n s Hw Hs He Ht Hn Hid. destruct (C64_formatted_text E R n [(Paragraph [Words s], 0)]) as (toks & t & Hp & He' & _ & _ & Hh & _); auto.
  - split; [|split].
    + split; [discriminate|exact I].
    + split; auto.
    + intros b k [[= <- <-]|[]]. split; [exists (Words s), []; split; auto; discriminate|]. intros x [<-|[]]. split; [exact Hw|cbn; lia].
  - rewrite Ht. unfold source. cbn. rewrite app_nil_r. reflexivity.
  - exists toks, t. auto.
Qed.
Print Assumptions C64_one_line.

(** *** A page with all of it. *)
(** A checker for the conditions, to show that this page meets them. *)
Definition subst_quote (s : str) : str := map (fun c => if ceqb c 39 then 34%N else c) s.
Definition last_char (s : str) : char := last s 0%N.
Definition words_b (s : str) : bool := negb (seqb s []) && forallb (fun c => negb (cmem c [10; 13; 91]%N)) s && negb (has_pair s).
Lemma words_sound s : words_b s = true -> words s.
Proof.
  unfold words_b. intro H. apply andb_true_iff in H as [H H3]. apply andb_true_iff in H as [H1 H2]. split; [|split].
  - intros ->. discriminate.
  - intros c Hc Hi. rewrite forallb_forall in H2. specialize (H2 c Hc). apply cmem_In in Hi. rewrite Hi in H2. discriminate.
  - intros pre a b post -> Hi. apply negb_true_iff in H3. enough (X : has_pair (pre ++ a :: b :: post) = true) by congruence. unfold has_pair. apply existsb_exists. exists (a, b). split; [apply adj_in|].
    apply existsb_exists. exists [a; b]. split; auto. apply seqb_eq. reflexivity.
Qed.
Fixpoint starts_b (s : str) : bool :=
  match s with [] => true | c :: r => negb (cmem c (lit "*#:=>+")) && (if cmem c [32; 9]%N then starts_b r else true) end.
Lemma starts_sound s : starts_b s = true -> starts_line s.
Proof.
  intros H pre. revert s H. induction pre as [|x pre IH]; intros s H c post -> Hb; cbn [app starts_b] in H; apply andb_true_iff in H as [H1 H2].
  - intro Hi. apply cmem_In in Hi. rewrite Hi in H1. discriminate.
  - inversion Hb as [|? ? Hx Hb']; subst. apply cmem_In in Hx. rewrite Hx in H2. eapply IH; eauto.
Qed.
Definition unblank_b (s : str) : bool := match s with c :: _ => negb (cmem c [32; 9]%N) | [] => true end.
Lemma unblank_sound s : unblank_b s = true -> forall c r, s = c :: r -> ~ blank c.
Proof. intros H c r -> Hb. apply cmem_In in Hb. cbn [unblank_b] in H. rewrite Hb in H. discriminate. Qed.
Definition beside_b (a b : option item) : bool :=
  match a, b with
  | Some (IWords _), Some (IWords _) => false
  | (Some INewline | Some (IBreak _)), (Some INewline | Some (IBreak _)) => false
  | (None | Some (IBreak _)), Some (IHead _ _ | IRule _ | IBullet _ _ | IQuote _) => true
  | _, Some (IHead _ _ | IRule _ | IBullet _ _ | IQuote _) => false
  | (Some INewline | Some (IBreak _) | None), Some (IWords s) => starts_b s
  | Some (IWords s), (Some INewline | Some (IBreak _) | None) => negb (ceqb (last_char s) 95)
  | Some (IMark _ _), Some (IWords s) => negb (cmem (hd 0%N s) touchy)
  | Some (IWords s), Some (IMark _ _) => negb (cmem (last_char s) touchy) && negb (cmem 34%N s)
  | Some (IMark _ m), Some (IMark _ m') => negb match m, m' with StrikeTilde, StrikeTilde | StrikeDash, StrikeDash => true | _, _ => false end
  | Some (IHead _ _ | IBullet _ _ | IQuote _), Some (IWords s) => unblank_b s
  | Some (IHead _ _ | IBullet _ _ | IQuote _), Some (IMark _ _) => true
  | Some (IHead _ _ | IBullet _ _ | IQuote _), _ => false
  | Some (IRule _), (Some (IBreak _) | None) => true
  | Some (IRule _), _ => false
  | _, _ => true
  end.
Lemma ends_sound s : negb (ceqb (last_char s) 95) = true -> ends_line s.
Proof. intros H pre ->. unfold last_char in H. rewrite last_last in H. discriminate. Qed.
Lemma beside_sound a b : beside_b a b = true -> beside a b.
Proof.
  destruct a as [[s| |k|o m|? ?|?|? ?|?]|], b as [[s'| |k'|o' m'|? ?|?|? ?|?]|]; cbn [beside_b beside]; auto; try discriminate; try apply starts_sound; try apply ends_sound; try apply unblank_sound.
  - intro H. apply andb_true_iff in H as [H1 H2]. split.
    + intros c pre -> Hi. unfold last_char in H1. rewrite last_last in H1. apply cmem_In in Hi. rewrite Hi in H1. discriminate.
    + intro Hi. apply cmem_In in Hi. rewrite Hi in H2. discriminate.
  - intros H c post -> Hi. cbn [hd] in H. apply cmem_In in Hi. rewrite Hi in H. discriminate.
  - intros H [-> Hi]. destruct Hi as [<-|[<-|[]]]; discriminate.
Qed.
Fixpoint all_beside_b (a : option item) (l : list item) (z : option item) : bool :=
  match l with [] => beside_b a z | b :: l' => beside_b a (Some b) && all_beside_b (Some b) l' z end.
Lemma all_beside_sound l : forall a z, all_beside_b a l z = true -> all_beside a l z.
Proof.
  induction l as [|b l IH]; intros a z H; cbn [all_beside_b all_beside] in *; [apply beside_sound; auto|]. apply andb_true_iff in H as [H1 H2]. split; [apply beside_sound; auto|apply IH; auto].
Qed.
Definition mark_eq_dec : forall a b : mark, {a = b} + {a <> b}. Proof. decide equality. Defined.
Definition mark_eqb (a b : mark) : bool := if mark_eq_dec a b then true else false.
Definition fits_b (m : mark) (l : list span) : bool :=
  forallb (fun x => match x with Marked m' _ => negb (mark_eqb m m') | _ => true end) l &&
  match last l Newline with Words s => negb (cmem (last_char s) [32; 9]%N) | _ => true end.
Lemma fits_sound m l : fits_b m l = true -> fits (InMark m) l.
Proof.
  intro H. apply andb_true_iff in H as [H1 H2]. split.
  - intros l' Hi. rewrite forallb_forall in H1. specialize (H1 _ Hi). cbn in H1. unfold mark_eqb in H1. destruct (mark_eq_dec m m); [discriminate|congruence].
  - intros before s c -> Hb. rewrite last_last in H2. unfold last_char in H2. rewrite last_last in H2. apply cmem_In in Hb. rewrite Hb in H2. discriminate.
Qed.
Fixpoint nests_b (x : span) : bool :=
  match x with
  | Words s => words_b s
  | Newline => true
  | Marked m l => negb (match l with [] => true | _ => false end) && fits_b m l && forallb nests_b l
  end.
Lemma nests_sound x : nests_b x = true -> nests x.
Proof.
  assert (X : forall k x, length (items x) <= k -> nests_b x = true -> nests x).
  { induction k as [|k IH]; intros y Hl H; [destruct y; cbn in Hl; lia|]. destruct y as [s| |m l]; [apply words_sound; auto|exact I|].
    cbn [nests_b] in H. apply andb_true_iff in H as [H H3]. apply andb_true_iff in H as [H1 H2]. apply nests_marked. conj; [intros ->; discriminate|apply fits_sound; auto|].
    cbn [items length] in Hl. rewrite app_length in Hl. assert (Hl' : length (flat_map items l) <= k) by lia. clear -IH H3 Hl'.
    induction l as [|y l IHl]; [exact I|]. cbn [forallb flat_map] in H3, Hl'. apply andb_true_iff in H3 as [H3 H4]. rewrite app_length in Hl'. split; [apply IH; auto; lia|apply IHl; auto; lia]. }
  eauto.
Qed.
Definition spans_b (n : nat) (l : list span) : bool := forallb (fun x => nests_b x && (height x <? n)) l.
Lemma spans_sound n l : spans_b n l = true -> forall x, In x l -> nests x /\ height x < n.
Proof. intros H2 x Hx. unfold spans_b in H2. rewrite forallb_forall in H2. specialize (H2 x Hx). apply andb_true_iff in H2 as [H2 H3]. split; [apply nests_sound; auto|]. apply Nat.ltb_lt. auto. Qed.
Definition paragraph_b (p : list span) : bool := match p with [] | Newline :: _ => false | _ => true end && spans_b 100 p.
Lemma paragraph_sound p : paragraph_b p = true -> good_paragraph p.
Proof.
  intro H. apply andb_true_iff in H as [H1 H2]. split; [|apply spans_sound; auto].
  destruct p as [|[s| |m l] p]; try discriminate; eexists; eexists; (split; [reflexivity|discriminate]).
Qed.
Definition line_b (l : list span) : bool := match l with [] => false | _ => true end && forallb (fun x => match x with Newline => false | _ => true end) l && spans_b 99 l.
Lemma line_sound l : line_b l = true -> good_line l.
Proof.
  intro H. apply andb_true_iff in H as [H H3]. apply andb_true_iff in H as [H1 H2]. split; [intros ->; discriminate|]. split; [|apply spans_sound; auto].
  intro Hi. rewrite forallb_forall in H2. specialize (H2 _ Hi). discriminate.
Qed.
Section Kinds.
Context {K : Type} (keqb : K -> K -> bool) (keqb_refl : forall k, keqb k k = true).
Fixpoint different_b {X} (xs : list X) (kind : X -> option K) : bool :=
  match xs with
  | x :: ((y :: _) as xs') => match kind x, kind y with Some k, Some k' => negb (keqb k k') | _, _ => true end && different_b xs' kind
  | _ => true
  end.
Lemma different_sound {X} (xs : list X) kind (kind_p : X -> K -> Prop) : (forall x k, kind_p x k -> kind x = Some k) -> different_b xs kind = true -> different xs kind_p.
Proof.
  intros Hk. induction xs as [|x xs IH]; intros H before a b after k k' Hx Ha Hb ->; [destruct before; discriminate|].
  assert (H' : different_b xs kind = true) by (destruct xs as [|y xs]; [reflexivity|exact (proj2 (andb_prop _ _ H))]).
  destruct before as [|c before]; cbn [app] in Hx.
  - injection Hx as -> ->. cbn [different_b] in H. rewrite (Hk _ _ Ha), (Hk _ _ Hb), keqb_refl in H. discriminate.
  - injection Hx as -> Hx. exact (IH H' before a b after k' k' Hx Ha Hb eq_refl).
Qed.
Definition inner_of (x : nested K) : option K := match x with Line _ => None | Inner k _ => Some k end.
Fixpoint nested_b (x : nested K) : bool :=
  match x with
  | Line l => line_b l
  | Inner k xs => match xs with Line _ :: _ => true | _ => false end && different_b xs inner_of && forallb nested_b xs
  end.
Lemma nested_sound x : nested_b x = true -> well_nested x.
Proof.
  induction x as [l|k xs IH] using nested_all; cbn [nested_b well_nested]; intro H; [apply line_sound; auto|].
  apply andb_true_iff in H as [H H3]. apply andb_true_iff in H as [H1 H2]. split; [|split].
  - destruct xs as [|[l|]]; try discriminate. eauto.
  - apply different_sound with (kind := inner_of); auto. intros y k' [ys ->]. reflexivity.
  - clear H1 H2. induction IH as [|y xs Hy IH IH2]; [exact I|]. cbn [forallb] in H3. apply andb_true_iff in H3 as [H3 H4]. split; [exact (Hy H3)|exact (IH2 H4)].
Qed.
End Kinds.
Definition block_b (b : block) : bool :=
  match b with
  | Paragraph p => paragraph_b p
  | Heading n _ l => (1 <=? n) && (n <=? 6) && line_b l
  | Rule k => 3 <=? k
  | Lists ls => match ls with [] => false | _ => true end && different_b Bool.eqb ls (fun l => Some (fst l)) && forallb (fun l => nested_b Bool.eqb (Inner (fst l) (snd l))) ls &&
      forallb (fun x => fst (fst x) <=? 20) (list_lines ls)
  | Quote xs => nested_b (fun _ _ => true) (Inner tt xs) && forallb (fun x => fst (fst x) <=? 30) (flat_map (lines 1 tt) xs)
  end.
Lemma block_sound b : block_b b = true -> good_block b.
Proof.
  destruct b as [p|n b l|d|ls|xs]; cbn [block_b good_block]; intro H.
  - apply paragraph_sound; auto.
  - apply andb_true_iff in H as [H H3]. apply andb_true_iff in H as [H1 H2]. apply Nat.leb_le in H1, H2. split; [lia|apply line_sound; auto].
  - apply Nat.leb_le; auto.
  - apply andb_true_iff in H as [H H4]. apply andb_true_iff in H as [H H3]. apply andb_true_iff in H as [H1 H2]. split; [intros ->; discriminate|]. split; [|split].
    + apply different_sound with (keqb := Bool.eqb) (kind := fun l => Some (fst l)); auto; [apply Bool.eqb_reflx|]. intros x k ->. reflexivity.
    + intros l Hl. rewrite forallb_forall in H3. apply nested_sound with (keqb := Bool.eqb); [apply Bool.eqb_reflx|]. auto.
    + intros x Hx. rewrite forallb_forall in H4. apply Nat.leb_le. auto.
  - apply andb_true_iff in H as [H1 H2]. split; [apply nested_sound with (keqb := fun _ _ => true); auto|]. intros x Hx. rewrite forallb_forall in H2. apply Nat.leb_le. auto.
Qed.
Definition separate_b (b : block) (k : nat) (b' : block) : bool :=
  (1 <=? k) &&
  match b, b' with
  | Paragraph _, Paragraph _ => 2 <=? k
  | Lists _, Lists _ | Quote _, Quote _ => false
  | Lists _, Paragraph (Words s :: _) => unblank_b s
  | _, _ => true
  end.
Lemma separate_sound b k b' : separate_b b k b' = true -> separate b k b'.
Proof.
  intro H. apply andb_true_iff in H as [H1 H2]. apply Nat.leb_le in H1. split; auto.
  destruct b, b' as [[|[s| |] q]| | | |]; auto; try discriminate; try (apply Nat.leb_le; exact H2). apply unblank_sound; auto.
Qed.
Fixpoint spaced_b (ps : page) : bool :=
  match ps with
  | [] => true
  | (b, k) :: ps' =>
      match ps' with
      | [] => match b with Paragraph _ => negb (k =? 1) | _ => true end
      | (b', _) :: _ => separate_b b k b'
      end && spaced_b ps'
  end.
Lemma spaced_sound ps : spaced_b ps = true -> spaced ps.
Proof.
  induction ps as [|[b k] ps IH]; intro H; [exact I|]. cbn [spaced_b spaced] in *. apply andb_true_iff in H as [H1 H2]. split; auto.
  destruct ps as [|[b' k'] ps]; [|apply separate_sound; auto]. destruct b; auto. intros ->. discriminate.
Qed.
Definition page_b (ps : page) : bool := spaced_b ps && all_beside_b None (page_items ps) None && forallb (fun x => block_b (fst x)) ps.
Lemma page_sound ps : page_b ps = true -> good_page ps.
Proof.
  intro H. apply andb_true_iff in H as [H H3]. apply andb_true_iff in H as [H1 H2]. split; [apply spaced_sound; auto|]. split; [apply all_beside_sound; auto|].
  intros b k Hi. rewrite forallb_forall in H3. apply block_sound. exact (H3 _ Hi).
Qed.
Definition w (s : string) : list span := [Words (lit s)].
Definition sample_page : page :=
  [ (Heading 1 true [Words (lit "Title "); Marked Bold (w "b")], 1);
    (Paragraph [Words (lit "Some "); Marked Bold [Words (lit "bold"); Newline; Words (lit "and "); Marked Italics (w "both"); Marked Underline (w "x < y")]; Words (lit " text")], 1);
    (Lists [(false, [Line (w "one"); Inner false [Line (w "sub"); Inner false [Line (w "deep")]]; Inner true [Line (w "num")]; Line (w "two")]); (true, [Line [Marked Italics (w "three")]])], 1);
    (Heading 2 false (w "Not listed"), 1);
    (Heading 3 true (w "Listed"), 2);
    (Rule 4, 1);
    (Quote [Line (w "q1"); Line (w "q2"); Inner tt [Line (w "deep")]; Line (w "q3")], 3);
    (Paragraph [Marked StrikeDash [Marked Monospace (w "a_b = c*d"); Marked StrikeTilde (w "gone")]; Newline; Words (lit "2 + 2 = 4, (5 > 3) # ok")], 2);
    (Paragraph [Words (lit "E = mc"); Marked Superscript (w "2"); Words (lit " H"); Marked Subscript (w "2"); Words (lit "O")], 2) ].
Example C64_case : good_page sample_page /\
  source sample_page = lit "+ Title **b**
Some **bold
and //both//__x < y__** text
* one
 * sub
  * deep
 # num
* two
# //three//
++* Not listed
+++ Listed

----
> q1
> q2
>> deep
> q3


--{{a_b = c*d}}~~gone~~--
2 + 2 = 4, (5 > 3) # ok

E = mc^^2^^ H,,2,,O

" /\
  page_html (fun k => lit "toc" ++ dec k) sample_page = subst_quote (lit "<wj-body class='wj-body'><h1 id='toc0'>Title <strong>b</strong></h1><p>Some <strong>bold<br>and <em>both</em><u>x &lt; y</u></strong> text</p><ul><li>one</li><ul><li>sub</li><ul><li>deep</li></ul></ul><ol><li>num</li></ol><li>two</li></ul><ol><li><em>three</em></li></ol><h2>Not listed</h2><h3 id='toc1'>Listed</h3><hr><blockquote><p>q1<br>q2</p><blockquote><p>deep</p></blockquote><p>q3</p></blockquote><p><s><code class='wj-monospace'>a_b = c*d</code><s>gone</s></s><br>2 + 2 = 4, (5 &gt; 3) # ok</p><p>E = mc<sup>2</sup> H<sub>2</sub>O</p></wj-body>") /\
  page_text sample_page = lit "Title b

Some bold
and bothx < y text
one
sub
deep
num
two
three

Not listed

Listed


q1
q2


deep


q3


a_b = c*dgone
2 + 2 = 4, (5 > 3) # ok

E = mc2 H2O" /\
  page_headings sample_page = [(0, lit "Title b"); (2, lit "Listed")].
Proof. conj; [apply page_sound; vm_compute; reflexivity|vm_compute; reflexivity..]. Qed.
