(** PropParse.v -- theorems about parsing whole pages: C35-C39. *)
From Verif Require Import Base BaseLemmas Strings Links Attr AttrLemmas Preproc Includes Lexer SpecLexer LexerLemmas
  Depth Tree TreeLemmas SpecTree Text Toc PState Blocks Rules Parse SpecParse SpecPage ParseInv PStateLemmas ParseLemmas ParseTestEnv.

(** A concrete page used in the examples and counterexamples: the environment of the repository's
    AST tests (debug build, page syntax on). *)
Definition page_of (x : str) : option tree :=
  match extract_all x with Some toks => match parse (test_env x) toks with Parsed t => Some t | _ => None end | None => None end.
Definition panic_of (x : str) : option panic_site :=
  match extract_all x with Some toks => match parse (test_env x) toks with ParsePanic w => Some w | _ => None end | None => None end.
Lemma page_check x (P : tree -> Prop) : match page_of x with Some t => P t | None => False end ->
  exists toks t, parsed (test_env x) toks t /\ P t.
Proof.
  unfold page_of, parsed. cbn [en_text test_env]. destruct (extract_all x) as [toks|]; [|contradiction]. destruct (parse (test_env x) toks) as [t| |] eqn:Ep; try contradiction.
  intro H. exists toks, t. auto.
Qed.
Lemma panic_check x w : panic_of x = Some w -> exists toks, extract_all x = Some toks /\ parse (test_env x) toks = ParsePanic w.
Proof.
  unfold panic_of. destruct (extract_all x) as [toks|]; [|discriminate]. destruct (parse (test_env x) toks) as [|w'|] eqn:Ep; try discriminate.
  intros [= <-]. eauto.
Qed.
Ltac page x := try exists (test_env x); apply (page_check x); vm_compute; conj; auto.

(** *** C35 *)
(** Every page parses or panics (see C48): the recursion never runs out. *)
Theorem C35_parse_terminates : forall E toks, extract_all (en_text E) = Some toks ->
  (exists t, parse E toks = Parsed t) \/ (exists w, parse E toks = ParsePanic w).
Proof.
  intros E toks Ht. pose proof (parse_ok E toks Ht) as H. destruct (parse E toks); eauto. contradiction.
Qed.
Print Assumptions C35_parse_terminates.

(** A parser standing anywhere in the tokens of its text, at any nesting depth, in any mode that
    the text can lead to. *)
Lemma stands_inv E toks p s : extract_all (en_text E) = Some toks -> flag_true toks p -> shared_ok E toks s ->
  (accepts_partial p <> APNone -> has_block toks) -> inv E toks (depth p) (CX (accepts_partial p) (in_footnote p)) p s.
Proof.
  intros Ht (before & H1 & H2) Hs Hb. split; auto. exists before. split; auto. intros Hr. specialize (H2 Hr).
  unfold at_start. destruct (rev before) as [|t r] eqn:Er.
  - apply H2. intros a t ->. rewrite rev_unit in Er. discriminate.
  - assert (Hbf : before = rev r ++ [t]) by (rewrite <- (rev_involutive before), Er; auto).
    destruct (start_of_line p) eqn:Es, (line_start_token (t_token t)) eqn:El; auto.
    + destruct (proj1 H2 eq_refl (rev r) t Hbf) as [X|[X|X]]; rewrite X in El; discriminate.
    + assert (X : at_line_start before); [|apply H2 in X; discriminate].
      intros a t' ->. apply app_inj_tail in Hbf as [_ ->]. destruct (t_token t); try discriminate; auto.
Qed.
Lemma inv_flag E toks d c p s : inv E toks d c p s -> flag_true toks p.
Proof.
  intros [(pre & H1 & H2)]. exists pre. split; auto. intros Hr. rewrite (H2 Hr). unfold at_start. destruct (rev pre) as [|t r] eqn:Er.
  - split; auto. intros _ a t ->. rewrite rev_unit in Er. discriminate.
  - assert (Hbf : pre = rev r ++ [t]) by (rewrite <- (rev_involutive pre), Er; auto). split.
    + intros Hl a t' ->. apply app_inj_tail in Hbf as [_ ->]. destruct (t_token t); try discriminate; auto.
    + intros Hl. destruct (Hl (rev r) t Hbf) as [-> | [-> | ->]]; auto.
Qed.
Lemma consume_at E toks p s : extract_all (en_text E) = Some toks -> flag_true toks p -> shared_ok E toks s ->
  (accepts_partial p <> APNone -> has_block toks) ->
  G E toks 0 (CX (accepts_partial p) (in_footnote p)) (consume E) p s
    (fun out p' s' => succ E toks (CX (accepts_partial p) (in_footnote p)) s p' s' out /\ length (rem p') < length (rem p)).
Proof.
  intros Ht Hf Hs Hb. apply G_consume; auto. eapply inv_mono; [|apply stands_inv; auto]. lia.
Qed.
(** One step of the parse that succeeds has moved forward in the token list. *)
Theorem C35_consume_progress : forall E toks p s out p' s', extract_all (en_text E) = Some toks ->
  flag_true toks p -> shared_ok E toks s -> (accepts_partial p <> APNone -> has_block toks) ->
  consume E p s = ROk out p' s' -> exists passed, passed <> [] /\ rem p = passed ++ rem p'.
Proof.
  intros E toks p s out p' s' Ht Hf Hs Hb Hc. pose proof (consume_at E toks p s Ht Hf Hs Hb) as H. unfold G in H. rewrite Hc in H.
  destruct H as (I & _ & _ & Hl). destruct Hf as (b1 & F1 & _). destruct I as [(b2 & F2 & _)].
  rewrite F1 in F2. clear - F2 Hl.
  assert (X : forall c1 c2 x l y l', c1 ++ x :: l = c2 ++ y :: l' -> length l' < length l -> exists m : list xtoken, l = m ++ y :: l').
  { induction c1 as [|a c1 IH]; intros [|a' c2] x l y l' H L; cbn in H; injection H as H0 H.
    - subst. lia.
    - eauto.
    - exfalso. apply (f_equal (@length _)) in H. rewrite app_length in H. cbn in H. lia.
    - eapply IH; eauto. }
  destruct (X _ _ _ _ _ _ F2 Hl) as [m Hm]. exists (m ++ [cur p']). split; [destruct m; discriminate|]. rewrite <- app_assoc. auto.
Qed.
Print Assumptions C35_consume_progress.
(** The start of every parse is such a state. *)
Theorem C35_start : forall E toks p, extract_all (en_text E) = Some toks -> parser_new toks = Some p ->
  flag_true toks p /\ shared_ok E toks shared_new /\ accepts_partial p = APNone.
Proof.
  intros E toks p Ht Hp. pose proof (inv_new E toks Ht p Hp) as Hi. split; [eapply inv_flag; eauto|]. split; [apply shared_new_ok|]. apply Hi.
Qed.
Print Assumptions C35_start.
Example C35_case :
  match extract_all (lit "**a** b") with Some toks =>
    match parser_new toks with Some p =>
      match consume (test_env (lit "**a** b")) p shared_new with ROk _ p' _ => length (rem p) = 6 /\ length (rem p') = 5 | _ => False end
    | None => False end | None => False end.
Proof. vm_compute. auto. Qed.

(** *** C36 *)
(** What a failing rule leaves alone: position, flags, depth, current rule. What it can change: it
    can add to the tables of footnotes, code, html, headings and bibliographies, and never alters
    or removes what is there. *)
Theorem C36_failed_rule_partial : forall E toks p s r e p' s', extract_all (en_text E) = Some toks ->
  flag_true toks p -> shared_ok E toks s -> (accepts_partial p <> APNone -> has_block toks) ->
  In r (rules_for E (consume E) (cur_tok p)) -> try_consume r p s = RErr e p' s' ->
  p' = p /\ (exists h, sh_toc s' = sh_toc s ++ h) /\ (exists h, sh_html s' = sh_html s ++ h) /\
  (exists h, sh_code s' = sh_code s ++ h) /\ (exists h, sh_footnotes s' = sh_footnotes s ++ h) /\
  (exists h, sh_bibs s' = sh_bibs s ++ h).
Proof.
  intros E toks p s r e p' s' Ht Hf Hs Hb Hin Hr.
  assert (Hi : inv E toks 0 (CX (accepts_partial p) (in_footnote p)) p s) by (eapply inv_mono; [|apply stands_inv; auto]; lia).
  pose proof (G_try_consume E toks Ht 0 _ r p s Hi) as H. rewrite Hr in H.
  destruct H as (H1 & _ & (_ & H2 & _) & _); [|split; auto].
  intros Hl. apply (RulesLemmas.rules_ok E toks Ht 0 (consume E) (G_consume E toks Ht) _ (cur_tok p)); [|reflexivity|exact Hin|exact Hl].
  destruct Hi; split; assumption.
Qed.
Print Assumptions C36_failed_rule_partial.
(** The full claim is false: the bold rule that fails here has already recorded the footnote, which
    is then recorded again, so the page has one footnote mark and two footnotes. *)
Theorem C36_failed_rule_refuted : exists E toks t, parsed E toks t /\
  footnote_refs (tr_elements t) = 1 /\ length (tr_footnotes t) = 2.
Proof. page (lit "**x[[footnote]]note[[/footnote]]"). Qed.
Print Assumptions C36_failed_rule_refuted.
(** Each unclosed opener doubles the work and the table: six openers, sixty-four footnotes. *)
Example C36_footnotes_double : exists toks t, parsed (test_env (lit "**--//__^^,,[[footnote]]a[[/footnote]]")) toks t /\
  footnote_refs (tr_elements t) = 1 /\ length (tr_footnotes t) = 64.
Proof. page (lit "**--//__^^,,[[footnote]]a[[/footnote]]"). Qed.
(** In the same way a named code block is refused because of its own failed first reading ... *)
Example C36_code_refused : exists toks t, parsed (test_env (lit "**
[[code name=""a""]]
x
[[/code]]")) toks t /\
  length (tr_code t) = 1 /\ (exists e, In e (tr_errors t) /\ pe_kind e = CodeNonUniqueName).
Proof.
  page (lit "**
[[code name=""a""]]
x
[[/code]]"). eauto 30.
Qed.
(** ... and a heading is listed twice in the table of contents. *)
Example C36_toc_twice : exists toks t, parsed (test_env (lit "[[div]]
+ a")) toks t /\
  length (flat_map (toc_reading 0) (tr_toc t)) = 2.
Proof.
  page (lit "[[div]]
+ a").
Qed.

(** *** C37 *)
Theorem C37_errors_genuine : forall E toks t, parsed E toks t -> Forall (genuine toks) (tr_errors t).
Proof.
  intros E toks t [Ht Hp]. pose proof (parse_ok E toks Ht) as H. rewrite Hp in H.
  destruct H as [H|(e & _ & _ & _ & _ & _ & -> & H & _)]; [apply H|auto].
Qed.
Print Assumptions C37_errors_genuine.
Example C37_case : exists toks t, parsed (test_env (lit "a ]] b")) toks t /\
  map (fun e => (pe_kind e, pe_token e, pe_start e, pe_end e)) (tr_errors t) = [(NoRulesMatch, TRightBlock, 2, 4)].
Proof. page (lit "a ]] b"). Qed.

(** *** C38 *)
(** At nesting depth 100 nothing more is parsed, whatever the token. *)
Theorem C38_depth_limit : forall E p s, 100 <= depth p ->
  exists p', consume E p s = RErr (make_err RecursionDepthExceeded p) p' s.
Proof.
  intros E p s H. eexists. unfold consume. change MAX_RECURSION_DEPTH with (S 99). cbn [consume_n]. unfold consume_with.
  apply deep_fails. exact H.
Qed.
Print Assumptions C38_depth_limit.
(** A page is given up, and replaced by its own raw text, only for that reason; then nothing is
    returned but that error (and the tables of html and code blocks).  Otherwise the page is what
    was gathered, with its errors. *)
Theorem C38_page_given_up : forall E toks t p, parsed E toks t -> parser_new toks = Some p ->
  match gather_paragraphs (consume E) "page" None p shared_new with
  | ROk out p' s' => tr_elements t = su_item out ++ (if has_footnote_block p' then [] else [EFootnoteBlock None false]) /\
      tr_errors t = su_errors out /\ tr_footnotes t = sh_footnotes s' /\ tr_bibs t = sh_bibs s' /\
      build_toc (sh_toc s') = Some (tr_toc t)
  | RErr e _ _ => pe_kind e = RecursionDepthExceeded /\ tr_errors t = [e] /\ genuine toks e /\
      tr_elements t = [EText (en_text E)] /\ tr_footnotes t = [] /\ tr_bibs t = [] /\ tr_toc t = []
  | _ => False
  end.
Proof.
  intros E toks t p [Ht Hp] Hn. unfold parse in Hp. rewrite Hn in Hp. pose proof (inv_new E toks Ht p Hn) as Hi.
  destruct (gather_paragraphs (consume E) "page" None p shared_new) as [out q s|e q s|w|] eqn:Eg; try discriminate.
  - destruct (build_toc (sh_toc s)) as [toc|] eqn:Et; [|discriminate]. injection Hp as <-. cbn. auto.
  - pose proof (parse_ok E toks Ht) as H. unfold parse in H. rewrite Hn, Eg in H. injection Hp as <-. cbn. conj; auto.
    + eapply top_error; eauto.
    + destruct H as [[_ _ _ H]|(e' & _ & _ & _ & _ & _ & H & H' & _)]; cbn in H; [inversion H; auto|]. injection H as ->. auto.
Qed.
Print Assumptions C38_page_given_up.
(** 100 nested openers are too many (the page's own level is the first), 40 are not. *)
Definition nested (n : nat) : str := concat (repeat (lit "[[span]]") n) ++ lit "x" ++ concat (repeat (lit "[[/span]]") n).
Example C38_case_deep : exists toks t, parsed (test_env (nested 100)) toks t /\
  match tr_elements t with [EText _] => True | _ => False end /\ map pe_kind (tr_errors t) = [RecursionDepthExceeded].
Proof. page (nested 100). Qed.
Example C38_case_shallow : exists toks t, parsed (test_env (nested 40)) toks t /\ tr_errors t = [].
Proof. page (nested 40). Qed.

(** *** C39 *)
(** In the page every unfinished element (list item, table row or cell, tab, ruby text) is inside a
    block of the kind it belongs to, so in particular none is at the top; and there are none in
    pages without blocks.  Missing: that it is directly inside that block, and the same for the
    lists of footnotes and bibliography entries (both refuted below). *)
Theorem C39_partials_enclosed_partial : forall E toks t anc x, parsed E toks t ->
  at_path (tr_elements t) anc (EPartial x) ->
  (exists a, In a anc /\ In (pkind x) (opens a)) /\ (has_token toks TLeftBlock \/ has_token toks TLeftBlockStar).
Proof.
  intros E toks t anc x [Ht Hp] Ha. pose proof (page_elements E toks Ht t Hp) as H.
  destruct (okE_path E toks _ _ _ anc _ _ _ H Ha) as [_ Hx]. destruct (Hx x eq_refl) as [[Hy|Hy] Hb].
  - exfalso. destruct Hy as [Hy|[]]. destruct x; discriminate.
  - split; auto.
Qed.
Print Assumptions C39_partials_enclosed_partial.
(** A list item in a list item stays in the tree as an unfinished element ... *)
Theorem C39_partial_left_refuted : exists E toks t anc x, parsed E toks t /\ at_path (tr_elements t) anc (EPartial x).
Proof.
  enough (X : exists toks t, parsed (test_env (lit "[[ul]][[li]][[li]]x[[/li]][[/li]][[/ul]]")) toks t /\
    exists a, tr_elements t = [EList LBullet [] [LIElements [] [EPartial (PListItem (LIElements [] a))]]; EFootnoteBlock None false]).
  { destruct X as (toks & t & Hp & a & Ht). exists (test_env (lit "[[ul]][[li]][[li]]x[[/li]][[/li]][[/ul]]")), toks, t, [EList LBullet [] [LIElements [] [EPartial (PListItem (LIElements [] a))]]], (PListItem (LIElements [] a)).
    split; [exact Hp|]. rewrite Ht. cbn. auto. }
  page (lit "[[ul]][[li]][[li]]x[[/li]][[/li]][[/ul]]"). eauto.
Qed.
Print Assumptions C39_partial_left_refuted.
(** ... and in a footnote an unfinished element need not be inside a block of its kind at all. *)
Theorem C39_footnote_refuted : exists E toks t es anc x, parsed E toks t /\ In es (tr_footnotes t) /\
  at_path es anc (EPartial x) /\ forall a, In a anc -> ~ In (pkind x) (opens a).
Proof.
  enough (X : exists toks t, parsed (test_env (lit "[[ul]][[li]]a[[footnote]]**[[li]]x[[/li]]**[[/footnote]][[/li]][[/ul]]")) toks t /\
    exists a, tr_footnotes t = [[EContainer CBold [] [EPartial (PListItem (LIElements [] a))]]]).
  { destruct X as (toks & t & Hp & a & Ht).
    exists (test_env (lit "[[ul]][[li]]a[[footnote]]**[[li]]x[[/li]]**[[/footnote]][[/li]][[/ul]]")), toks, t,
      [EContainer CBold [] [EPartial (PListItem (LIElements [] a))]], [EContainer CBold [] [EPartial (PListItem (LIElements [] a))]], (PListItem (LIElements [] a)).
    split; [exact Hp|]. rewrite Ht. cbn. split; auto. split; auto. intros y [<-|[]] Hy. destruct Hy. }
  page (lit "[[ul]][[li]]a[[footnote]]**[[li]]x[[/li]]**[[/footnote]][[/li]][[/ul]]"). eauto.
Qed.
Print Assumptions C39_footnote_refuted.
