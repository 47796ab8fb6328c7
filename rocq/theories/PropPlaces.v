(** PropPlaces.v -- C82: jumps and the places they lead to. *)
From Verif Require Import Base BaseLemmas Strings StringsLemmas SpecStrings Lexer Peg PegLemmas LexerLemmas Links Attr Html SpecHtml HtmlLemmas Tree Text PState Blocks Parse Rules SpecPage ParseInv Render RenderLemmas ProseLemmas VerbatimLex WritingLex WritingParse WritingRender BlocksLex BlocksParse BlocksRun BlocksVerbatim BlocksLinks BlocksGroup WritingBlocks BlocksRender BlocksText ParseTestEnv RenderTestEnv RenderDom PropParse PropRender PropBlocks.
From Verif Require Import SpecBlocks.

(** *** C82: a jump leads to the place it names *)
(** A paragraph with places: what stands before the first, and then each place, [[# name]], on the same line or
    a new one, or a block [[target name]] or [[anchortarget name]], which may end its line, with what stands
    after it, up to the next. *)
Inductive opening := Mark | Target (ends_line : bool) | AnchorTarget (ends_line : bool).
Definition opening_word (o : opening) : str := match o with Mark => html "#" | Target _ => html "target" | AnchorTarget _ => html "anchortarget" end.
Definition line_ended (o : opening) : bool := match o with Mark => false | Target e | AnchorTarget e => e end.
Definition place_source (o : opening) (name : str) : str := html "[[" ++ opening_word o ++ html " " ++ name ++ html "]]" ++ if line_ended o then [10%N] else [].
Record section := At { new_line : bool; opened : opening; place_name : str; after : list inline }.
Definition line_source (s : section) : str := if new_line s then [10%N] else [].
Definition section_source (s : section) : str := line_source s ++ place_source (opened s) (place_name s) ++ flat_map inline_source (after s).
Definition places_source (l0 : list inline) (ss : list section) : str := flat_map inline_source l0 ++ flat_map section_source ss.
(** The blocks take the line break before them and the one after them, which are then not shown; no other stands
    right after them. *)
Definition no_breaks (s : section) (rest : list section) : Prop := opened s <> Mark ->
  (forall l, after s <> Break :: l) /\ (after s = [] -> forall t r, rest = t :: r -> new_line t = false).
Definition clear_of_breaks (ss : list section) : Prop := forall front s rest, ss = front ++ s :: rest -> no_breaks s rest.
(** Inline markup that can stand beside itself and ends with no line break. *)
Definition good_line (entities : str -> option str) (l : list inline) : Prop :=
  ((forall front x y rest, l = front ++ x :: y :: rest -> beside x y) /\ forall r, l <> r ++ [Break]) /\ forall x, In x l -> good_inline entities x /\ inline_height x < 99.
(** The id of a place is its name, which, if ids are isolated, gets the prefix unless it has it. *)
Definition place_id (isolate : bool) (name : str) : str := if isolate && negb (starts_with (lit "u-") name) then lit "u-" ++ name else name.
Definition good_name (isolate : bool) (name : str) : Prop := word name /\ (isolate = true -> forall c, In c name -> is_ws c = false).
Definition place_html (name : str) : str := html "<a id='" ++ escape name ++ html "'></a>".
Definition line_html (s : section) : str := match opened s with Mark => if new_line s then html "<br>" else [] | _ => [] end.
Definition mark_pieces (name : str) : list piece := (TLeftBlockAnchor, lit "[[#") :: blank_piece :: pieces name ++ [right_piece].
Definition anchor_pieces (o : opening) (name : str) : list piece := match o with Mark => mark_pieces name | _ => head_pieces false (opening_word o) (blank_piece :: pieces name) ++ if line_ended o then [line_piece] else [] end.
Ltac notin := cbn; intuition discriminate.
Lemma lex_block_anchor rest : lex1 TLeftBlockAnchor (lit "[[#") rest.
Proof. eapply (lex1_run R_left_block_anchor); [reflexivity|discriminate|]. intro pos. eapply (token_nth 15); [reflexivity| |reflexivity]. skip_alts. Qed.
Lemma anchor_flat o name : flat (anchor_pieces o name) = place_source o name.
Proof.
  destruct o as [|[]|[]]; cbn [anchor_pieces line_ended]; [|rewrite flat_app, head_flat, flat_blank, flat_pieces, <- !app_assoc; reflexivity..].
  unfold mark_pieces. change ((TLeftBlockAnchor, lit "[[#") :: blank_piece :: pieces name ++ [right_piece]) with ([(TLeftBlockAnchor, lit "[[#"); blank_piece] ++ pieces name ++ [right_piece]). rewrite !flat_app, flat_pieces. reflexivity.
Qed.
Lemma block_word o : o <> Mark -> letters (opening_word o).
Proof. intro Ho. split; [destruct o; [congruence|discriminate..]|]. apply forallb_forall. destruct o; [congruence|reflexivity..]. Qed.
Lemma isolated_place name : word name -> (forall c, In c name -> is_ws c = false) -> isolate_ids name = place_id true name.
Proof.
  intros [[[Hn _] _] _] Hw. rewrite (isolate_words name [name]).
  - cbn [map join]. unfold iso, place_id. destruct (starts_with (lit "u-") name); reflexivity.
  - apply (words_join [name]). constructor; [split; [exact Hn|apply Forall_forall; exact Hw]|constructor].
Qed.
Section Places.
Variable E : env.
Lemma mark_consume n name p sol rest s : good_name (en_isolate E) name -> depth p < MAX_RECURSION_DEPTH -> ends E (mark_pieces name ++ rest) ->
  consume_n E (S n) (on E p sol (mark_pieces name ++ rest)) s = ROk (PSu [EAnchorName (place_id (en_isolate E) name)] [] true) (on E p false rest) s.
Proof.
  intros [Hn Hi] Hd He. unfold mark_pieces in *. cbn [app] in *. rewrite <- app_assoc in *. cbn [app] in *.
  assert (Hf : forall q0 sl, rule_anchor E (on E q0 sl ((TLeftBlockAnchor, lit "[[#") :: blank_piece :: pieces name ++ right_piece :: rest)) s = ROk (PSu [EAnchorName (place_id (en_isolate E) name)] [] true) (on E q0 false rest) s).
  { intros q0 sl. unfold rule_anchor. rewrite check_yes. apply ends_cons, ends_cons in He. unfold blank_piece. erewrite bind_ok; [|apply get_yes].
    unfold right_piece in *. erewrite bind_ok; [|apply (read_text E [TRightBlock] [TWhitespace; TParagraphBreak; TLineBreak] (pieces name) TRightBlock (lit "]]")); [cbn; tauto|discriminate|apply word_solid; [exact Hn|notin|notin]|exact He]].
    rewrite flat_pieces. destruct (en_isolate E); [rewrite isolated_place by auto|]; reflexivity. }
  apply BlocksRun.rule_consume with (name := "anchor"%string) (f := rule_anchor E) (more := []) (r := "anchor"%string); auto.
  cbn [length]. repeat (rewrite app_length; cbn [length]). lia.
Qed.
Lemma target_word name : word name -> name <> [] /\ cmem 32 name = false /\ trim name = name.
Proof.
  intros [Hv Hw]. split; [apply Hv|]. split; [|apply value_trim; exact Hv]. destruct (cmem 32 name) eqn:X; [|reflexivity]. apply cmem_In in X. destruct (Hw _ X). left. reflexivity.
Qed.
Lemma target_consume n o name p sol rest s : o <> Mark -> BlocksParse.first rest <> TLineBreak -> good_name (en_isolate E) name -> depth p < MAX_RECURSION_DEPTH -> ends E (anchor_pieces o name ++ rest) ->
  consume_n E (S n) (on E p sol (anchor_pieces o name ++ rest)) s = ROk (PSu [EAnchorName (place_id (en_isolate E) name)] [] true) (on E p (line_ended o) rest) s.
Proof.
  intros Ho Hr [Hn Hi] Hd He. destruct (target_word name Hn) as (Hne & Hsp & Htr). destruct (value_pieces name (proj1 Hn)) as [Hv1 Hv2].
  set (rest1 := if line_ended o then line_piece :: rest else rest).
  assert (Ha : anchor_pieces o name ++ rest = head_pieces false (opening_word o) (blank_piece :: pieces name) ++ rest1) by (unfold rest1; destruct o as [|[]|[]]; [congruence|..]; cbn [anchor_pieces line_ended]; rewrite <- app_assoc; reflexivity). rewrite Ha in *. clear Ha.
  assert (Hg : BlocksParse.good_name (opening_word o)) by (left; apply block_word; exact Ho).
  assert (Hru : get_block_rule E (consume_n E n) (opening_word o) = Some (BR "block-target"%string (map lit ["target"; "anchortarget"]%string) false false true, blk_target E)) by (destruct o; [congruence|reflexivity..]).
  assert (Has : existsb (eq_nocase (opening_word o)) (map lit ["target"; "anchortarget"]%string) = true) by (destruct o; [congruence|reflexivity..]).
  assert (Hev : ends E (pieces name ++ right_piece :: rest1)).
  { clear - He. unfold head_pieces in He. cbn [app] in He. rewrite <- !app_assoc in He. cbn [app] in He. rewrite <- !app_assoc in He. apply ends_cons, ends_app, ends_cons in He. exact He. }
  assert (Hvr : forall q sl (sh : shared), get_head_value E (BR "block-target"%string (map lit ["target"; "anchortarget"]%string) false false true) true (required trim) (on E q sl (pieces name ++ right_piece :: rest1)) sh = ROk name (on E q (line_ended o) rest) sh).
  { intros q sl sh. unfold get_head_value.
    destruct (collect_to E (map IsToken [TRightBlock]) (map IsToken [TParagraphBreak; TLineBreak]) (Some BlockMalformedArguments) q sl sh (pieces name) TRightBlock (lit "]]") rest1) as (t & _ & Hr1); auto.
    - discriminate.
    - eapply Forall_impl; [|apply pieces_value; exact (proj1 Hn)]. intros [k z] Hk. unfold value_piece in Hk. cbn [fst] in Hk |- *. conj; [apply passes_tokens|apply passes_tokens|]; cbn [fst]; cbn in Hk |- *; intuition congruence.
    - rewrite bind_assoc. unfold collect_text. rewrite bind_assoc. rewrite (bind_ok _ _ _ _ _ _ _ Hr1). unfold PState.ret at 1. unfold PState.bind at 1. cbn [fst]. unfold PState.bind at 1. unfold PState.ret at 1. rewrite flat_pieces. cbn [required]. rewrite Htr.
      unfold PState.bind at 1. unfold PState.ret at 1. unfold rest1. destruct (line_ended o).
      + erewrite bind_ok; [|apply head_line_out; reflexivity]. reflexivity.
      + erewrite bind_ok; [|apply head_block_out; auto]. reflexivity. }
  assert (Hle : length rest <= length rest1) by (unfold rest1; destruct (line_ended o); cbn [length]; lia).
  assert (Hx : consume_n E (S n) (on E p sol (head_pieces false (opening_word o) (blank_piece :: pieces name) ++ rest1)) s = ROk (PSu [EAnchorName (place_id (en_isolate E) name)] [] true) (on E p (line_ended o) rest) s).
  { apply head_consume with (r := "block-target"%string); auto.
  rewrite (value_head E (consume_n E n) false _ sol (opening_word o) (pieces name) _ s _ _ Hg Hv1 Hv2 He Hru eq_refl). cbn [br_name].
  unfold blk_target. erewrite bind_ok; [|apply assert_ok; exact Has]. erewrite bind_ok; [|apply Hvr].
  rewrite Hsp. destruct name as [|c name]; [congruence|]. set (m := c :: name) in *. destruct (en_isolate E); [rewrite isolated_place by auto|]; reflexivity. }
  exact Hx.
Qed.
Lemma anchor_consume n o name p sol rest s : (o <> Mark -> BlocksParse.first rest <> TLineBreak) -> good_name (en_isolate E) name -> depth p < MAX_RECURSION_DEPTH -> ends E (anchor_pieces o name ++ rest) ->
  consume_n E (S n) (on E p sol (anchor_pieces o name ++ rest)) s = ROk (PSu [EAnchorName (place_id (en_isolate E) name)] [] true) (on E p (line_ended o) rest) s.
Proof. intros Hr. destruct o; [apply mark_consume|apply target_consume; [discriminate|apply Hr; discriminate]..]. Qed.
Lemma push_after e es cu f : push_elements (PS (e :: cu) f) es true = PS (e :: cu ++ es) f.
Proof. revert cu. induction es as [|x es IH]; intro cu; [rewrite app_nil_r; reflexivity|]. cbn [push_elements ps_current push_element ps_finished app]. rewrite IH, <- app_assoc. reflexivity. Qed.
Definition line_pieces (s : section) : list piece := if new_line s then [line_piece] else [].
Definition section_pieces (s : section) : list piece := line_pieces s ++ anchor_pieces (opened s) (place_name s) ++ flat_map inline_pieces (after s).
Definition line_els (s : section) : elements := match opened s with Mark => if new_line s then [ELineBreak] else [] | _ => [] end.
Definition section_els (s : section) : elements := line_els s ++ EAnchorName (place_id (en_isolate E) (place_name s)) :: flat_map (els E) (after s).
Definition good_section (s : section) : Prop := good_name (en_isolate E) (place_name s) /\ good_line (en_entity E) (after s).
Lemma line_inside l : good_line (en_entity E) l -> (tidy l /\ Forall (good_inline (en_entity E)) l) /\ Forall (fun x => inline_height x < 100) l.
Proof. intros [Ha H]. split; [split; [exact Ha|]|]; apply Forall_forall; intros x Hx; destruct (H x Hx); [assumption|lia]. Qed.
Lemma sections_flat ss : flat (flat_map section_pieces ss) = flat_map section_source ss.
Proof. induction ss as [|s ss IH]; [reflexivity|]. cbn [flat_map]. rewrite flat_app, IH. unfold section_pieces, section_source, line_pieces, line_source. rewrite !flat_app, anchor_flat, inlines_flat. destruct (new_line s); reflexivity. Qed.
Lemma sections_stop ss : stop_at (flat_map section_source ss).
Proof. destruct ss as [|s ss]; [exact I|]. cbn [flat_map]. unfold section_source, line_source. destruct (new_line s); [right|]; left; reflexivity. Qed.
Lemma anchor_lx o name rest : word name -> head_not (ceqb 93) rest -> (line_ended o = true -> no_nl rest) -> lx (anchor_pieces o name) rest.
Proof.
  intros Hn Hr Hnl. assert (Hv : forall r, lx (blank_piece :: pieces name) (lit "]]" ++ r)) by (intro r; apply value_lx; [apply Hn|apply halts_char; tauto]).
  assert (Hm : lx (mark_pieces name) rest).
  { change (mark_pieces name) with ([(TLeftBlockAnchor, lit "[[#")] ++ (blank_piece :: pieces name) ++ [right_piece]). rewrite lx_app. split; [split; [apply lex_block_anchor|exact I]|].
    rewrite lx_app. split; [apply Hv|]. apply right_lx. exact Hr. }
  destruct o as [|[]|[]]; [exact Hm|..]; cbn [anchor_pieces line_ended] in *; rewrite lx_app; (split; [apply head_lx; [left; apply block_word; discriminate|apply Hv|right; eexists; reflexivity|first [exact Hr|reflexivity]]|]); first [exact I|split; [apply lex_newline; exact (Hnl eq_refl)|exact I]].
Qed.
Lemma after_no_nl s ss : Forall (good_inline (en_entity E)) (after s) -> no_breaks s ss -> opened s <> Mark -> no_nl (flat_map inline_source (after s) ++ flat_map section_source ss).
Proof.
  intros Hg Hn Ho. destruct (Hn Ho) as (H1 & H2). destruct (after s) as [|x l] eqn:Ea; intros c q X.
  - destruct ss as [|t ss]; [discriminate X|]. cbn [flat_map app] in X. unfold section_source at 1, line_source in X. rewrite (H2 eq_refl t ss eq_refl) in X. destruct (opened t); injection X as <- _; reflexivity.
  - inversion Hg; subst. cbn [flat_map] in X. destruct (inline_not_nl (en_entity E) x) as (d & m & Hd & Hnl); [assumption|intros ->; apply (H1 l); reflexivity|]. rewrite Hd in X. injection X as <- _. exact Hnl.
Qed.
Lemma clear_tail s ss : clear_of_breaks (s :: ss) -> no_breaks s ss /\ clear_of_breaks ss.
Proof. intro H. split; [apply (H [] s ss eq_refl)|]. intros f t r ->. apply (H (s :: f) t r eq_refl). Qed.
Lemma sections_lx ss : Forall good_section ss -> clear_of_breaks ss -> lx (flat_map section_pieces ss) [].
Proof.
  induction 1 as [|s ss [Hn Hl] Hs IH]; intro Hcl; [exact I|]. apply clear_tail in Hcl as [Hcl Hcs]. specialize (IH Hcs). apply line_inside in Hl as [[Ht Hl] _]. cbn [flat_map]. rewrite lx_app, app_nil_r. split; [|exact IH]. rewrite sections_flat. unfold section_pieces, line_pieces. rewrite !lx_app. split; [|split].
  - destruct (new_line s); [|exact I]. split; [|exact I]. apply lex_newline. intros c q X. destruct (opened s); injection X as <- _; reflexivity.
  - apply anchor_lx; [apply Hn|eapply inlines_not93; [exact Hl|]; apply stop_not93, sections_stop|]. intro Hle. rewrite inlines_flat. apply after_no_nl; auto. intro Z. rewrite Z in Hle. discriminate Hle.
  - apply (tidy_lx (en_entity E)); [exact Ht|exact Hl|apply sections_stop].
Qed.
Lemma section_first ss l : stops l (flat_map section_pieces ss).
Proof.
  assert (X : BlocksParse.first (flat_map section_pieces ss) = TInputEnd \/ BlocksParse.first (flat_map section_pieces ss) = TLeftBlockAnchor \/ BlocksParse.first (flat_map section_pieces ss) = TLineBreak \/ BlocksParse.first (flat_map section_pieces ss) = TLeftBlock).
  { destruct ss as [|s ss]; [left; reflexivity|right]. cbn [flat_map]. unfold section_pieces at 1 3 5, line_pieces. destruct (new_line s); [right; left; reflexivity|]. destruct (opened s); [left; reflexivity|right; right; reflexivity..]. }
  split; [|intros x r _ _ Y; rewrite Y in X; destruct X as [X|[X|[X|X]]]; discriminate]. unfold BlocksRun.calm. destruct X as [-> |[-> |[-> | ->]]]; cbn; intuition discriminate.
Qed.
Lemma line_run l p sol ss : good_line (en_entity E) l -> depth p = 0 -> ends E (flat_map inline_pieces l ++ flat_map section_pieces ss) ->
  exists sol', steps E 100 shared_new quiet_at (on E p sol (flat_map inline_pieces l ++ flat_map section_pieces ss)) (flat_map (els E) l) (on E p sol' (flat_map section_pieces ss)).
Proof.
  intros Hl Hd He. apply line_inside in Hl as [[Ha Hg] Hh]. apply inlines_run; auto; [apply Forall_forall; intros x _; apply inline_runs|intros q Hq; left; exact (proj1 Hq)|intros _ q Hq; right; exact Hq|rewrite Hd; unfold MAX_RECURSION_DEPTH; lia|].
  apply section_first.
Qed.
Lemma place_break n p sol cs s : depth p < MAX_RECURSION_DEPTH -> BlocksParse.first cs = TLeftBlockAnchor ->
  consume_n E (S n) (on E p sol (line_piece :: cs)) s = ROk (PSu [ELineBreak] [] true) (on E p true cs) s.
Proof.
  intros Hd Hf. unfold line_piece. rewrite consume_S by exact Hd. rewrite on_tok.
  set (q0 := with_depth (S (depth (on E p sol ((TLineBreak, [10%N]) :: cs)))) (on E p sol ((TLineBreak, [10%N]) :: cs))).
  assert (Hq : q0 = on E (pushed p) sol (line_piece :: cs)) by reflexivity. rewrite Hq. clear q0 Hq. cbn [BlocksParse.first rules_for].
  assert (F1 : fails (RULE "block-skip"%string AnyPosition (block_skip E (consume_n E n))) (on E (pushed p) sol (line_piece :: cs)) s).
  { apply rule_fails. cbn [rd_fn rd_name]. rewrite on_rule. unfold block_skip. destruct (step_on E (with_rule "block-skip"%string (pushed p)) sol line_piece cs s) as [t Ht].
    assert (Ht2 : t_token t = TLeftBlockAnchor) by (rewrite <- Hf; unfold step, BlocksParse.on in Ht; destruct cs as [|[k z] m]; cbn in Ht; injection Ht as <-; reflexivity).
    rewrite (bind_ok _ _ _ _ _ _ _ Ht), Ht2. eexists _, _. reflexivity. }
  assert (F2 : fails (RULE "definition-list-skip-newline"%string AnyPosition rule_def_skip) (on E (pushed p) sol (line_piece :: cs)) s).
  { apply rule_fails. cbn [rd_fn rd_name]. rewrite on_rule. unfold rule_def_skip. rewrite bind_gets. unfold next_is, look_ahead. rewrite on_rem.
    destruct (toks E cs) as [|t r] eqn:Et; [destruct (toks_ne _ _ Et)|]. assert (Ht : t_token t = BlocksParse.first cs) by (destruct cs as [|[k z] q]; cbn [toks] in Et; injection Et as <- _; reflexivity).
    cbn [nth_error]. rewrite Ht, Hf. eexists _, _. reflexivity. }
  match goal with |- context [consume_rules (?a :: ?b :: ?l) [] ?p s] => destruct (skip_rule a (b :: l) [] p s F1) as [e1 ->]; destruct (skip_rule b l e1 p s F2) as [e2 ->] end.
  set (L := [TQuote; TBulletItem; TNumberedItem; THeading; TEquals; TTripleDash; TClearFloatLeft; TClearFloatRight; TClearFloatBoth; TTableColumn; TTableColumnLeft; TTableColumnRight; TTableColumnCenter; TTableColumnTitle]).
  assert (Hs : forall q, evaluate_fn (step ;; get_optional_space ;; gets (is_any L)) (on E q sol (line_piece :: cs)) s = ROk false (on E q sol (line_piece :: cs)) s).
  { intro q. unfold evaluate_fn. destruct (step_on E q sol line_piece cs s) as [t Ht]. rewrite (bind_ok _ _ _ _ _ _ _ Ht). cbn [fst line_piece line_start_token]. unfold get_optional_space.
    erewrite bind_ok; [|apply opt_no; rewrite Hf; discriminate]. unfold gets, is_any. rewrite on_tok, Hf. reflexivity. }
  cbn [consume_rules]. unfold PState.bind at 1 2. unfold gets at 1, attempt, try_consume. cbn [rd_position rd_fn rd_name]. rewrite on_rule. unfold rule_line_break. fold L. unfold PState.bind at 1.
  rewrite Hs. unfold ok_derived, or_panic, PState.bind, PState.ret. cbn [all_paragraph_safe paragraph_safe check_partials su_item]. rewrite on_update by reflexivity.
  unfold step_if_same, PState.bind, gets, same_pointer. cbn [length]. rewrite Nat.eqb_refl. destruct (step_on E (pushed p) sol line_piece cs s) as [t Ht]. rewrite Ht. unfold PState.ret, depth_decrement, modify. f_equal.
  unfold BlocksParse.on. destruct (toks E cs) eqn:E1; [destruct (toks_ne _ _ E1)|]. unfold pushed, with_depth. cbn. rewrite ?Nat.sub_0_r. reflexivity.
Qed.
Lemma place_skip n o name p sol cs s : o <> Mark -> depth p < MAX_RECURSION_DEPTH -> ends E (anchor_pieces o name ++ cs) ->
  consume_n E (S n) (on E p sol (line_piece :: anchor_pieces o name ++ cs)) s = ROk (PSu [] [] true) (on E p true (anchor_pieces o name ++ cs)) s.
Proof.
  intros Ho Hd He.
  assert (Ha : anchor_pieces o name ++ cs = open_piece false :: name_pieces (opening_word o) ++ blank_piece :: pieces name ++ right_piece :: (if line_ended o then [line_piece] else []) ++ cs).
  { destruct o; [congruence|..]; cbn [anchor_pieces]; unfold head_pieces; cbn [app]; rewrite <- !app_assoc; cbn [app]; rewrite <- !app_assoc; reflexivity. }
  rewrite Ha in *. clear Ha. set (c1 := pieces name ++ right_piece :: (if line_ended o then [line_piece] else []) ++ cs) in *.
  assert (Hg : BlocksParse.good_name (opening_word o)) by (left; apply block_word; exact Ho).
  assert (Hru : get_block_rule E (consume_n E n) (opening_word o) = Some (BR "block-target"%string (map lit ["target"; "anchortarget"]%string) false false true, blk_target E)) by (destruct o; [congruence|reflexivity..]).
  apply BlocksRun.rule_consume with (name := "block-skip"%string) (f := block_skip E (consume_n E n)) (more := tl (rules_for E (consume_n E n) TLineBreak)) (r := "block-skip"%string); auto.
  unfold block_skip. set (c2 := open_piece false :: name_pieces (opening_word o) ++ blank_piece :: c1) in *.
  destruct (step_on E (with_rule "block-skip"%string (pushed p)) sol line_piece c2 s) as [t Ht].
  assert (Ht2 : t_token t = TLeftBlock) by (unfold c2 in Ht; unfold step, BlocksParse.on in Ht; cbn in Ht; injection Ht as <-; reflexivity).
  rewrite (bind_ok _ _ _ _ _ _ _ Ht), Ht2. cbn [fst line_piece line_start_token].
  assert (Hev : forall q, evaluate_fn (let! (nm, _) := get_block_name E false in PState.ret match get_block_rule E (consume_n E n) nm with Some (br, _) => br_newlines br | None => false end) (on E q true c2) s = ROk true (on E q true c2) s).
  { intro q. unfold evaluate_fn. unfold get_block_name, c2. rewrite bind_assoc. erewrite bind_ok; [|apply (opt_yes E TLeftBlock q true (open_piece false)); reflexivity].
    rewrite bind_assoc. unfold get_optional_space. erewrite bind_ok; [|apply opt_no; intro Y; apply (name_first_tok (opening_word o) (blank_piece :: c1) Hg); rewrite Y; cbn; tauto].
    erewrite bind_ok; [|apply name_read; [exact Hg|cbn; tauto|eapply ends_cons; exact He]]. cbv beta iota zeta. rewrite Hru. reflexivity. }
  rewrite (bind_ok _ _ _ _ _ _ _ (Hev _)). reflexivity.
Qed.
Lemma inline_no_break x rest : good_inline (en_entity E) x -> x <> Break -> BlocksParse.first (inline_pieces x ++ rest) <> TLineBreak.
Proof.
  intros H Hx. destruct x; try (cbn [inline_pieces]; match goal with |- context [starred ?k] => destruct (starred k) end; discriminate); try (try destruct avatar; try destruct checked; try destruct tab; discriminate); [|congruence].
  cbn [inline_pieces]. destruct (text_first s rest H) as [X _]. intro Y. rewrite Y in X. cbn in X. intuition discriminate.
Qed.
Lemma after_first s ss : Forall (good_inline (en_entity E)) (after s) -> no_breaks s ss -> opened s <> Mark -> BlocksParse.first (flat_map inline_pieces (after s) ++ flat_map section_pieces ss) <> TLineBreak.
Proof.
  intros Hg Hn Ho. destruct (Hn Ho) as (H1 & H2). destruct (after s) as [|x l] eqn:Ea.
  - destruct ss as [|t ss]; [discriminate|]. cbn [flat_map app]. unfold section_pieces at 1, line_pieces. rewrite (H2 eq_refl t ss eq_refl). destruct (opened t); discriminate.
  - inversion Hg; subst. cbn [flat_map]. rewrite <- app_assoc. apply inline_no_break; [assumption|]. intros ->. apply (H1 l). reflexivity.
Qed.
Lemma sections_run ss : Forall good_section ss -> clear_of_breaks ss -> forall p sol, depth p = 0 -> ends E (flat_map section_pieces ss) ->
  exists sol', steps E 100 shared_new quiet_at (on E p sol (flat_map section_pieces ss)) (flat_map section_els ss) (on E p sol' []).
Proof.
  induction 1 as [|s ss [Hn Hl] Hs IH]; intros Hcl p sol Hd He; [exists sol; constructor|]. apply clear_tail in Hcl as [Hcl Hcs]. specialize (IH Hcs). cbn [flat_map] in *. unfold section_pieces in He at 1. unfold section_pieces at 1. rewrite <- !app_assoc in *.
  pose proof (ends_app E _ _ He) as He1.
  destruct (line_run (after s) p (line_ended (opened s)) ss Hl Hd (ends_app E _ _ He1)) as [sol1 H1]. destruct (IH p sol1 Hd (ends_app E _ _ (ends_app E _ _ He1))) as [sol2 H2]. exists sol2.
  change (section_els s) with (line_els s ++ [EAnchorName (place_id (en_isolate E) (place_name s))] ++ flat_map (els E) (after s)). rewrite <- !app_assoc.
  pose proof (after_first s ss (proj2 (proj1 (line_inside _ Hl))) Hcl) as Haf.
  set (cs := flat_map inline_pieces (after s) ++ flat_map section_pieces ss) in *.
  assert (X : forall sol, steps E 100 shared_new quiet_at (on E p sol (anchor_pieces (opened s) (place_name s) ++ cs)) ([EAnchorName (place_id (en_isolate E) (place_name s))] ++ flat_map (els E) (after s) ++ flat_map section_els ss) (on E p sol2 [])).
  { intro sol'. eapply steps_app; [|eapply steps_app; [exact H1|exact H2]]. apply steps_one.
    - left. rewrite on_tok. destruct (opened s); reflexivity.
    - apply anchor_consume; auto. rewrite Hd. unfold MAX_RECURSION_DEPTH. lia.
    - rewrite !on_len, !app_length. destruct (opened s); cbn [anchor_pieces mark_pieces length]; unfold head_pieces; rewrite ?app_length; cbn [length]; lia. }
  unfold line_els, line_pieces. destruct (new_line s); [|destruct (opened s); exact (X sol)]. destruct (opened s) eqn:Eo.
  2, 3: eapply steps_app; [|exact (X true)]; apply steps_one;
    [right; split; [apply on_tok|]; change ([line_piece] ++ ?c) with (line_piece :: c); unfold line_piece; rewrite on_rem; eexists _, _; split; [reflexivity|discriminate]
    |apply place_skip; [discriminate|rewrite Hd; unfold MAX_RECURSION_DEPTH; lia|exact He1]
    |rewrite !on_len; cbn [app length]; lia].
  eapply steps_app; [|exact (X true)]. apply steps_one.
  - right. split; [apply on_tok|]. change ([line_piece] ++ ?c) with (line_piece :: c). unfold line_piece. rewrite on_rem. eexists _, _. split; [reflexivity|]. discriminate.
  - apply place_break; [rewrite Hd; unfold MAX_RECURSION_DEPTH; lia|reflexivity].
  - rewrite !on_len. cbn [app length]. lia.
Qed.
Lemma push_mark name es cu f : push_elements (PS cu f) (EAnchorName name :: es) true = PS (cu ++ EAnchorName name :: es) f.
Proof. destruct cu as [|x cu]; [|apply push_after]. change (push_elements (PS [] f) (EAnchorName name :: es) true) with (push_elements (PS [EAnchorName name] f) es true). rewrite push_after. reflexivity. Qed.
Lemma push_on cu f es : cu <> [] -> push_elements (PS cu f) es true = PS (cu ++ es) f.
Proof. destruct cu as [|e cu]; [congruence|]. intros _. apply push_after. Qed.
Lemma left_some l : Forall (good_inline (en_entity E)) l -> left_of (en_tags E) (own_category E) l <> [] -> flat_map (els E) (left_of (en_tags E) (own_category E) l) <> [].
Proof.
  intros Hg Hne X. unfold left_of in *. destruct (skipped_first E (flat_map (SpecBlocks.kept (en_tags E) (own_category E)) l)) as [Y|Y]; [apply kepts_plainly; exact Hg|congruence|]. rewrite X in Y. discriminate.
Qed.
Lemma places_parse l0 ss : ss <> [] -> good_line (en_entity E) l0 -> Forall good_section ss -> clear_of_breaks ss -> (forall s r, ss = s :: r -> new_line s = true -> left_of (en_tags E) (own_category E) l0 <> []) -> en_text E = places_source l0 ss ->
  exists toks, parsed E toks (TREE [paragraph (flat_map (els E) (left_of (en_tags E) (own_category E) l0) ++ flat_map section_els ss); EFootnoteBlock None false] [] [] [] [] [] (blen (en_text E)) []).
Proof.
  intros Hne Hl0 Hss Hcl Hfi He. set (cs := flat_map inline_pieces l0 ++ flat_map section_pieces ss).
  assert (Hfl : flat cs = en_text E) by (unfold cs; rewrite flat_app, sections_flat, inlines_flat; symmetry; exact He).
  assert (Hlx : lx cs []).
  { unfold cs. rewrite lx_app, app_nil_r. split; [|apply sections_lx; [exact Hss|exact Hcl]]. rewrite sections_flat. apply (tidy_lx (en_entity E)); [apply line_inside; exact Hl0|apply line_inside; exact Hl0|apply sections_stop]. }
  pose proof (lex_all cs (lx_lxs _ _ Hlx)) as Hlex. rewrite Hfl in Hlex.
  assert (Hend : ends E cs) by (exists []; rewrite Hfl; reflexivity).
  assert (H0 : pos_of E cs = 0) by (rewrite (pos_of_pre E []); [reflexivity|rewrite Hfl; reflexivity]).
  pose proof (toks_place E _ Hend) as Ht. rewrite H0 in Ht. rewrite <- Ht in Hlex.
  set (st := XT TInputStart [] 0 0) in *. set (p := PST st (toks E cs) "page" 0 APNone false false true).
  assert (Hstart : consume_n E 100 p shared_new = ROk (PSu [] [] true) (on E p true cs) shared_new).
  { destruct (toks E cs) as [|u r] eqn:Eu; [destruct (toks_ne _ _ Eu)|]. unfold BlocksParse.on. rewrite Eu. apply (start_consume E 99 p shared_new u r); [cbn; unfold MAX_RECURSION_DEPTH; lia|reflexivity|reflexivity]. }
  set (whole := flat_map (els E) (left_of (en_tags E) (own_category E) l0) ++ flat_map section_els ss).
  assert (Hwhole : exists x r, whole = x :: r).
  { unfold whole. destruct ss as [|s ss]; [congruence|]. cbn [flat_map]. unfold section_els at 1, line_els. destruct (opened s), (new_line s); destruct (flat_map (els E) (left_of (en_tags E) (own_category E) l0)); eexists _, _; reflexivity. }
  enough (X : exists sol', looping (gather E 100 None) (ps_new, [], true) p shared_new = ROk (PS whole [], []) (on E p sol' []) shared_new).
  { destruct X as (sol' & X). exists (st :: toks E cs). split; [exact Hlex|].
    assert (Hgp : exists b, gather_paragraphs (consume E) "page"%string None p shared_new = ROk (PSu [paragraph whole] [] b) (on E p sol' []) shared_new).
    { eexists. unfold gather_paragraphs. unfold PState.bind at 1. unfold set_rule, modify. change (with_rule "page"%string p) with p. unfold PState.bind at 1.
      change (looping _ (ps_new, [], true) p shared_new) with (looping (gather E 100 None) (ps_new, [], true) p shared_new). rewrite X. cbv beta iota zeta. unfold PState.bind, or_panic, into_result.
      destruct Hwhole as (x & r & ->). reflexivity. }
    destruct Hgp as [b Hgp]. unfold parse. cbn [parser_new]. fold p. rewrite Hgp. cbn. reflexivity. }
  unfold looping. change (length (rem p)) with (length (toks E cs)). rewrite toks_len.
  rewrite (gather_one E 100 None shared_new shared_new p ps_new true _ _ _ I (or_introl eq_refl) Hstart eq_refl). cbn [su_item su_safe push_elements].
  destruct (line_run l0 p true ss Hl0 eq_refl Hend) as [sol1 H1]. destruct (sections_run ss Hss Hcl p sol1 eq_refl (ends_app E _ _ Hend)) as [sol2 H2].
  destruct (gather_more E 100 None shared_new _ _ _ I (steps_app _ _ _ _ _ _ _ _ _ H1 H2) (S (length cs)) ps_new) as (k' & Hk' & Hl).
  { fold cs. rewrite on_len. lia. }
  exists sol2. fold cs in Hl. rewrite Hl, push_elements_app. rewrite <- kepts_els. change ps_new with (PS [] []). rewrite push_skips by (apply kepts_plainly; apply line_inside; exact Hl0).
  change (skip_breaks (flat_map (SpecBlocks.kept (en_tags E) (own_category E)) l0)) with (left_of (en_tags E) (own_category E) l0).
  unfold whole. destruct ss as [|s ss]; [congruence|]. cbn [flat_map]. change (section_els s) with (line_els s ++ [EAnchorName (place_id (en_isolate E) (place_name s))] ++ flat_map (els E) (after s)). rewrite <- !app_assoc. specialize (Hfi s ss eq_refl). clear Hne Hwhole.
  assert (Hc : line_els s = [] \/ (line_els s = [ELineBreak] /\ new_line s = true)) by (unfold line_els; destruct (opened s), (new_line s); auto).
  destruct Hc as [-> |[-> Hc]].
  - cbn [app]. rewrite push_mark. destruct k' as [|k']; [lia|]. reflexivity.
  - rewrite push_on by (apply left_some; [apply line_inside; exact Hl0|auto]). destruct k' as [|k']; [lia|]. reflexivity.
Qed.
End Places.
Lemma places_render E R n l0 ss len : good_line (en_entity E) l0 -> Forall (good_section E) ss -> 1 <= n -> (forall s, re_normalize R s = en_normalize E s) -> (forall c, is_alnum c = true -> re_word R c = true) ->
  let shown := flat_map (inline_html (en_tags E) (own_category E) (en_entity E) dummy_avatar (re_normalize R) (re_site R) (re_page_exists R) get_page_title) in
  let links := flat_map (inline_links (en_tags E) (own_category E) (re_normalize R)) in
  html_render R n (TREE [paragraph (flat_map (els E) (left_of (en_tags E) (own_category E) l0) ++ flat_map (section_els E) ss); EFootnoteBlock None false] [] [] [] [] [] len []) =
  Html (html "<wj-body class='wj-body'><p>" ++ shown (left_of (en_tags E) (own_category E) l0) ++ flat_map (fun s => line_html s ++ place_html (place_id (en_isolate E) (place_name s)) ++ shown (after s)) ss ++ html "</p></wj-body>")
    (refs_of (links l0 ++ flat_map (fun s => links (after s)) ss)) (external_links (links l0 ++ flat_map (fun s => links (after s)) ss)).
Proof.
  intros Hl0 Hss Hn Hnorm Hword shown links. destruct n as [|n]; [lia|]. unfold html_render, body_nodes. cbn [tr_toc tr_footnotes tr_bibs tr_elements h_ref].
  set (whole := flat_map (els E) (left_of (en_tags E) (own_category E) l0) ++ flat_map (section_els E) ss).
  assert (Hline : forall l, Forall (good_inline (en_entity E)) l -> paints R (h_elements R [] [] [] (h_ref R [] [] [] n) (flat_map (els E) l)) (shown l) (links l)).
  { intros l Hg. apply paints_flat. intros x Hx. apply paints_inline; auto. rewrite Forall_forall in Hg. auto. }
  assert (Hw : paints R (h_elements R [] [] [] (h_ref R [] [] [] n) whole) (shown (left_of (en_tags E) (own_category E) l0) ++ flat_map (fun s => line_html s ++ place_html (place_id (en_isolate E) (place_name s)) ++ shown (after s)) ss) (links l0 ++ flat_map (fun s => links (after s)) ss)).
  { apply line_inside in Hl0 as [[_ Hg0] _]. unfold links at 1. rewrite <- left_links. fold links. unfold whole. apply paints_app.
    - apply Hline. apply left_good. exact Hg0.
    - apply paints_flat. intros s Hs. rewrite Forall_forall in Hss. destruct (Hss s Hs) as [Hnm Hl]. apply line_inside in Hl as [[_ Hg] _]. unfold section_els.
      change (EAnchorName (place_id (en_isolate E) (place_name s)) :: flat_map (els E) (after s)) with ([EAnchorName (place_id (en_isolate E) (place_name s))] ++ flat_map (els E) (after s)). change (links (after s)) with ([] ++ [] ++ links (after s)). apply paints_app.
      { unfold line_els, line_html. destruct (opened s); [destruct (new_line s)|..]; [|apply draws_paints, draws_none..]. pose proof (Hline [Break] (Forall_cons _ (I : good_inline (en_entity E) Break) (Forall_nil _))) as X. exact X. }
      apply paints_app; [|apply Hline; exact Hg].
      apply paints_one. rewrite h_element_eq. cbn [h_body]. apply draws_paints. eapply draws_eq; [apply draws_own_empty; reflexivity|]. unfold own_of, en. cbn [filter map fst snd concat]. rewrite app_nil_r.
      unfold tag_html, place_html. change (smem (lit "a") void_tags) with false. cbv iota. cbn [flat_map]. assert (Hne : place_id (en_isolate E) (place_name s) <> []) by (destruct Hnm as [[[[Hne _] _] _] _]; unfold place_id; destruct (_ && _); [discriminate|exact Hne]).
      destruct (place_id (en_isolate E) (place_name s)) as [|c name]; [congruence|].
      change (attribute_html (lit "id", c :: name)) with (html " id='" ++ escape (c :: name) ++ html "'"). set (v := escape (c :: name)). clearbody v. rewrite app_nil_r, <- !app_assoc. reflexivity. }
  clearbody whole.
  assert (H : paints R (h_elements R [] [] [] (h_ref R [] [] [] n) ([paragraph whole] ++ [EFootnoteBlock None false]))
    ((html "<p>" ++ (shown (left_of (en_tags E) (own_category E) l0) ++ flat_map (fun s => line_html s ++ place_html (place_id (en_isolate E) (place_name s)) ++ shown (after s)) ss) ++ html "</p>") ++ []) ((links l0 ++ flat_map (fun s => links (after s)) ss) ++ [])).
  { apply paints_app; [|apply draws_paints; intro c; exists []; auto]. apply paints_par. exact Hw. }
  clear Hw Hline. revert H. rewrite !app_nil_r. generalize (shown (left_of (en_tags E) (own_category E) l0)) (flat_map (fun s => line_html s ++ place_html (place_id (en_isolate E) (place_name s)) ++ shown (after s)) ss) (links l0 ++ flat_map (fun s => links (after s)) ss). clear shown links. intros u v w H. cbn [app] in H.
  destruct (paints_classed R "wj-body" "wj-body" _ _ _ eq_refl H hctx_new (Forall_nil _)) as (ns & c' & E1 & F & _ & I & X). rewrite E1. rewrite write_nodes_dom, F. cbn [app].
  rewrite I, X. f_equal. unfold classed, SpecBlocks.element, open_tag. change (merged [(lit "class", lit "wj-body")] (shown_attributes [])) with [(lit "class", lit "wj-body")]. cbn [flat_map]. change (attribute_html (lit "class", lit "wj-body")) with (html " class='wj-body'"). rewrite !app_nil_r, <- !app_assoc. reflexivity.
Qed.
(** Take a paragraph of any inline markup with places in it, each [[# name]], [[target name]] or
    [[anchortarget name]] with a word as its name, that has no white space of any kind if ids are isolated; the
    last two may have a line break before and after them, which are not shown, but no second one after.  The page is read without an error and shown as one paragraph in which each place is an
    element whose id is that name, isolated if ids are, letter by letter as HTML escapes it, where it stands, and the rest is what
    that markup shows (conditions that do not hold and line breaks left without anything before them are
    dropped, as where no places are).  The page links to what that markup links to. *)
Theorem C82_places : forall E R n l0 ss, ss <> [] -> good_line (en_entity E) l0 ->
  (forall s, In s ss -> good_name (en_isolate E) (place_name s) /\ good_line (en_entity E) (after s)) -> clear_of_breaks ss ->
  let own := match en_category E with Some c => c | None => lit "_default" end in
  (forall s r, ss = s :: r -> new_line s = true -> left_of (en_tags E) own l0 <> []) ->
  en_text E = places_source l0 ss -> 1 <= n ->
  (forall s, re_normalize R s = en_normalize E s) -> (forall c, is_alnum c = true -> re_word R c = true) ->
  let shown := flat_map (inline_html (en_tags E) own (en_entity E) dummy_avatar (re_normalize R) (re_site R) (re_page_exists R) get_page_title) in
  let links := flat_map (inline_links (en_tags E) own (re_normalize R)) in
  let all := links l0 ++ flat_map (fun s => links (after s)) ss in
  exists toks t, parsed E toks t /\ tr_errors t = [] /\
    html_render R n t = Html (html "<wj-body class='wj-body'><p>" ++ shown (left_of (en_tags E) own l0) ++ flat_map (fun s => line_html s ++ place_html (place_id (en_isolate E) (place_name s)) ++ shown (after s)) ss ++ html "</p></wj-body>")
      (map (fun r => PR (fst r) (snd r)) (internal_links all)) (external_links all).
Proof.
  intros E R n l0 ss Hne Hl0 Hss Hcl own Hfi He Hn Hno Hwd shown links all.
  assert (Hs : Forall (good_section E) ss) by (apply Forall_forall; exact Hss).
  destruct (places_parse E l0 ss Hne Hl0 Hs Hcl Hfi He) as [toks Hp]. exists toks. eexists. split; [exact Hp|]. split; [reflexivity|]. exact (places_render E R n l0 ss _ Hl0 Hs Hn Hno Hwd).
Qed.
Print Assumptions C82_places.
(** A jump [#name caption] anywhere in that paragraph, before or after the place, leads to the place whose id is its name as page
    names are normalised: its href is a number sign and the very id of the place.  With ids not isolated that
    is the place of the same name, if normalising leaves it alone; with ids isolated it is the place of the
    name without the prefix. *)
Definition stands_in (part whole : str) : Prop := exists front back, whole = front ++ part ++ back.
Lemma in_flat {A} (f : A -> str) x l : In x l -> stands_in (f x) (flat_map f l).
Proof. intro H. apply in_split in H as (a & b & ->). exists (flat_map f a), (flat_map f b). rewrite flat_map_app. reflexivity. Qed.
Lemma stands_trans a b c : stands_in a b -> stands_in b c -> stands_in a c.
Proof. intros (u & v & ->) (x & y & ->). exists (x ++ u), (v ++ y). rewrite <- !app_assoc. reflexivity. Qed.
Lemma jump_left tags own name caption l : In (Jump name caption) l -> In (Jump name caption) (left_of tags own l).
Proof.
  intro H. unfold left_of. assert (X : In (Jump name caption) (flat_map (SpecBlocks.kept tags own) l)) by (apply in_flat_map; exists (Jump name caption); split; [exact H|left; reflexivity]).
  revert X. generalize (flat_map (SpecBlocks.kept tags own) l). clear. intro l. induction l as [|x l IH]; [auto|]. intros [-> |X]; [left; reflexivity|]. destruct x; try (right; exact X). exact (IH X).
Qed.
Theorem C82_jump : forall E R n l0 ss name target caption, good_line (en_entity E) l0 ->
  (forall s, In s ss -> good_name (en_isolate E) (place_name s) /\ good_line (en_entity E) (after s)) -> clear_of_breaks ss ->
  let own := match en_category E with Some c => c | None => lit "_default" end in
  (forall s r, ss = s :: r -> new_line s = true -> left_of (en_tags E) own l0 <> []) -> en_text E = places_source l0 ss -> 1 <= n ->
  (forall s, re_normalize R s = en_normalize E s) -> (forall c, is_alnum c = true -> re_word R c = true) ->
  In name (map place_name ss) -> en_normalize E target = place_id (en_isolate E) name ->
  In (Jump (Some target) caption) l0 \/ (exists s, In s ss /\ In (Jump (Some target) caption) (after s)) ->
  let id := place_id (en_isolate E) name in
  exists toks t body refs outside, parsed E toks t /\ tr_errors t = [] /\ html_render R n t = Html body refs outside /\
    stands_in (html "<a id='" ++ escape id ++ html "'></a>") body /\
    stands_in (html "<a href='#" ++ escape id ++ html "' class='wj-link wj-link-anchor' data-link-type='anchor'>" ++ escape caption ++ html "</a>") body.
Proof.
  intros E R n l0 ss name target caption Hl0 Hss Hcl own Hfi He Hn Hno Hwd Hin Hnn Hj id.
  assert (Hne : ss <> []) by (intros ->; destruct Hin).
  destruct (C82_places E R n l0 ss Hne Hl0 Hss Hcl Hfi He Hn Hno Hwd) as (toks & t & H1 & H2 & H3).
  fold own in H3. clearbody own.
  set (one := inline_html (en_tags E) own (en_entity E) dummy_avatar (re_normalize R) (re_site R) (re_page_exists R) get_page_title) in *.
  assert (Hone : one (Jump (Some target) caption) = html "<a href='#" ++ escape id ++ html "' class='wj-link wj-link-anchor' data-link-type='anchor'>" ++ escape caption ++ html "</a>").
  { unfold one. cbn [inline_html]. rewrite Hno, Hnn. fold id. unfold link_html, SpecBlocks.element, open_tag. set (e := escape caption). clearbody e.
    change (merged ([(lit "href", lit "#" ++ id)] ++ [] ++ [(lit "class", lit "wj-link " ++ lit "wj-link-anchor"); (lit "data-link-type", lit "anchor")]) (shown_attributes [])) with [(lit "href", lit "#" ++ id); (lit "class", lit "wj-link wj-link-anchor"); (lit "data-link-type", lit "anchor")].
    cbn [flat_map]. change (attribute_html (lit "href", lit "#" ++ id)) with (html " href='#" ++ escape id ++ html "'"). set (v := escape id). clearbody v. rewrite <- !app_assoc. reflexivity. }
  clearbody one. clear Hnn Hno.
  set (page := html "<wj-body class='wj-body'><p>" ++ flat_map one (left_of (en_tags E) own l0) ++ flat_map (fun s => line_html s ++ place_html (place_id (en_isolate E) (place_name s)) ++ flat_map one (after s)) ss ++ html "</p></wj-body>") in *.
  assert (Hfirst : forall part, stands_in part (flat_map one (left_of (en_tags E) own l0)) -> stands_in part page).
  { intros part Hp. eapply stands_trans; [exact Hp|]. eexists _, _. unfold page. reflexivity. }
  assert (Hrest : forall part, stands_in part (flat_map (fun s => line_html s ++ place_html (place_id (en_isolate E) (place_name s)) ++ flat_map one (after s)) ss) -> stands_in part page).
  { intros part Hp. eapply stands_trans; [exact Hp|]. exists (html "<wj-body class='wj-body'><p>" ++ flat_map one (left_of (en_tags E) own l0)), (html "</p></wj-body>"). unfold page. exact (app_assoc _ _ _). }
  clearbody page. exists toks, t, page. eexists _, _. split; [exact H1|]. split; [exact H2|]. split; [exact H3|]. rewrite <- Hone. clear Hone. split.
  - apply in_map_iff in Hin as (x & Hx & Hin). apply Hrest. eapply stands_trans; [|exact (in_flat (fun s => line_html s ++ place_html (place_id (en_isolate E) (place_name s)) ++ flat_map one (after s)) x ss Hin)]. exists (line_html x), (flat_map one (after x)). rewrite Hx. reflexivity.
  - destruct Hj as [Hj|(x & Hin' & Hj)].
    + apply Hfirst. apply (in_flat one). apply jump_left. exact Hj.
    + apply Hrest. eapply stands_trans; [exact (in_flat one _ (after x) Hj)|]. eapply stands_trans; [|exact (in_flat (fun s => line_html s ++ place_html (place_id (en_isolate E) (place_name s)) ++ flat_map one (after s)) x ss Hin')].
      exists (line_html x ++ place_html (place_id (en_isolate E) (place_name x))), []. rewrite app_nil_r, <- app_assoc. reflexivity.
Qed.
Print Assumptions C82_jump.
(** A page with two places and jumps to both, from before and from after. *)
Example C82_case : let l0 := [Text (lit "Go "); Jump (Some (lit "end")) (lit "down & out"); Text (lit " from ")] in
  let ss := [At false (Target true) (lit "top") [Text (lit "Start"); Break; Box Strong (lit "b") [] [Text (lit "of it")] (lit "b"); Text (lit " and")]; At true Mark (lit "end") [Break; Text (lit "or "); Jump (Some (lit "top")) (lit "up")]; At true (AnchorTarget false) (lit "last") [Text (lit "!")]] in
  let ents := fun _ => Some [38%N] in let shown := flat_map (inline_html [] [] ents [] (fun s => s) [] (fun _ _ => true) (fun _ _ => [])) in
  good_line ents l0 /\ (forall s, In s ss -> good_name false (place_name s) /\ good_line ents (after s)) /\ clear_of_breaks ss /\ left_of [] [] l0 <> [] /\
  places_source l0 ss = lit "Go [#end down & out] from [[target top]]
Start
[[b]]of it[[/b]] and
[[# end]]
or [#top up]
[[anchortarget last]]!" /\
  html "<wj-body class='wj-body'><p>" ++ shown (left_of [] [] l0) ++ flat_map (fun s => line_html s ++ place_html (place_id false (place_name s)) ++ shown (after s)) ss ++ html "</p></wj-body>" =
  html "<wj-body class='wj-body'><p>Go <a href='#end' class='wj-link wj-link-anchor' data-link-type='anchor'>down &amp; out</a> from <a id='top'></a>Start<br><strong>of it</strong> and<br><a id='end'></a><br>or <a href='#top' class='wj-link wj-link-anchor' data-link-type='anchor'>up</a><a id='last'></a>!</p></wj-body>" /\
  In (lit "end") (map place_name ss) /\ In (Jump (Some (lit "end")) (lit "down & out")) l0 /\ en_normalize (test_env []) (lit "end") = lit "end".
Proof.
  intros l0 ss ents shown.
  assert (G : forall l, tidy l -> forallb (fun x => inline_b ents x && (inline_height x <? 99)) l = true -> good_line ents l).
  { intros l H1 H2. split; [exact H1|]. rewrite forallb_forall in H2. intros x Hx. specialize (H2 x Hx). apply andb_true_iff in H2 as [X Y]. split; [apply inline_sound; exact X|apply Nat.ltb_lt; exact Y]. }
  assert (T : forall l, apart_b (Text [] :: l) = true -> tidy l) by (intros l H; eapply tidy_tail, apart_tidy, apart_sound; exact H).
  assert (C : clear_of_breaks ss).
  { intros [|u [|v [|w f]]] s rest Hx; unfold ss in Hx; cbn [app] in Hx.
    - injection Hx as <- <-. intros _. split; [discriminate|]. intros X. discriminate X.
    - injection Hx as <- <- <-. intro X. destruct X. reflexivity.
    - injection Hx as <- <- <- <-. intros _. split; [discriminate|]. intros X. discriminate X.
    - injection Hx as _ _ _ Hx. destruct f; discriminate Hx. }
  conj; [apply G; [apply apart_tidy, apart_sound|]; vm_compute; reflexivity| |exact C|discriminate|vm_compute; reflexivity..|right; left; reflexivity|right; left; reflexivity|vm_compute; reflexivity].
  intros s [<-|[<-|[<-|[]]]]; (split; [split; [apply word_sound; vm_compute; reflexivity|discriminate]|]); apply G; [apply apart_tidy, apart_sound; vm_compute; reflexivity|vm_compute; reflexivity|apply T; vm_compute; reflexivity|vm_compute; reflexivity|apply apart_tidy, apart_sound; vm_compute; reflexivity|vm_compute; reflexivity].
Qed.
(** The name of the place is shown as it is written, but the jump leads to the name as page names are
    normalised: with a capital letter in the name the jump leads nowhere. *)
Theorem C82_capital_refuted : exists E toks t, parsed E toks t /\ en_text E = lit "[[# Top]][#Top up]" /\ en_isolate E = false /\ tr_errors t = [] /\
  html_render release_renv 1 t = Html (html "<wj-body class='wj-body'><p><a id='Top'></a><a href='#top' class='wj-link wj-link-anchor' data-link-type='anchor'>up</a></p></wj-body>") [PR None (lit "#top")] [].
Proof.
  set (w := lit "[[# Top]][#Top up]"). enough (X : exists toks t, parsed (test_env w) toks t /\ (tr_errors t = [] /\ html_render release_renv 1 t = Html (html "<wj-body class='wj-body'><p><a id='Top'></a><a href='#top' class='wj-link wj-link-anchor' data-link-type='anchor'>up</a></p></wj-body>") [PR None (lit "#top")] [])).
  - destruct X as (toks & t & H1 & H2 & H3). exists (test_env w), toks, t. split; [exact H1|]. split; [reflexivity|]. split; [reflexivity|]. split; [exact H2|exact H3].
  - unfold w. clear w. page (lit "[[# Top]][#Top up]").
Qed.
Print Assumptions C82_capital_refuted.
(** And with ids isolated, the id of the place gets its prefix but the jump does not: it leads nowhere, and
    could lead to what the page itself has of that name. *)
Definition isolated_page : str := lit "[[# top]][#top up]".
Definition isolated_env : env :=
  let E := test_env isolated_page in
  ENV isolated_page (en_page_syntax E) true (en_interwiki E) (en_site E) (en_tags E) (en_category E) (en_debug E) (en_word E) (en_normalize E)
      (en_entity E) (en_date E) (en_tz E) (en_date_tz E) (en_date_format E).
Theorem C82_isolated_refuted : exists E toks t, parsed E toks t /\ en_text E = lit "[[# top]][#top up]" /\ en_isolate E = true /\ en_normalize E (lit "top") = lit "top" /\ tr_errors t = [] /\
  html_render release_renv 1 t = Html (html "<wj-body class='wj-body'><p><a id='u-top'></a><a href='#top' class='wj-link wj-link-anchor' data-link-type='anchor'>up</a></p></wj-body>") [PR None (lit "#top")] [].
Proof.
  assert (X : match extract_all isolated_page with
    | Some toks => match parse isolated_env toks with
      | Parsed t => (tr_errors t, html_render release_renv 1 t)
      | _ => ([], Html [] [] []) end
    | None => ([], Html [] [] []) end = ([], Html (html "<wj-body class='wj-body'><p><a id='u-top'></a><a href='#top' class='wj-link wj-link-anchor' data-link-type='anchor'>up</a></p></wj-body>") [PR None (lit "#top")] [])) by (vm_compute; reflexivity).
  destruct (extract_all isolated_page) as [toks|] eqn:Et; [|discriminate X]. destruct (parse isolated_env toks) as [t| |] eqn:Ep; try discriminate X.
  apply pair_equal_spec in X as [X1 X2]. exists isolated_env, toks, t. conj; [split; auto|reflexivity|reflexivity|vm_compute; reflexivity|exact X1|exact X2].
Qed.
Print Assumptions C82_isolated_refuted.
(** What leads there is a jump to the name with the prefix, as C82_jump says. *)
Example C82_prefix_case : good_name true (lit "top") /\ en_isolate isolated_env = true /\ en_normalize isolated_env (lit "U-Top") = place_id (en_isolate isolated_env) (lit "top").
Proof.
  conj; [|reflexivity|vm_compute; reflexivity]. split; [apply word_sound; vm_compute; reflexivity|]. intros _ c Hc. revert c Hc. apply Forall_forall. repeat constructor.
Qed.
