(** BlocksLines.v -- the parser run on the tables drawn with bars and on the lines of SpecBlocks.v. *)
From Verif Require Import Base BaseLemmas Strings StringsLemmas SpecStrings Links Attr Lexer SpecLexer LexerLemmas Depth Tree TreeLemmas Text Toc PState Blocks Rules Parse SpecParse SpecPage ParseInv
  ProseLemmas WritingParse WritingBlocks VerbatimLex BlocksLex BlocksParse BlocksRun.
From Verif Require Import SpecBlocks.

Section Lines.
Variable E : env.
Notation on := (on E). Notation ends := (ends E). Notation first := BlocksParse.first.
(** *** A rule at the start of a line. *)
Lemma line_consume n x p cs name f more out r sol' cs' s s' : depth p < MAX_RECURSION_DEPTH ->
  rules_for E (consume_n E n) (fst x) = RULE name StartOfLine f :: more ->
  f (on (with_rule name (pushed p)) true (x :: cs)) s = ROk out (on (with_rule r (pushed p)) sol' cs') s' ->
  (forall q, check_partials (su_item out) q = None) -> length cs' <= length cs ->
  consume_n E (S n) (on p true (x :: cs)) s = ROk out (on p sol' cs') s'.
Proof.
  intros Hd Hr Hf Hcp Hl. destruct x as [k z]. rewrite consume_S by exact Hd. rewrite on_tok.
  set (q0 := with_depth (S (depth (on p true ((k, z) :: cs)))) (on p true ((k, z) :: cs))).
  assert (Hq : q0 = on (pushed p) true ((k, z) :: cs)) by reflexivity. rewrite Hq. clear q0 Hq.
  cbn [fst] in Hr. cbn [BlocksParse.first]. rewrite Hr. cbn [consume_rules]. rewrite bind_gets. unfold attempt, try_consume. unfold bind at 1. cbn [rd_position rd_fn rd_name].
  replace (start_of_line (on (pushed p) true ((k, z) :: cs))) with true by reflexivity. cbn [negb]. rewrite on_rule, Hf, Hcp.
  unfold step_if_same. rewrite bind_assoc, bind_gets. unfold same_pointer.
  rewrite on_update by reflexivity. rewrite !on_len. cbn [length]. destruct (length cs' =? S (length cs)) eqn:Y; [apply Nat.eqb_eq in Y; lia|].
  unfold bind, ret, depth_decrement, modify. rewrite on_depth. f_equal.
  unfold BlocksParse.on. destruct (toks E cs') eqn:E1; [destruct (toks_ne _ _ E1)|]. unfold pushed, with_depth. cbn. rewrite ?Nat.sub_0_r. reflexivity.
Qed.
(** *** Lines. *)
(** What follows a block on its line: nothing, or a line break and the end of the block around. *)
Definition line_end (rest : list piece) : Prop := In (first rest) [TParagraphBreak; TInputEnd] \/ exists r, rest = line_piece :: r /\ first r = TLeftBlockEnd.
Definition eaten (rest : list piece) : bool := match rest with (TLineBreak, _) :: _ => true | _ => false end.
Definition uneaten (rest : list piece) : list piece := if eaten rest then tl rest else rest.
Lemma eat_line p sol rest s : sol = false -> line_end rest -> get_optional_line_break (on p sol rest) s = ROk tt (on p (eaten rest) (uneaten rest)) s.
Proof.
  intros -> [H|(r & -> & H)].
  - unfold get_optional_line_break. rewrite opt_no by (intro X; rewrite X in H; cbn in H; intuition congruence). unfold uneaten. destruct rest as [|[k z] rest]; [reflexivity|]. cbn [BlocksParse.first] in H. cbn in H. destruct H as [<-|[<-|[]]]; reflexivity.
  - unfold get_optional_line_break. rewrite (opt_yes E TLineBreak) by reflexivity. reflexivity.
Qed.
Lemma uneaten_len rest : length (uneaten rest) <= length rest. Proof. unfold uneaten. destruct (eaten rest); [destruct rest; cbn; lia|lia]. Qed.
Lemma dashes_consume n d p rest s : depth p + S n <= MAX_RECURSION_DEPTH -> line_end rest ->
  consume_n E (S n) (on p true ((TTripleDash, repeat 45%N d) :: rest)) s = ROk (PSu [EHorizontalRule] [] false) (on p (eaten rest) (uneaten rest)) s.
Proof.
  intros Hd Hr. eapply line_consume with (name := "horizontal-rule"%string) (r := "horizontal-rule"%string) (more := []); [lia|reflexivity| |intro q; reflexivity|apply uneaten_len].
  unfold rule_horizontal_rule, check_step. rewrite bind_assoc, bind_gets, on_cur. cbn [t_token]. change (tok_eqb TTripleDash TTripleDash) with true. cbv iota. rewrite ?bind_assoc. rewrite stepu. unfold bind at 1, ret at 1. change (line_start_token (fst (TTripleDash, repeat 45%N d))) with false.
  erewrite bind_ok; [|apply eat_line; [reflexivity|exact Hr]]. reflexivity.
Qed.
Definition clear_of (w : option bool) : clear_float := match w with Some true => CFLeft | Some false => CFRight | None => CFBoth end.
(** (The rule does not step over the tildes; [consume_n] does, and the line break stays.) *)
Lemma clear_consume n w z p rest s : depth p + S n <= MAX_RECURSION_DEPTH -> 
  consume_n E (S n) (on p true ((clear_token w, z) :: rest)) s = ROk (PSu [EClearFloat (clear_of w)] [] false) (on p false rest) s.
Proof.
  intro Hd. rewrite consume_S by (change (depth p < MAX_RECURSION_DEPTH); lia). rewrite on_tok.
  set (q0 := with_depth (S (depth (on p true ((clear_token w, z) :: rest)))) (on p true ((clear_token w, z) :: rest))).
  assert (Hq : q0 = on (pushed p) true ((clear_token w, z) :: rest)) by reflexivity. rewrite Hq. clear q0 Hq. cbn [BlocksParse.first].
  replace (rules_for E (consume_n E n) (clear_token w)) with [RULE "clear-float" StartOfLine rule_clear_float] by (destruct w as [[]|]; reflexivity).
  cbn [consume_rules]. rewrite bind_gets. unfold attempt, try_consume. unfold bind at 1. cbn [rd_position rd_fn rd_name].
  replace (start_of_line (on (pushed p) true ((clear_token w, z) :: rest))) with true by reflexivity. cbn [negb]. rewrite on_rule.
  assert (Hf : rule_clear_float (on (with_rule "clear-float" (pushed p)) true ((clear_token w, z) :: rest)) s = ROk (PSu [EClearFloat (clear_of w)] [] false) (on (with_rule "clear-float" (pushed p)) true ((clear_token w, z) :: rest)) s).
  { unfold rule_clear_float. rewrite bind_gets, on_tok. cbn [BlocksParse.first]. assert (X : forall q : pstate, match clear_token w with TClearFloatBoth => ret CFBoth | TClearFloatLeft => ret CFLeft | TClearFloatRight => ret CFRight | _ => fail RuleFailed end q s = ROk (clear_of w) q s) by (intro q; destruct w as [[]|]; reflexivity).
    rewrite (bind_ok _ _ _ _ _ _ _ (X _)). unfold get_optional_line_break. erewrite bind_ok; [|apply opt_no; destruct w as [[]|]; discriminate]. reflexivity. }
  rewrite Hf. cbn [su_item check_partials]. unfold step_if_same. rewrite bind_assoc, bind_gets. unfold same_pointer. rewrite on_update by reflexivity. rewrite Nat.eqb_refl. rewrite bind_assoc. rewrite stepu.
  change (line_start_token (fst (clear_token w, z))) with (line_start_token (clear_token w)). replace (line_start_token (clear_token w)) with false by (destruct w as [[]|]; reflexivity).
  unfold bind, ret, depth_decrement, modify. rewrite on_depth. f_equal.
  unfold BlocksParse.on. destruct (toks E rest) eqn:E1; [destruct (toks_ne _ _ E1)|]. unfold pushed, with_depth. cbn. rewrite ?Nat.sub_0_r. reflexivity.
Qed.
(** *** Cells. *)
Definition cell_body (n : nat) : elements * list perr -> M ((elements * list perr) + (elements * list perr * cell_end)) :=
  fun '(es, errs) =>
    let! t := gets cur_tok in
    let! next := gets (fun p => option_map t_token (look_ahead 0 p)) in
    let plain :=
      let! out := consume_n E n in ret (inl (es ++ su_item out, errs ++ su_errors out)) in
    match is_column t, next with
    | true, Some next =>
        match next with
        | TParagraphBreak | TInputEnd => step ;; ret (inr (es, errs, EndTable))
        | TLineBreak => step_n 2 ;; ret (inr (es, errs, NextRow))
        | _ => ret (inr (es, errs, NextCell))
        end
    | _, _ =>
        match t with
        | TWhitespace =>
            if match es with [] => true | _ => false end then step ;; ret (inl (es, errs))
            else if match next with Some n => is_column n | None => false end then step ;; ret (inl (es, errs))
            else plain
        | TLineBreak | TParagraphBreak | TInputEnd => ret (inr (es, errs, Invalid))
        | _ => plain
        end
    end.
Lemma cell_plain n s p es0 es p1 : strict_at p -> (cur_tok p = TWhitespace -> es0 <> []) -> consume_n E n p s = ROk (PSu es [] true) p1 s -> cell_body n (es0, []) p s = ROk (inl (es0 ++ es, [])) p1 s.
Proof.
  intros (Hq & Hc & Hw) Hn Hco. unfold cell_body. rewrite !bind_gets.
  assert (P : (let! out := consume_n E n in ret (inl (es0 ++ su_item out, [] ++ su_errors out) : (elements * list perr) + (elements * list perr * cell_end))) p s = ROk (inl (es0 ++ es, [])) p1 s).
  { rewrite (bind_ok _ _ _ _ _ _ _ Hco). reflexivity. }
  remember (option_map t_token (look_ahead 0 p)) as nx eqn:Enx.
  destruct (cur_tok p) eqn:Ek; cbn [is_column quiet] in Hc, Hq |- *; try discriminate; try exact P.
  destruct es0 as [|e es0]; [exfalso; apply (Hn eq_refl); reflexivity|]. cbv iota. assert (X : match nx with Some k => is_column k | None => false end = false).
  { subst nx. destruct (look_ahead 0 p) as [t|] eqn:Y; [|reflexivity]. exact (Hw eq_refl t eq_refl). }
  rewrite X. exact P.
Qed.
Lemma cell_steps n s p es p' : steps E n s strict_at p es p' -> forall k es0, es0 <> [] -> length (rem p) < k ->
  exists k', length (rem p') < k' /\ loop k (cell_body n) (es0, []) p s = loop k' (cell_body n) (es0 ++ es, []) p' s.
Proof.
  intro H. induction H as [p|p es p1 es' p2 Hq Hco Hlt H IH]; intros k es0 Hn Hk; [exists k; rewrite app_nil_r; split; [exact Hk|reflexivity]|].
  destruct k as [|k]; [lia|]. cbn [loop]. rewrite (bind_ok _ _ _ _ _ _ _ (cell_plain n s p es0 es p1 Hq (fun _ => Hn) Hco)). cbv iota beta. destruct (IH k (es0 ++ es)) as (k' & H1 & H2).
  - intro X. apply app_eq_nil in X as [X _]. contradiction.
  - lia.
  - exists k'. split; [exact H1|]. rewrite H2, app_assoc. reflexivity.
Qed.
Lemma cell_begin n s p es p' : steps E n s strict_at p es p' -> (exists es1 p1, consume_n E n p s = ROk (PSu es1 [] true) p1 s /\ es1 <> []) -> cur_tok p <> TWhitespace -> p <> p' -> forall k, length (rem p) < k ->
  exists k', length (rem p') < k' /\ loop k (cell_body n) ([], []) p s = loop k' (cell_body n) (es, []) p' s.
Proof.
  intros H (es1 & q1 & Hc & Hn) Hw Hp k Hk. destruct H as [p|p es p1 es' p2 Hq Hco Hlt H]; [congruence|]. rewrite Hc in Hco. injection Hco as -> ->.
  destruct k as [|k]; [lia|]. cbn [loop]. rewrite (bind_ok _ _ _ _ _ _ _ (cell_plain n s p [] es p1 Hq (fun X => False_ind _ (Hw X)) Hc)). cbv iota beta. cbn [app]. apply cell_steps; auto. lia.
Qed.
Lemma steps_front n s p es p' es1 p1 : steps E n s strict_at p es p' -> p <> p' -> consume_n E n p s = ROk (PSu es1 [] true) p1 s -> exists es2, es = es1 ++ es2.
Proof. intros H Hp Hc. destruct H as [p|p es q1 es' p2 Hq Hco Hlt H]; [congruence|]. rewrite Hc in Hco. injection Hco as -> ->. eauto. Qed.
Lemma first_next p sol x cs : option_map t_token (look_ahead 0 (on p sol (x :: cs))) = Some (first cs).
Proof. unfold look_ahead. rewrite on_rem. destruct cs as [|[k z] cs]; reflexivity. Qed.
(** The blanks at both ends of a cell. *)
Lemma blank_front n s p sol cs k : loop (S k) (cell_body n) ([], []) (on p sol (blank_piece :: cs)) s = loop k (cell_body n) ([], []) (on p false cs) s.
Proof. cbn [loop]. unfold cell_body at 1. unfold bind at 1. rewrite bind_gets, on_tok, bind_gets. cbn [BlocksParse.first blank_piece is_column]. rewrite stepu. reflexivity. Qed.
Lemma blank_back n s p sol cs k es : is_column (first cs) = true -> es <> [] -> loop (S k) (cell_body n) (es, []) (on p sol (blank_piece :: cs)) s = loop k (cell_body n) (es, []) (on p false cs) s.
Proof.
  intros Hc Hn. cbn [loop]. unfold cell_body at 1. unfold bind at 1. rewrite bind_gets, on_tok, bind_gets. cbn [BlocksParse.first blank_piece is_column]. destruct es as [|e es]; [congruence|]. cbv iota.
  change (look_ahead 0 (on p sol ((TWhitespace, lit " ") :: cs))) with (look_ahead 0 (on p sol (blank_piece :: cs))). rewrite first_next, Hc. rewrite stepu. reflexivity.
Qed.
Lemma cell_read n s c p sol rest k : good_short (en_entity E) c -> Forall (fun x => inline_height x < n) (said c) -> depth p + n <= MAX_RECURSION_DEPTH -> ends (blank_piece :: said_pieces (said c) ++ rest) -> is_column (first rest) = true ->
  length (blank_piece :: said_pieces (said c) ++ rest) < k ->
  exists k', length rest < k' /\ loop k (cell_body n) ([], []) (on p sol (blank_piece :: said_pieces (said c) ++ rest)) s = loop k' (cell_body n) (flat_map (els E) (said c), []) (on p false rest) s.
Proof.
  intros (_ & [Hf _] & Hnb & Hb & Ha & Hg) Hh Hd He Hc Hk. destruct k as [|k]; [lia|]. rewrite blank_front. cbn [length] in Hk. apply ends_cons in He. unfold said_pieces in *. destruct (said c) as [|x l].
  - exists k. split; [|reflexivity]. cbn [app] in *. lia.
  - set (L := x :: l) in *. rewrite <- app_assoc in *. cbn [app] in *. specialize (Hf x l eq_refl).
    assert (Hs : stops L (blank_piece :: rest)).
    { split; [unfold calm; cbn; intuition discriminate|]. intros y r X Hy. specialize (Hb y r X). destruct y; try discriminate; contradiction. }
    destruct (said_run E s L n p false (blank_piece :: rest) (apart_tidy _ Ha) Hnb Hg Hh Hd He Hs) as [sol' Hst].
    inversion Hg as [|? ? Hx Hgl]; subst. inversion Hh as [|? ? Hhx Hhl]; subst.
    assert (Hcx : calm (first (flat_map inline_pieces l ++ blank_piece :: rest))) by (apply (inlines_calm E); [exact Hgl|apply Hs]).
    assert (Hlo : lone x = true -> first (flat_map inline_pieces l ++ blank_piece :: rest) <> TWhitespace).
    { intro Y. destruct l as [|y l]; [apply (proj2 Hs x []); auto|]. inversion Hgl as [|? ? Hgy _]; subst. cbn [flat_map]. rewrite <- app_assoc. destruct (inline_first E y (flat_map inline_pieces l ++ blank_piece :: rest) Hgy) as [_ X]. intro Z.
      destruct (X Z) as (t & -> & Hfl). apply Hfl. pose proof (tidy_head _ _ _ (apart_tidy _ Ha)) as Ha'. destruct x; try discriminate; exact Ha'. }
    assert (EL : flat_map inline_pieces L ++ blank_piece :: rest = inline_pieces x ++ flat_map inline_pieces l ++ blank_piece :: rest) by (unfold L; cbn [flat_map]; rewrite <- app_assoc; reflexivity).
    assert (Hbeg : exists es1 p1, consume_n E n (on p false (flat_map inline_pieces L ++ blank_piece :: rest)) s = ROk (PSu es1 [] true) p1 s /\ es1 <> []).
    { rewrite EL in *. apply inline_begun; auto; [intros b cs i ->; contradiction|intros ->; apply Hnb; left; reflexivity]. }
    assert (Hw : cur_tok (on p false (flat_map inline_pieces L ++ blank_piece :: rest)) <> TWhitespace).
    { rewrite on_tok, EL. intro X. destruct (inline_first E x (flat_map inline_pieces l ++ blank_piece :: rest) Hx) as [_ Y]. destruct (Y X) as (t & -> & Hfl). apply Hfl. intros d u ->. specialize (Hf d u eq_refl). unfold visible in Hf. cbn. lia. }
    assert (Hp : on p false (flat_map inline_pieces L ++ blank_piece :: rest) <> on p sol' (blank_piece :: rest)) by (intro X; apply Hw; rewrite X; apply on_tok).
    destruct (cell_begin n s _ _ _ Hst Hbeg Hw Hp k) as (k' & H1 & H2); [rewrite on_len; lia|]. rewrite H2. rewrite on_len in H1. cbn [length] in H1. destruct k' as [|k']; [lia|].
    assert (Hne : flat_map (els E) L <> []).
    { destruct Hbeg as (es1 & p1 & Hco & Hn). destruct (steps_front n s _ _ _ _ _ Hst Hp Hco) as [es2 ->]. intro X. apply app_eq_nil in X as [X _]. contradiction. }
    rewrite blank_back by auto. exists k'. split; [lia|reflexivity].
Qed.
(** *** How cells start and end. *)
Definition mark_align (m : mark) : option Tree.alignment := match m with ToLeft => Some AlLeft | ToMiddle => Some AlCenter | ToRight => Some AlRight | _ => None end.
Definition mark_head (m : mark) : bool := match m with Head => true | _ => false end.
Lemma bars_len j m cs : length (repeat bar_piece j ++ mark_piece m :: cs) = j + S (length cs). Proof. rewrite app_length, repeat_length. reflexivity. Qed.
Definition start_body : nat -> M (nat + option (option Tree.alignment * bool * nat)) := fun span =>
    let! t := gets cur_tok in
    let stop align header := step ;; ret (inr (Some (align, header, S span))) in
    match t with
    | TTableColumnTitle => stop None true
    | TTableColumnLeft => stop (Some AlLeft) false
    | TTableColumnCenter => stop (Some AlCenter) false
    | TTableColumnRight => stop (Some AlRight) false
    | TTableColumn => step ;; ret (inl (S span))
    | _ => match span with 0 => ret (inr None) | _ => ret (inr (Some (None, false, span))) end
    end.
Lemma start_bar p sol cs s span k : loop (S k) start_body span (on p sol (bar_piece :: cs)) s = loop k start_body (S span) (on p false cs) s.
Proof. cbn [loop]. unfold start_body at 1. unfold bind at 1. rewrite bind_gets, on_tok. cbn [BlocksParse.first bar_piece]. cbv zeta. rewrite stepu. reflexivity. Qed.
Lemma start_over p sol cs s span k : is_column (first cs) = false -> loop (S k) start_body (S span) (on p sol cs) s = ROk (Some (None, false, S span)) (on p sol cs) s.
Proof. intro Hc. cbn [loop]. unfold start_body at 1. unfold bind at 1. rewrite bind_gets, on_tok. cbv zeta. destruct (first cs); try discriminate Hc; reflexivity. Qed.
Lemma start_mark p sol m cs s span k : m <> Usual -> loop (S k) start_body span (on p sol (mark_piece m :: cs)) s = ROk (Some (mark_align m, mark_head m, S span)) (on p false cs) s.
Proof. intro Hm. destruct m; try congruence; cbn [loop]; unfold start_body at 1; unfold bind at 1; rewrite bind_gets, on_tok; cbn [BlocksParse.first mark_piece mark_align mark_head]; cbv zeta; rewrite stepu; reflexivity. Qed.
Lemma cell_start p s m cs : is_column (first cs) = false -> forall j sol, parse_cell_start (on p sol (repeat bar_piece j ++ mark_piece m :: cs)) s = ROk (Some (mark_align m, mark_head m, S j)) (on p false cs) s.
Proof.
  intros Hc j sol. change parse_cell_start with (looping start_body 0). unfold looping. rewrite on_len, bars_len.
  assert (G : forall j span sol k, S j < k -> loop k start_body span (on p sol (repeat bar_piece j ++ mark_piece m :: cs)) s = ROk (Some (mark_align m, mark_head m, span + S j)) (on p false cs) s).
  { clear j sol. induction j as [|j IH]; intros span sol k Hk; (destruct k as [|k]; [lia|]); cbn [repeat app].
    - replace (span + 1) with (S span) by lia. destruct m; try (apply start_mark; discriminate).
      change (mark_piece Usual) with bar_piece. rewrite start_bar. destruct k as [|k]; [lia|]. apply start_over. exact Hc.
    - rewrite start_bar. rewrite IH by lia. do 3 f_equal. lia. }
  apply (G j 0). lia.
Qed.
Definition short_cell (c : short) : table_cell := TC (mark_head (mark_of c)) (N.of_nat (columns c)) (mark_align (mark_of c)) [] (flat_map (els E) (said c)).
(** A cell that another one follows. *)
Lemma cell_next n s x cs p sol k es : is_column (fst x) = true -> In (first cs) [TWhitespace; TTableColumn; TTableColumnTitle; TTableColumnLeft; TTableColumnCenter; TTableColumnRight] -> loop (S k) (cell_body n) (es, []) (on p sol (x :: cs)) s = ROk (es, [], NextCell) (on p sol (x :: cs)) s.
Proof.
  intros Hx Hc. cbn [loop]. unfold cell_body at 1. unfold bind at 1. rewrite bind_gets, on_tok, bind_gets, first_next. destruct x as [q z]. cbn [BlocksParse.first fst] in *. rewrite Hx. destruct (first cs); cbn in Hc; try (exfalso; intuition discriminate); reflexivity.
Qed.
(** The last cell of a row. *)
Lemma cell_row n s cs p sol k es : loop (S k) (cell_body n) (es, []) (on p sol (bar_piece :: line_piece :: cs)) s = ROk (es, [], NextRow) (on p true cs) s.
Proof.
  cbn [loop]. unfold cell_body at 1. unfold bind at 1. rewrite bind_gets, on_tok, bind_gets, first_next. cbn [BlocksParse.first bar_piece line_piece is_column]. cbn [step_n]. rewrite !bind_assoc. rewrite stepu. rewrite !bind_assoc.
  change ((TLineBreak, [10%N]) :: cs) with (line_piece :: cs). rewrite stepu. reflexivity.
Qed.
Lemma cell_last n s cs p sol k es : In (first cs) [TParagraphBreak; TInputEnd] -> loop (S k) (cell_body n) (es, []) (on p sol (bar_piece :: cs)) s = ROk (es, [], EndTable) (on p false cs) s.
Proof.
  intro H. cbn [loop]. unfold cell_body at 1. unfold bind at 1. rewrite bind_gets, on_tok, bind_gets, first_next. cbn [BlocksParse.first bar_piece is_column]. destruct (first cs); cbn in H; try (exfalso; intuition discriminate);
    (change ((TTableColumn, lit "||") :: cs) with (bar_piece :: cs); rewrite stepu; reflexivity).
Qed.
Lemma short_read n s c p sol rest how p' : good_short (en_entity E) c -> Forall (fun x => inline_height x < n) (said c) -> depth p + n <= MAX_RECURSION_DEPTH -> ends (short_pieces c ++ rest) -> is_column (first rest) = true ->
  (forall k, loop (S k) (cell_body n) (flat_map (els E) (said c), []) (on p false rest) s = ROk (flat_map (els E) (said c), [], how) p' s) -> how <> Invalid ->
  table_one_cell (consume_n E n) (on p sol (short_pieces c ++ rest)) s = ROk ([], Some (short_cell c, how)) p' s.
Proof.
  intros Hg Hh Hd He Hc Hend Hi. unfold short_pieces in *. rewrite <- app_assoc in *. cbn [app] in *. pose proof (cell_start p s (mark_of c) (blank_piece :: said_pieces (said c) ++ rest) eq_refl (columns c - 1) sol) as Hst. set (sol' := false) in Hst at 1.
  unfold table_one_cell. erewrite bind_ok; [|exact Hst]. cbv iota beta. apply ends_app, ends_cons in He.
  assert (X : table_cell_loop (consume_n E n) (on p sol' (blank_piece :: said_pieces (said c) ++ rest)) s = ROk (flat_map (els E) (said c), [], how) p' s).
  { change (table_cell_loop (consume_n E n)) with (looping (cell_body n) ([], [])). unfold looping. rewrite on_len. destruct (cell_read n s c p sol' rest (S (length (blank_piece :: said_pieces (said c) ++ rest))) Hg Hh Hd He Hc ltac:(lia)) as (k' & H1 & H2).
    rewrite H2. destruct k' as [|k']; [lia|]. apply Hend. }
  erewrite bind_ok; [|exact X]. cbv iota beta. unfold short_cell. destruct Hg as [Hcol _]. replace (S (columns c - 1)) with (columns c) by lia. destruct how; try congruence; reflexivity.
Qed.
Lemma short_start c cs : exists x r, short_pieces c ++ cs = x :: r /\ is_column (fst x) = true /\ In (first r) [TWhitespace; TTableColumn; TTableColumnTitle; TTableColumnLeft; TTableColumnCenter; TTableColumnRight].
Proof.
  unfold short_pieces. rewrite <- app_assoc. destruct (columns c - 1) as [|k]; cbn [repeat app].
  - exists (mark_piece (mark_of c)). eexists. split; [reflexivity|]. split; [destruct (mark_of c); reflexivity|]. cbn. tauto.
  - exists bar_piece. eexists. split; [reflexivity|]. split; [reflexivity|]. destruct k as [|k]; cbn [repeat app]; [destruct (mark_of c)|]; cbn; tauto.
Qed.
(** *** Rows. *)
Definition row_body (n : nat) : list table_cell * list perr -> M ((list table_cell * list perr) + (list perr * option (table_row * bool))) :=
  fun '(cells, errs) =>
    let! (errs', r) := table_one_cell (consume_n E n) in
    let errs := errs ++ errs' in
    match r with
    | None => ret (inr (errs, None))
    | Some (cell, how) =>
        let cells := cells ++ [cell] in
        match how with
        | NextCell => ret (inl (cells, errs))
        | NextRow => ret (inr (errs, Some (TR [] cells, false)))
        | _ => ret (inr (errs, Some (TR [] cells, true)))
        end
    end.
Definition short_height (n : nat) (c : short) : Prop := Forall (fun x => inline_height x < n) (said c).
Lemma row_loop n s how fin p rest p' : (forall es k sol, loop (S k) (cell_body n) (es, []) (on p sol (bar_piece :: rest)) s = ROk (es, [], how) p' s) -> (how = NextRow /\ fin = false \/ how = EndTable /\ fin = true) ->
  forall r, r <> [] -> Forall (good_short (en_entity E)) r -> Forall (short_height n) r -> depth p + n <= MAX_RECURSION_DEPTH -> forall k sol done, ends (bars_pieces r ++ rest) -> length r < k ->
  loop k (row_body n) (done, []) (on p sol (bars_pieces r ++ rest)) s = ROk ([], Some (TR [] (done ++ map short_cell r), fin)) p' s.
Proof.
  intros Hend Hhow. induction r as [|c r IH]; intros Hn Hg Hh Hd k sol done He Hk; [congruence|]. inversion Hg as [|? ? Hgc Hgr]; subst. inversion Hh as [|? ? Hhc Hhr]; subst. destruct k as [|k]; [lia|].
  assert (EB : bars_pieces (c :: r) ++ rest = short_pieces c ++ bars_pieces r ++ rest) by (unfold bars_pieces; cbn [flat_map]; rewrite <- !app_assoc; reflexivity). rewrite EB in *.
  destruct r as [|c2 r].
  - assert (X : table_one_cell (consume_n E n) (on p sol (short_pieces c ++ bars_pieces [] ++ rest)) s = ROk ([], Some (short_cell c, how)) p' s).
    { apply short_read; auto. destruct Hhow as [[-> _]|[-> _]]; discriminate. }
    cbn [loop]. unfold row_body at 1. unfold bind at 1. erewrite bind_ok; [|exact X]. cbv iota beta zeta. destruct Hhow as [[-> ->]|[-> ->]]; reflexivity.
  - assert (X : exists sol', table_one_cell (consume_n E n) (on p sol (short_pieces c ++ bars_pieces (c2 :: r) ++ rest)) s = ROk ([], Some (short_cell c, NextCell)) (on p sol' (bars_pieces (c2 :: r) ++ rest)) s).
    { exists false. assert (EB2 : bars_pieces (c2 :: r) ++ rest = short_pieces c2 ++ bars_pieces r ++ rest) by (unfold bars_pieces; cbn [flat_map]; rewrite <- !app_assoc; reflexivity).
      destruct (short_start c2 (bars_pieces r ++ rest)) as (x & q & Y & Y1 & Y2). rewrite EB2, Y in *. apply short_read; auto; [|discriminate]. intro k'. apply cell_next; auto. }
    destruct X as [sol' X]. cbn [loop]. unfold row_body at 1. unfold bind at 1. erewrite bind_ok; [|exact X]. cbv iota beta zeta. unfold ret at 1. cbv iota beta. cbn [app].
    rewrite (IH ltac:(discriminate) Hgr Hhr Hd k sol' (done ++ [short_cell c])); [rewrite <- app_assoc; reflexivity|eapply ends_app; exact He|cbn [length] in Hk |- *; lia].
Qed.
(** *** Whole tables. *)
Definition bars_el (rows : list (list short)) : Tree.element := ETable [(lit "class", lit "wj-table")] (map (fun r => TR [] (map short_cell r)) rows).
Definition table_body (n : nat) : list table_row * list perr -> M ((list table_row * list perr) + (list table_row * list perr)) :=
  fun '(rows, errs) =>
    let! (errs', r) := table_one_row (consume_n E n) in
    let errs := errs ++ errs' in
    match r with
    | None => match rows with [] => fail RuleFailed | _ => ret (inr (rows, errs)) end
    | Some (row, true) => ret (inr (rows ++ [row], errs))
    | Some (row, false) => ret (inl (rows ++ [row], errs))
    end.
Definition good_row (n : nat) (r : list short) : Prop := (r <> [] /\ Forall (good_short (en_entity E)) r) /\ Forall (short_height n) r.
Lemma row_long r cs : length r < S (length (bars_pieces r ++ cs)).
Proof.
  assert (X : length r <= length (flat_map short_pieces r)).
  { induction r as [|c r IH]; [cbn; lia|]. cbn [flat_map length]. rewrite app_length. unfold short_pieces at 1. rewrite app_length. cbn [length]. lia. }
  unfold bars_pieces. rewrite !app_length. lia.
Qed.
Lemma row_read n s how fin p rest p' r sol : (forall es k sol, loop (S k) (cell_body n) (es, []) (on p sol (bar_piece :: rest)) s = ROk (es, [], how) p' s) -> (how = NextRow /\ fin = false \/ how = EndTable /\ fin = true) ->
  good_row n r -> depth p + n <= MAX_RECURSION_DEPTH -> ends (bars_pieces r ++ rest) ->
  table_one_row (consume_n E n) (on p sol (bars_pieces r ++ rest)) s = ROk ([], Some (TR [] (map short_cell r), fin)) p' s.
Proof.
  intros Hend Hhow [[Hn Hg] Hh] Hd He. change (table_one_row (consume_n E n)) with (looping (row_body n) ([], [])). unfold looping. rewrite on_len.
  apply (row_loop n s how fin p rest p' Hend Hhow r Hn Hg Hh Hd); [exact He|apply row_long].
Qed.
(** What follows the last row. *)
Lemma row_final n s p r sol rest k done : line_end rest -> good_row n r -> depth p + n <= MAX_RECURSION_DEPTH -> ends (bars_pieces r ++ rest) ->
  loop (S (S k)) (table_body n) (done, []) (on p sol (bars_pieces r ++ rest)) s = ROk (done ++ [TR [] (map short_cell r)], []) (on p (eaten rest) (uneaten rest)) s.
Proof.
  intros Hl Hr Hd He. destruct Hl as [Hl|(q & -> & Hq)].
  - assert (X : table_one_row (consume_n E n) (on p sol (bars_pieces r ++ rest)) s = ROk ([], Some (TR [] (map short_cell r), true)) (on p false rest) s).
    { apply row_read with (how := EndTable); auto. intros es k' sol'. apply cell_last. exact Hl. }
    cbn [loop]. unfold table_body at 1. unfold bind at 1. erewrite bind_ok; [|exact X]. cbv beta iota zeta.
    replace (eaten rest) with false by (destruct rest as [|[t z] rest]; [reflexivity|]; cbn [BlocksParse.first] in Hl; destruct Hl as [<-|[<-|[]]]; reflexivity).
    unfold uneaten. replace (eaten rest) with false by (destruct rest as [|[t z] rest]; [reflexivity|]; cbn [BlocksParse.first] in Hl; destruct Hl as [<-|[<-|[]]]; reflexivity). reflexivity.
  - assert (X : table_one_row (consume_n E n) (on p sol (bars_pieces r ++ line_piece :: q)) s = ROk ([], Some (TR [] (map short_cell r), false)) (on p true q) s).
    { apply row_read with (how := NextRow); auto. intros es k' sol'. apply cell_row. }
    assert (Y : table_one_row (consume_n E n) (on p true q) s = ROk ([], None) (on p true q) s).
    { change (table_one_row (consume_n E n)) with (looping (row_body n) ([], [])). unfold looping. cbn [loop]. unfold row_body at 1. unfold bind at 1.
      assert (Z : table_one_cell (consume_n E n) (on p true q) s = ROk ([], None) (on p true q) s).
      { unfold table_one_cell. assert (W : parse_cell_start (on p true q) s = ROk None (on p true q) s).
        { change parse_cell_start with (looping start_body 0). unfold looping. cbn [loop]. unfold start_body at 1. unfold bind at 1. rewrite bind_gets, on_tok, Hq. reflexivity. }
        rewrite (bind_ok _ _ _ _ _ _ _ W). reflexivity. }
      rewrite (bind_ok _ _ _ _ _ _ _ Z). reflexivity. }
    remember (S k) as k1 eqn:Ek. cbn [loop]. unfold table_body at 1. unfold bind at 1. erewrite bind_ok; [|exact X]. cbv beta iota zeta. unfold ret at 1. cbv iota beta. subst k1.
    cbn [loop]. unfold table_body at 1. unfold bind at 1. erewrite bind_ok; [|exact Y]. cbv beta iota zeta. cbn [app]. destruct (done ++ [TR [] (map short_cell r)]) as [|a l] eqn:Z; [destruct done; discriminate|]. reflexivity.
Qed.
Definition more_rows (rows : list (list short)) : list piece := flat_map (fun r => line_piece :: bars_pieces r) rows.
Lemma rows_read n s p rest : line_end rest -> depth p + n <= MAX_RECURSION_DEPTH -> forall rows r sol k done, Forall (good_row n) (r :: rows) -> ends (bars_pieces r ++ more_rows rows ++ rest) -> S (length rows) < k ->
  loop k (table_body n) (done, []) (on p sol (bars_pieces r ++ more_rows rows ++ rest)) s = ROk (done ++ map (fun r => TR [] (map short_cell r)) (r :: rows), []) (on p (eaten rest) (uneaten rest)) s.
Proof.
  intros Hl Hd. induction rows as [|r2 rows IH]; intros r sol k done Hg He Hk; inversion Hg as [|? ? Hr Hrs]; subst.
  - destruct k as [|[|k]]; [cbn in Hk; lia..|]. unfold more_rows in *. cbn [flat_map app] in *. apply row_final; auto.
  - destruct k as [|k]; [lia|]. assert (EM : more_rows (r2 :: rows) ++ rest = line_piece :: bars_pieces r2 ++ more_rows rows ++ rest) by (unfold more_rows; cbn [flat_map app]; rewrite <- app_assoc; reflexivity). rewrite EM in *.
    assert (X : table_one_row (consume_n E n) (on p sol (bars_pieces r ++ line_piece :: bars_pieces r2 ++ more_rows rows ++ rest)) s = ROk ([], Some (TR [] (map short_cell r), false)) (on p true (bars_pieces r2 ++ more_rows rows ++ rest)) s).
    { apply row_read with (how := NextRow); auto. intros es k' sol'. apply cell_row. }
    cbn [loop]. unfold table_body at 1. unfold bind at 1. erewrite bind_ok; [|exact X]. cbv beta iota zeta. unfold ret at 1. cbv iota beta. cbn [app].
    rewrite IH; [|exact Hrs|apply ends_app in He; apply ends_cons in He; exact He|cbn [length] in Hk; lia]. cbn [map]. rewrite <- app_assoc. reflexivity.
Qed.
Lemma below_highest {A} (f : A -> nat) l n : highest f l < n -> Forall (fun x => f x < n) l.
Proof. intro H. unfold highest in H. induction l as [|x l IH]; constructor; cbn [fold_right] in H; [lia|apply IH; lia]. Qed.
Lemma rows_good n rows : good_block (en_entity E) (Bars rows) -> block_height (Bars rows) < S n -> Forall (good_row n) rows.
Proof.
  intros [_ Hg] Hh. cbn [block_height] in Hh. assert (H : highest (highest (fun c => highest inline_height (said c))) rows < n) by lia.
  apply below_highest in H. rewrite Forall_forall in *. intros r Hr. split; [exact (Hg r Hr)|]. specialize (H r Hr). apply below_highest in H. eapply Forall_impl; [|exact H]. intros c Hc. apply below_highest. exact Hc.
Qed.
Lemma bars_start r cs : r <> [] -> In (first (bars_pieces r ++ cs)) [TTableColumn; TTableColumnTitle; TTableColumnLeft; TTableColumnCenter; TTableColumnRight].
Proof.
  intro Hr. destruct r as [|c r]; [congruence|]. unfold bars_pieces. cbn [flat_map]. rewrite <- !app_assoc. destruct (short_start c (flat_map short_pieces r ++ [bar_piece] ++ cs)) as (x & q & -> & H & _). destruct x as [k z]. cbn [fst BlocksParse.first] in *. destruct k; try discriminate; cbn; tauto.
Qed.
Lemma more_long rows cs : length rows <= length (more_rows rows ++ cs).
Proof. induction rows as [|r rows IH]; [cbn; lia|]. unfold more_rows in *. cbn [flat_map app length]. rewrite <- app_assoc. rewrite app_length. lia. Qed.
Lemma table_consume n rows p rest s : good_block (en_entity E) (Bars rows) -> block_height (Bars rows) < S n -> depth p + S n <= MAX_RECURSION_DEPTH -> line_end rest -> ends (block_pieces (Bars rows) ++ rest) ->
  consume_n E (S n) (on p true (block_pieces (Bars rows) ++ rest)) s = ROk (PSu [bars_el rows] [] false) (on p (eaten rest) (uneaten rest)) s.
Proof.
  intros Hg Hh Hd Hl He. pose proof (rows_good n rows Hg Hh) as Hrows. destruct Hg as [Hne Hg]. destruct rows as [|r rows]; [congruence|].
  assert (EB : block_pieces (Bars (r :: rows)) ++ rest = bars_pieces r ++ more_rows rows ++ rest) by (cbn [block_pieces]; rewrite <- app_assoc; reflexivity). rewrite EB in *.
  inversion Hrows as [|? ? [[Hr _] _] _]; subst.
  assert (Hlen : length (uneaten rest) < length (bars_pieces r ++ more_rows rows ++ rest)) by (pose proof (uneaten_len rest); unfold bars_pieces; rewrite !app_length; cbn [length]; lia).
  assert (Hrun : forall q sol, depth q + n <= MAX_RECURSION_DEPTH -> rule_table (consume_n E n) (on q sol (bars_pieces r ++ more_rows rows ++ rest)) s = ROk (PSu [bars_el (r :: rows)] [] false) (on q (eaten rest) (uneaten rest)) s).
  { intros q sol Hq. unfold rule_table.
    assert (X : looping (table_body n) ([], []) (on q sol (bars_pieces r ++ more_rows rows ++ rest)) s = ROk (map (fun r => TR [] (map short_cell r)) (r :: rows), []) (on q (eaten rest) (uneaten rest)) s).
    { unfold looping. rewrite on_len. rewrite (rows_read n s q rest Hl Hq rows r sol _ [] Hrows He); [reflexivity|].
      pose proof (more_long rows rest). assert (1 <= length (bars_pieces r)) by (unfold bars_pieces; rewrite app_length; cbn; lia). rewrite app_length. lia. }
    unfold table_body in X. rewrite (bind_ok _ _ _ _ _ _ _ X). cbv beta iota zeta. reflexivity. }
  pose proof (bars_start r (more_rows rows ++ rest) Hr) as Hb. revert Hrun Hlen Hb. generalize (bars_pieces r ++ more_rows rows ++ rest). intros cs Hrun Hlen Hb. destruct cs as [|x cs]; [exfalso; cbn in Hb; intuition discriminate|].
  eapply line_consume with (name := "table"%string) (r := "table"%string) (more := []); [lia| | |intro q; reflexivity|].
  - destruct x as [k z]. cbn [BlocksParse.first fst] in *. cbn in Hb. destruct Hb as [<-|[<-|[<-|[<-|[<-|[]]]]]]; reflexivity.
  - apply Hrun. cbn. lia.
  - cbn [length] in Hlen. lia.
Qed.
End Lines.
