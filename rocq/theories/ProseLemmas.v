(** ProseLemmas.v -- what the parser does on tokens that stand for themselves. *)
From Verif Require Import Base BaseLemmas Strings Links Attr Lexer SpecLexer LexerLemmas Depth Tree Text Toc PState Blocks Rules Parse SpecParse SpecPage ParseInv.

Definition adv (p : pstate) (t : xtoken) (r : list xtoken) : pstate :=
  PST t r (rule_ p) (depth p) (accepts_partial p) (in_footnote p) (has_footnote_block p) (line_start_token (cur_tok p)).
(** What follows a token is [k]. *)
Definition kind_at (l : list xtoken) (n : nat) : option token := option_map t_token (nth_error l n).
Definition breaks (k : option token) : bool := match k with Some TLineBreak | Some TParagraphBreak => true | _ => false end.
(** A token that stands for itself, given whether it starts a line and what follows. *)
Definition plain_at (sol : bool) (t : xtoken) (r : list xtoken) : Prop :=
  match t_token t with
  | TIdentifier | TString | TOther | TPipe | TRightBracket => True
  | TLeftBlockEnd | TRightBlock | TRightMath | TRightMonospace | TRightRaw | TRightLink | TRightComment => True
  | TColon | TEquals | THeading | TBulletItem | TNumberedItem => sol = false
  | TQuote => sol = false /\ t_slice t <> lit ">>"
  | TUnderscore => breaks (kind_at r 0) = false
  | TWhitespace => (kind_at r 0 = Some TUnderscore -> breaks (kind_at r 1) = false) /\
      (sol = true -> kind_at r 0 <> Some TBulletItem /\ kind_at r 0 <> Some TNumberedItem)
  | _ => False
  end.
Definition plain_errors (t : xtoken) : list perr :=
  match t_token t with
  | TLeftBlockEnd | TRightBlock | TRightMath | TRightMonospace | TRightRaw | TRightLink | TRightComment =>
      [perr_new NoRulesMatch "fallback" t]
  | _ => []
  end.

Section Plain.
Variable E : env.
Lemma run_step p s t r : rem p = t :: r -> step p s = ROk t (adv p t r) s.
Proof. intro H. unfold step. rewrite H. reflexivity. Qed.
(** A rule that fails leaves everything as it was. *)
Definition fails (r : rule_def) (p : pstate) (s : shared) : Prop := exists e, try_consume r p s = RErr e p s.
Lemma skip_rule r rs errs p s : fails r p s -> exists errs', consume_rules (r :: rs) errs p s = consume_rules rs errs' p s.
Proof. intros [e He]. exists (errs ++ [e]). cbn [consume_rules]. unfold bind, gets, attempt. rewrite He. reflexivity. Qed.
Lemma not_start r p s : rd_position r = StartOfLine -> start_of_line p = false -> fails r p s.
Proof. intros H H'. unfold fails, try_consume. rewrite H, H'. eexists. reflexivity. Qed.
Lemma rule_fails r p s : (exists e q, rd_fn r (with_rule (rd_name r) p) s = RErr e q s) -> fails r p s.
Proof.
  intros (e & q & H). unfold fails, try_consume. destruct (rd_position r), (start_of_line p); cbn [negb]; try rewrite H; eexists; reflexivity.
Qed.
Lemma text_rule errs c t r ru d a f h sol s : 
  consume_rules [R_text] errs (PST c (t :: r) ru (S d) a f h sol) s =
  ROk (inl (PSu [EText (t_slice c)] [] true)) (PST t r ru d a f h (line_start_token (t_token c))) s.
Proof.
  cbn [consume_rules]. unfold bind, gets, attempt, try_consume, R_text. cbn [rd_position rd_fn rd_name].
  unfold rule_text, bind, gets, with_rule, ok_derived, or_panic. cbn [cur rem all_paragraph_safe paragraph_safe su_item check_partials].
  unfold update, step_if_same, bind, gets, same_pointer. cbn. rewrite Nat.eqb_refl. cbn. rewrite Nat.sub_0_r. reflexivity.
Qed.
Lemma text_after rs errs c t r ru d a f h sol s : Forall (fun x => fails x (PST c (t :: r) ru (S d) a f h sol) s) rs ->
  consume_rules (rs ++ [R_text]) errs (PST c (t :: r) ru (S d) a f h sol) s =
  ROk (inl (PSu [EText (t_slice c)] [] true)) (PST t r ru d a f h (line_start_token (t_token c))) s.
Proof.
  intro H. revert errs. induction H as [|x rs Hx _ IH]; intro errs; [apply text_rule|].
  cbn [app]. destruct (skip_rule x (rs ++ [R_text]) errs _ _ Hx) as [errs' ->]. apply IH.
Qed.
Lemma consume_S n p s : depth p < MAX_RECURSION_DEPTH -> consume_n E (S n) p s =
  match consume_rules (rules_for E (consume_n E n) (cur_tok p)) [] (with_depth (S (depth p)) p) s with
  | ROk (inl out) q s' => ROk out q s'
  | ROk (inr errs) q s' => (step ;;
      match rev errs with
      | e :: _ => if kind_eqb (pe_kind e) RecursionDepthExceeded then raise e else ret tt
      | [] => ret tt
      end ;;
      depth_decrement ;;
      ok_derived [EText (t_slice (cur p))] (errs ++ [perr_new NoRulesMatch "fallback" (cur p)])) q s'
  | RErr e q s' => RErr e q s'
  | RPanic w => RPanic w
  | RFuel => RFuel
  end.
Proof.
  intro H. cbn [consume_n]. unfold consume_with. unfold bind at 1. unfold depth_increment, bind, modify, gets. cbn [depth with_depth].
  rewrite Nat.add_1_r. destruct (MAX_RECURSION_DEPTH <? S (depth p)) eqn:El; [apply Nat.ltb_lt in El; lia|]. unfold ret.
  unfold cur_tok. cbn [cur with_depth].
  destruct (consume_rules _ _ _ s) as [[out|errs] q s'| | |]; reflexivity.
Qed.
Definition pushed (p : pstate) : pstate := with_depth (S (depth p)) p.
Lemma text_consume n rs p s t r : depth p < MAX_RECURSION_DEPTH -> rem p = t :: r ->
  rules_for E (consume_n E n) (cur_tok p) = rs ++ [R_text] -> Forall (fun x => fails x (pushed p) s) rs ->
  consume_n E (S n) p s = ROk (PSu [EText (t_slice (cur p))] [] true) (adv p t r) s.
Proof.
  intros Hd Hr Hf Hx. rewrite consume_S by auto. destruct p as [c rm ru d a f h sol]. cbn [rem] in Hr. subst rm. unfold cur_tok in *. cbn [cur] in *.
  rewrite Hf. unfold pushed in Hx. unfold with_depth in *. cbn [cur rem rule_ depth accepts_partial in_footnote has_footnote_block start_of_line] in *.
  rewrite (text_after rs [] c t r ru d a f h sol s Hx). reflexivity.
Qed.
Lemma fallback_consume n p s t r : depth p < MAX_RECURSION_DEPTH -> rem p = t :: r ->
  rules_for E (consume_n E n) (cur_tok p) = [] ->
  consume_n E (S n) p s = ROk (PSu [EText (t_slice (cur p))] [perr_new NoRulesMatch "fallback" (cur p)] true) (adv p t r) s.
Proof.
  intros Hd Hr Hf. rewrite consume_S by auto. rewrite Hf. cbn [consume_rules]. unfold ret at 1. cbn [rev app].
  unfold bind. rewrite (run_step _ _ t r) by exact Hr. unfold ret, depth_decrement, modify, ok_derived, or_panic, bind.
  cbn [all_paragraph_safe paragraph_safe]. unfold ret. f_equal. destruct p; cbn in *. rewrite Nat.sub_0_r. reflexivity.
Qed.
Lemma tok_eqb_true a b : tok_eqb a b = true <-> a = b.
Proof. unfold tok_eqb. destruct (token_eq_dec a b); split; congruence. Qed.
Lemma usl_fails p s : (cur_tok p = TWhitespace -> kind_at (rem p) 0 = Some TUnderscore -> breaks (kind_at (rem p) 1) = false) ->
  (cur_tok p = TUnderscore -> breaks (kind_at (rem p) 0) = false) -> fails R_usl p s.
Proof.
  intros H H'. apply rule_fails. destruct p as [c rm ru d a f h sol]. unfold cur_tok, kind_at in *. cbn [cur rem] in *.
  cbn [R_usl rd_fn rd_name]. unfold rule_underscore_line_break, with_rule, bind, gets, is_tok, next_is, look_ahead, cur_tok.
  cbn [cur rem rule_ depth accepts_partial in_footnote has_footnote_block start_of_line].
  destruct (tok_eqb (t_token c) TWhitespace) eqn:Ew.
  - apply tok_eqb_true in Ew. specialize (H Ew). rewrite Ew. destruct rm as [|u r]; [eexists; eexists; reflexivity|].
    cbn [nth_error option_map] in H |- *. destruct (tok_eqb (t_token u) TUnderscore) eqn:Eu.
    + apply tok_eqb_true in Eu. rewrite Eu in H. specialize (H eq_refl). cbn [andb]. unfold step. cbn [cur rem rule_ depth accepts_partial in_footnote has_footnote_block start_of_line]. unfold ret. cbn [cur rem].
      rewrite Eu. destruct r as [|v r]; [eexists; eexists; reflexivity|]. cbn [nth_error option_map breaks] in H |- *.
      destruct (t_token v); try discriminate; eexists; eexists; reflexivity.
    + eexists; eexists; reflexivity.
  - cbn [andb]. destruct (tok_eqb (t_token c) TUnderscore) eqn:Eu; [|eexists; eexists; reflexivity].
    apply tok_eqb_true in Eu. specialize (H' Eu). destruct rm as [|u r]; [eexists; eexists; reflexivity|]. cbn [nth_error option_map breaks andb] in H' |- *.
    destruct sol; [|eexists; eexists; reflexivity]. unfold ret. cbn [cur rem nth_error]. rewrite Eu.
    destruct (t_token u); try discriminate; eexists; eexists; reflexivity.
Qed.
Lemma list_fails_ws con p s t r : cur_tok p = TWhitespace -> rem p = t :: r -> t_token t <> TBulletItem -> t_token t <> TNumberedItem ->
  fails (R_list con) p s.
Proof.
  intros Hc Hr H1 H2. apply rule_fails. destruct p as [c rm ru d a f h sol]. unfold cur_tok, kind_at in *. cbn [cur rem] in *. subst rm.
  cbn [R_list rd_fn rd_name]. unfold rule_list, with_rule, looping. cbn [cur rem rule_ depth accepts_partial in_footnote has_footnote_block start_of_line].
  cbn [loop]. unfold bind, gets. cbn [cur]. rewrite Hc. unfold step. cbn [cur rem rule_ depth accepts_partial in_footnote has_footnote_block start_of_line]. unfold ret.
  destruct (MAX_LIST_DEPTH <? _); [eexists; eexists; reflexivity|]. unfold cur_tok. cbn [cur].
  destruct (t_token t) eqn:Et; try congruence; cbn [get_list_type]; eexists; eexists; reflexivity.
Qed.
Lemma angle_fails p s : cur_tok p = TQuote -> t_slice (cur p) <> lit ">>" -> fails R_double_angle p s.
Proof.
  intros Hc Hs. apply rule_fails. cbn [R_double_angle rd_fn rd_name]. unfold rule_double_angle, bind, gets. unfold cur_tok in Hc. cbn [with_rule cur]. rewrite Hc.
  destruct (seqb (t_slice (cur p)) (lit ">>")) eqn:Eq; [apply seqb_eq in Eq; contradiction|]. eexists; eexists; reflexivity.
Qed.
(** A plain token becomes its text. *)
Lemma plain_consume n p s t r : depth p < MAX_RECURSION_DEPTH -> rem p = t :: r -> plain_at (start_of_line p) (cur p) (rem p) ->
  consume_n E (S n) p s = ROk (PSu [EText (t_slice (cur p))] (plain_errors (cur p)) true) (adv p t r) s.
Proof.
  intros Hd Hr Hp. unfold plain_at in Hp. unfold plain_errors.
  assert (Hb : forall k, cur_tok p = k -> t_token (cur p) = k) by auto.
  destruct (t_token (cur p)) eqn:Ek; try contradiction;
    try (apply fallback_consume; auto; unfold cur_tok; rewrite Ek; reflexivity);
    try (eapply (text_consume n []); eauto; unfold cur_tok; rewrite Ek; reflexivity);
    try (eapply (text_consume n [_]); eauto; [unfold cur_tok; rewrite Ek; reflexivity|]; repeat constructor; apply not_start; auto; fail).
  - eapply (text_consume n [_]); eauto; [unfold cur_tok; rewrite Ek; reflexivity|]. repeat constructor. apply usl_fails; unfold pushed, cur_tok; cbn [with_depth cur rem]; auto. congruence.
  - destruct Hp as [Hp1 Hp2]. eapply (text_consume n [_; _]); eauto; [unfold cur_tok; rewrite Ek; reflexivity|]. constructor; [apply not_start; auto|].
    constructor; auto. apply angle_fails; auto.
  - destruct Hp as [Hp1 Hp2]. eapply (text_consume n [_; _]); eauto; [unfold cur_tok; rewrite Ek; reflexivity|].
    constructor; [apply usl_fails; unfold pushed, cur_tok; cbn [with_depth cur rem]; auto; congruence|]. constructor; auto.
    destruct (start_of_line p) eqn:Es; [|apply not_start; auto]. specialize (Hp2 eq_refl). rewrite Hr in Hp2. unfold kind_at in Hp2. cbn in Hp2.
    destruct Hp2 as [Hp2 Hp3]. eapply list_fails_ws; unfold pushed; cbn [with_depth rem]; eauto; congruence.
Qed.
(** A line break is dropped before anything that starts a block of its own, otherwise kept. *)
Definition starter (k : token) : bool :=
  match k with
  | TQuote | TBulletItem | TNumberedItem | THeading | TEquals | TTripleDash | TClearFloatLeft | TClearFloatRight | TClearFloatBoth
  | TTableColumn | TTableColumnLeft | TTableColumnRight | TTableColumnCenter | TTableColumnTitle => true
  | _ => false
  end.
Definition line_goes_on (r : list xtoken) : Prop :=
  match r with
  | t :: r' => (match t_token t with TLeftBlock | TLeftBlockStar | TColon => False | _ => True end) /\
      starter (t_token t) = false /\
      (t_token t = TWhitespace -> match r' with u :: _ => starter (t_token u) = false | [] => True end)
  | [] => False
  end.
Lemma not_panic_bool {A} (b : bool) (x y : A) : (if b then x else y) = x \/ (if b then x else y) = y. Proof. destruct b; auto. Qed.
Lemma break_consume n p s t r : depth p < MAX_RECURSION_DEPTH -> rem p = t :: r -> cur_tok p = TLineBreak -> line_goes_on (rem p) ->
  consume_n E (S n) p s = ROk (PSu [ELineBreak] [] true) (adv p t r) s.
Proof.
  intros Hd Hr Hc Hl. rewrite Hr in Hl. destruct Hl as (H1 & H2 & H3). rewrite consume_S by auto. rewrite Hc.
  cbn [rules_for]. destruct p as [c rm ru d a f h sol]. unfold cur_tok, kind_at in *. cbn [cur rem] in *. subst rm.
  unfold with_depth. cbn [cur rem rule_ depth accepts_partial in_footnote has_footnote_block start_of_line].
  set (p := PST c (t :: r) ru (S d) a f h sol).
  assert (F1 : forall con, fails (RULE "block-skip" AnyPosition (block_skip E con)) p s).
  { intro con. apply rule_fails. cbn [rd_fn rd_name]. unfold block_skip, bind, p, step, with_rule, evaluate_fn. cbn [rem cur rule_ depth accepts_partial in_footnote has_footnote_block start_of_line].
    destruct (t_token t); try contradiction; eexists; eexists; reflexivity. }
  assert (F2 : fails (RULE "definition-list-skip-newline" AnyPosition rule_def_skip) p s).
  { apply rule_fails. cbn [rd_fn rd_name]. unfold rule_def_skip, bind, p, gets, is_tok, next_is, look_ahead, cur_tok, with_rule. cbn [cur rem nth_error]. rewrite Hc.
    destruct (t_token t); try contradiction; eexists; eexists; reflexivity. }
  match goal with |- context [consume_rules (?a :: ?b :: ?l) [] p s] => destruct (skip_rule a (b :: l) [] p s (F1 _)) as [e1 ->]; destruct (skip_rule b l e1 p s F2) as [e2 ->] end.
  assert (Hs : evaluate_fn (step ;; get_optional_space ;;
    gets (is_any [TQuote; TBulletItem; TNumberedItem; THeading; TEquals; TTripleDash; TClearFloatLeft;
                  TClearFloatRight; TClearFloatBoth; TTableColumn; TTableColumnLeft; TTableColumnRight;
                  TTableColumnCenter; TTableColumnTitle])) (with_rule "line-break" p) s = ROk false (with_rule "line-break" p) s).
  { unfold evaluate_fn, bind, p, with_rule, step. cbn [cur rem rule_ depth accepts_partial in_footnote has_footnote_block start_of_line].
    unfold get_optional_space, get_optional_token, bind, gets, is_tok, cur_tok. cbn [cur].
    destruct (tok_eqb (t_token t) TWhitespace) eqn:Ew.
    - apply tok_eqb_true in Ew. specialize (H3 Ew). unfold step. cbn [rem]. destruct r as [|u r']; [reflexivity|]. unfold ret, is_any, cur_tok. cbn [cur].
      destruct (t_token u); try discriminate; reflexivity.
    - unfold ret, is_any, cur_tok. cbn [cur]. destruct (t_token t); try discriminate; reflexivity. }
  cbn [consume_rules]. unfold bind at 1 2. unfold gets at 1, attempt, try_consume. cbn [rd_position rd_fn rd_name]. unfold rule_line_break. unfold bind at 1.
  rewrite Hs. unfold ok_derived, or_panic, bind, ret. cbn [all_paragraph_safe paragraph_safe check_partials su_item].
  unfold update, step_if_same, bind, gets, same_pointer, p. cbn. rewrite Nat.eqb_refl. cbn. rewrite Nat.sub_0_r. reflexivity.
Qed.
Lemma start_consume n p s t r : depth p < MAX_RECURSION_DEPTH -> rem p = t :: r -> cur_tok p = TInputStart ->
  consume_n E (S n) p s = ROk (PSu [] [] true) (adv p t r) s.
Proof.
  intros Hd Hr Hc. rewrite consume_S by auto. rewrite Hc. destruct p as [c rm ru d a f h sol]. unfold cur_tok in *. cbn [cur rem] in *. subst rm.
  cbn [rules_for consume_rules]. unfold bind, gets, attempt, try_consume, R_null. cbn [rd_position rd_fn rd_name].
  unfold rule_null, bind, gets, with_rule, ok_derived, or_panic. cbn [cur rem all_paragraph_safe paragraph_safe su_item check_partials].
  unfold update, step_if_same, bind, gets, same_pointer. cbn. rewrite Nat.eqb_refl. cbn. rewrite Nat.sub_0_r. reflexivity.
Qed.
End Plain.
