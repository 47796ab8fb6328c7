(** BlocksParse.v -- what the parser makes of the pages of SpecBlocks.v. *)
From Verif Require LinksLemmas.
From Verif Require Import Base BaseLemmas Strings StringsLemmas SpecStrings Links Attr Lexer SpecLexer LexerLemmas Depth Tree Text Toc PState Blocks Rules Parse SpecParse SpecPage ParseInv
  ProseLemmas WritingParse WritingBlocks VerbatimLex BlocksLex.
From Verif Require Import SpecBlocks.

Section Where.
Variable E : env.
(** The tokens of what is left of the page, the last pieces of the text. *)
Definition total : nat := blen (en_text E).
Definition pos_of (cs : list piece) : nat := total - blen (flat cs).
Fixpoint toks (cs : list piece) : list xtoken :=
  match cs with [] => [XT TInputEnd [] total total] | (k, z) :: cs' => XT k z (pos_of cs) (pos_of cs') :: toks cs' end.
Definition ends (cs : list piece) : Prop := exists pre, en_text E = pre ++ flat cs.
Definition on (p : pstate) (sol : bool) (cs : list piece) : pstate := at_ p sol (toks cs).
Definition first (cs : list piece) : token := match cs with [] => TInputEnd | (k, _) :: _ => k end.
Lemma toks_ne cs : toks cs <> []. Proof. destruct cs as [|[k z] cs]; discriminate. Qed.
Lemma toks_len cs : length (toks cs) = S (length cs). Proof. induction cs as [|[k z] cs IH]; auto. cbn [toks length]. auto. Qed.
Lemma on_rem p sol x cs : rem (on p sol (x :: cs)) = toks cs. Proof. destruct x. reflexivity. Qed.
Lemma on_len p sol cs : length (rem (on p sol cs)) = length cs. Proof. destruct cs as [|[k z] cs]; auto. cbn. apply toks_len. Qed.
Lemma on_tok p sol cs : cur_tok (on p sol cs) = first cs. Proof. destruct cs as [|[k z] cs]; auto. Qed.
Lemma on_is p sol cs k : is_tok k (on p sol cs) = tok_eqb (first cs) k. Proof. unfold is_tok. rewrite on_tok. reflexivity. Qed.
Lemma on_cur p sol k z cs : cur (on p sol ((k, z) :: cs)) = XT k z (pos_of ((k, z) :: cs)) (pos_of cs). Proof. reflexivity. Qed.
Lemma on_rule p sol cs r : with_rule r (on p sol cs) = on (with_rule r p) sol cs. Proof. unfold on. destruct (toks cs) eqn:E1; [destruct (toks_ne _ E1)|reflexivity]. Qed.
Lemma on_depth p sol cs d : with_depth d (on p sol cs) = on (with_depth d p) sol cs. Proof. unfold on. destruct (toks cs) eqn:E1; [destruct (toks_ne _ E1)|reflexivity]. Qed.
Lemma on_update p q sol cs sol' cs' : accepts_partial q = accepts_partial p -> in_footnote q = in_footnote p -> has_footnote_block q = has_footnote_block p -> update (on p sol cs) (on q sol' cs') = on p sol' cs'.
Proof. unfold on. destruct (toks cs) eqn:E1; [destruct (toks_ne _ E1)|]. destruct (toks cs') eqn:E2; [destruct (toks_ne _ E2)|]. cbn. intros -> -> ->. reflexivity. Qed.
Lemma step_on p sol x cs s : exists t, step (on p sol (x :: cs)) s = ROk t (on p (line_start_token (fst x)) cs) s.
Proof. destruct x as [k z]. unfold on. cbn [toks fst]. destruct (toks cs) as [|t r] eqn:E1; [destruct (toks_ne _ E1)|]. exists t. reflexivity. Qed.
Lemma step_bind {A} (m : xtoken -> M A) p sol x cs s : (forall t, bind step m (on p sol (x :: cs)) s = m t (on p (line_start_token (fst x)) cs) s \/ True) -> forall r, (forall t, m t (on p (line_start_token (fst x)) cs) s = r) -> bind step m (on p sol (x :: cs)) s = r.
Proof. intros _ r H. destruct (step_on p sol x cs s) as [t Ht]. rewrite (bind_ok _ _ _ _ _ _ _ Ht). apply H. Qed.
Lemma stepu p sol x cs s {A} (m : M A) : bind step (fun _ => m) (on p sol (x :: cs)) s = m (on p (line_start_token (fst x)) cs) s.
Proof. destruct (step_on p sol x cs s) as [t Ht]. rewrite (bind_ok _ _ _ _ _ _ _ Ht). reflexivity. Qed.
Lemma opt_yes k p sol x cs s : fst x = k -> get_optional_token k (on p sol (x :: cs)) s = ROk tt (on p (line_start_token k) cs) s.
Proof. intros <-. destruct x as [k z]. unfold get_optional_token. rewrite bind_gets, on_is. cbn [first fst]. rewrite tok_refl, stepu. reflexivity. Qed.
Lemma opt_no k p sol cs s : first cs <> k -> get_optional_token k (on p sol cs) s = ROk tt (on p sol cs) s.
Proof. intro H. unfold get_optional_token. rewrite bind_gets, on_is. destruct (tok_eqb (first cs) k) eqn:X; [apply tok_eqb_true in X; contradiction|reflexivity]. Qed.
Lemma get_yes k er p sol z cs s : get_token k er (on p sol ((k, z) :: cs)) s = ROk z (on p (line_start_token k) cs) s.
Proof. unfold get_token. rewrite bind_gets, on_cur. cbn [t_token t_slice]. rewrite tok_refl, stepu. reflexivity. Qed.
Lemma get_no k er p sol cs s : first cs <> k -> get_token k er (on p sol cs) s = RErr (make_err er (on p sol cs)) (on p sol cs) s.
Proof. intro H. unfold get_token. rewrite bind_gets. pose proof (on_tok p sol cs) as X. unfold cur_tok in X. rewrite X. destruct (tok_eqb (first cs) k) eqn:Y; [apply tok_eqb_true in Y; contradiction|reflexivity]. Qed.

(** Slices. *)
Lemma ends_app a b : ends (a ++ b) -> ends b. Proof. intros [pre H]. exists (pre ++ flat a). rewrite H, flat_app, app_assoc. reflexivity. Qed.
Lemma ends_cons x b : ends (x :: b) -> ends b. Proof. apply (ends_app [x]). Qed.
Lemma pos_of_pre pre cs : en_text E = pre ++ flat cs -> pos_of cs = blen pre. Proof. intro H. unfold pos_of, total. rewrite H, blen_app. lia. Qed.
Lemma slice_of a b : ends (a ++ b) -> slice_impl (en_text E) (pos_of (a ++ b)) (pos_of b) = Some (flat a).
Proof.
  intros [pre H]. rewrite (pos_of_pre pre (a ++ b) H). rewrite flat_app in H. rewrite (pos_of_pre (pre ++ flat a) b) by (rewrite H, app_assoc; reflexivity). rewrite blen_app. unfold slice_impl.
  destruct (blen pre + blen (flat a) <? blen pre) eqn:X; [apply Nat.ltb_lt in X; lia|]. rewrite H. apply bslice_app.
Qed.

(** *** Text up to a token. *)
Definition passes (cs : list condition_) (x : piece) : Prop := forall p sol rest, evaluate_any cs (on p sol (x :: rest)) = false.
Lemma text_loop close invalid kind p s ws : forall k z cs, (forall q sol rest, evaluate_any close (on q sol ((k, z) :: rest)) = true) -> k <> TInputEnd ->
  Forall (fun x => passes close x /\ passes invalid x /\ fst x <> TInputEnd) ws -> forall fuel sol acc, length ws < fuel ->
  loop fuel (fun '(st, errs, safe) =>
    let! closing := gets (evaluate_any close) in
    if closing then
      let! last := gets cur in
      (if tok_eqb (t_token last) TInputEnd then ret tt else step ;; ret tt) ;;
      ret (inr (PSu (st, last) errs safe))
    else
    let! bad := gets (evaluate_any invalid) in
    if bad then fail match kind with Some k => k | None => RuleFailed end
    else
    let! at_end := gets (is_tok TInputEnd) in
    if at_end then fail EndOfInput
    else
      let! old := gets rem in
      let! out := (let! c := gets cur in ok_flag true (Some c) []) in
      step_if_same old ;;
      ret (inl (su_item out, errs ++ su_errors out, safe && su_safe out))) (acc, [], true) (on p sol (ws ++ (k, z) :: cs)) s =
  ROk (PSu (match ws with [] => acc | _ => Some (XT (fst (last ws (TInputEnd, []))) (snd (last ws (TInputEnd, []))) (pos_of (last ws (TInputEnd, []) :: (k, z) :: cs)) (pos_of ((k, z) :: cs))) end, XT k z (pos_of ((k, z) :: cs)) (pos_of cs)) [] true) (on p (line_start_token k) cs) s.
Proof.
  induction ws as [|[k0 z0] ws IH]; intros k z cs Hc Hk Hw fuel sol acc Hf; (destruct fuel as [|fuel]; [cbn [length] in Hf; lia|]).
  - cbn [loop app]. unfold bind at 1 2. unfold gets at 1. rewrite Hc. rewrite bind_gets, on_cur. cbn [t_token]. destruct (tok_eqb k TInputEnd) eqn:X; [apply tok_eqb_true in X; contradiction|]. rewrite bind_assoc, stepu. reflexivity.
  - inversion Hw as [|? ? (H1 & H2 & H3) Hw']; subst. cbn [app]. cbn [loop]. unfold bind at 1. rewrite bind_gets, H1, bind_gets, H2, bind_gets, on_is. cbn [first]. cbn [fst] in H3.
    destruct (tok_eqb k0 TInputEnd) eqn:X; [apply tok_eqb_true in X; contradiction|]. rewrite bind_gets, bind_assoc, bind_gets. unfold ok_flag at 1. unfold bind at 1. unfold ret at 1. unfold step_if_same. rewrite bind_assoc, bind_gets. unfold same_pointer. rewrite Nat.eqb_refl.
    rewrite bind_assoc, stepu. unfold ret at 1. unfold bind at 1, ret at 1. cbn [su_item su_errors su_safe app andb fst]. rewrite IH; auto; [|cbn [length] in Hf; lia]. f_equal. f_equal. f_equal. rewrite on_cur.
    destruct ws as [|y ws]; reflexivity.
Qed.
Lemma collect_to close invalid kind p sol s ws k z cs : (forall q sol rest, evaluate_any close (on q sol ((k, z) :: rest)) = true) -> k <> TInputEnd ->
  Forall (fun x => passes close x /\ passes invalid x /\ fst x <> TInputEnd) ws -> ends (ws ++ (k, z) :: cs) ->
  exists t, t_token t = k /\ collect_text_keep (en_text E) close invalid kind (on p sol (ws ++ (k, z) :: cs)) s = ROk (flat ws, t) (on p (line_start_token k) cs) s.
Proof.
  intros Hc Hk Hw He. eexists. split; [|unfold collect_text_keep; rewrite bind_gets; unfold collect, looping; unfold bind at 1; rewrite text_loop; [|exact Hc|exact Hk|exact Hw|rewrite on_len, app_length; lia]].
  2:{ cbn [su_item]. destruct ws as [|[k0 z0] ws]; [reflexivity|]. cbn [app]. rewrite on_cur.
    cbv beta iota zeta. unfold full_slice. cbn [t_start t_end]. pose proof (slice_of ((k0, z0) :: ws) ((k, z) :: cs) He) as X. cbn [app] in X. rewrite X. reflexivity. }
  reflexivity.
Qed.
Lemma passes_tokens (l : list token) x : ~ In (fst x) l -> passes (map IsToken l) x.
Proof.
  intros H p sol rest. unfold evaluate_any. destruct (existsb _ _) eqn:X; auto. exfalso. apply existsb_exists in X as (c & Hc & He). apply in_map_iff in Hc as (t & <- & Ht). cbn [evaluate] in He. rewrite on_is in He. apply tok_eqb_true in He.
  destruct x as [k z]. cbn in *. subst. contradiction.
Qed.
Lemma stops_tokens (l : list token) k z : In k l -> forall q sol rest, evaluate_any (map IsToken l) (on q sol ((k, z) :: rest)) = true.
Proof. intros H q sol rest. apply existsb_exists. exists (IsToken k). split; [apply in_map; auto|]. cbn [evaluate]. rewrite on_is. apply tok_refl. Qed.

(** *** Names. *)
Definition good_name (o : str) : Prop := letters o \/ In o signs.
Definition odd_tokens : list token := [TWhitespace; TLineBreak; TParagraphBreak; TRightBlock; TInputEnd; TLeftBlock; TLeftBlockStar; TLeftBlockEnd].
Lemma name_tokens o : good_name o -> Forall (fun x => ~ In (fst x) odd_tokens) (name_pieces o) /\ name_pieces o <> [].
Proof.
  intros [H|H].
  - rewrite letters_pieces by auto. split; [|discriminate]. constructor; [|constructor]. cbn. intuition discriminate.
  - cbn in H. destruct H as [<-|[<-|[<-|[<-|[]]]]]; cbn [name_pieces lit]; (split; [|discriminate]); repeat constructor; cbn; intuition discriminate.
Qed.
Lemma name_first_tok o r : good_name o -> ~ In (first (name_pieces o ++ r)) odd_tokens.
Proof. intro H. destruct (name_tokens o H) as [H1 H2]. destruct (name_pieces o) as [|[k z] l]; [congruence|]. inversion H1; auto. Qed.
Lemma name_chars o c : good_name o -> In c o -> is_alnum c = true \/ In c (lit "=<>").
Proof. intros [[_ H]|H] Hc; [auto|]. right. cbn in H. destruct H as [<-|[<-|[<-|[<-|[]]]]]; cbn in Hc |- *; intuition. Qed.
Lemma alnum_ws c : is_alnum c = true -> is_ws c = false.
Proof.
  intro H. assert (X : (48 <= c <= 122)%N). { unfold is_alnum, is_alpha, is_digit, is_upper, is_lower in H. repeat (apply orb_true_iff in H as [H|H]); apply andb_true_iff in H as [H1 H2]; apply N.leb_le in H1, H2; lia. }
  unfold is_ws. repeat (apply orb_false_iff; split); try (apply N.eqb_neq; lia); apply andb_false_iff; first [left; apply N.leb_gt; lia|right; apply N.leb_gt; lia].
Qed.
Lemma name_trim o : good_name o -> trim o = o.
Proof.
  intro H. apply trim_id; intros c r E1.
  - destruct (name_chars o c H) as [X|X]; [rewrite E1; left; auto|apply alnum_ws; auto|]. cbn in X. destruct X as [<-|[<-|[<-|[]]]]; reflexivity.
  - destruct (name_chars o c H) as [X|X]; [rewrite E1; apply in_or_app; right; left; auto|apply alnum_ws; auto|]. cbn in X. destruct X as [<-|[<-|[<-|[]]]]; reflexivity.
Qed.
Lemma name_score o : good_name o -> strip_score o = (o, false).
Proof.
  intro H. unfold strip_score. destruct (rev o) as [|c r] eqn:E1; auto. destruct (ceqb c 95) eqn:X; auto. apply ceqb_eq in X. subst c. exfalso.
  destruct (name_chars o 95 H) as [X|X]; [apply in_rev; rewrite E1; left; auto|discriminate|cbn in X; intuition discriminate].
Qed.
Lemma name_read er p sol o x cs s : good_name o -> In (fst x) [TWhitespace; TRightBlock] -> ends (name_pieces o ++ x :: cs) ->
  get_block_name_internal E er (on p sol (name_pieces o ++ x :: cs)) s = ROk (o, tok_eqb (fst x) TWhitespace) (on p false cs) s.
Proof.
  intros Ho Hx He. destruct x as [k z]. cbn [fst] in Hx. destruct (name_tokens o Ho) as [Ht _].
  destruct (collect_to (map IsToken [TWhitespace; TLineBreak; TParagraphBreak; TRightBlock]) [] (Some er) p sol s (name_pieces o) k z cs) as (t & Et & Hr); auto.
  - apply stops_tokens. cbn in Hx |- *. intuition.
  - cbn in Hx. intuition congruence.
  - eapply Forall_impl; [|exact Ht]. intros [k0 z0] Hk. cbn [fst] in *. split; [apply passes_tokens; cbn [fst]; intro X; apply Hk; cbn in X |- *; tauto|]. split; [intros q sl rest; reflexivity|]. intro X. apply Hk. rewrite X. cbn. tauto.
  - unfold get_block_name_internal. rewrite (bind_ok _ _ _ _ _ _ _ Hr). cbv beta iota zeta. rewrite Et, name_flat, name_trim by auto. cbn in Hx. destruct Hx as [<-|[<-|[]]]; reflexivity.
Qed.
Lemma lower_twice c : lower (lower c) = lower c.
Proof. unfold lower. destruct (is_upper c) eqn:X; [|rewrite X; auto]. destruct (is_upper (c + 32)) eqn:Y; auto. unfold is_upper in *. apply andb_true_iff in X as [X1 X2], Y as [Y1 Y2]. apply N.leb_le in X1, X2, Y1, Y2. lia. Qed.
Lemma slower_twice s : slower (slower s) = slower s. Proof. unfold slower. rewrite map_map. apply map_ext. apply lower_twice. Qed.
Lemma nocase_lower a b : eq_nocase (slower a) b = eq_nocase a b. Proof. unfold eq_nocase. rewrite slower_twice. reflexivity. Qed.
Lemma nocase_any a l : existsb (eq_nocase (slower a)) l = existsb (eq_nocase a) l. Proof. induction l as [|b l IH]; auto. cbn [existsb]. rewrite nocase_lower, IH. reflexivity. Qed.
Lemma rule_lower con o : good_name o -> get_block_rule E con o = lookup_block (BLOCK_RULES E con) (slower o).
Proof.
  intro H. unfold get_block_rule. rewrite name_score by auto. cbn [fst]. generalize (BLOCK_RULES E con). induction l as [|r l IH]; auto. cbn [lookup_block]. rewrite nocase_any. destruct (existsb _ _); auto.
Qed.
Lemma named_in l o : named (map slower l) o -> existsb (eq_nocase o) l = true.
Proof. intro H. apply in_map_iff in H as (n & Hn & Hi). apply existsb_exists. exists n. split; auto. unfold eq_nocase. rewrite <- Hn. apply seqb_refl. Qed.

(** *** Block heads. *)
Section Head.
Variable con : M (success elements).
Lemma parse_head star p sol o x cs s br f : good_name o -> In (fst x) [TWhitespace; TRightBlock] -> ends (name_pieces o ++ x :: cs) ->
  get_block_rule E con o = Some (br, f) -> negb (br_star br) && star = false -> first cs <> TWhitespace ->
  parse_block E con star (on p sol (open_piece star :: name_pieces o ++ x :: cs)) s = f br o star false (tok_eqb (fst x) TWhitespace) (on (with_rule (br_name br) p) false cs) s.
Proof.
  intros Ho Hx He Hr Hs Hc. unfold parse_block. unfold set_rule, modify. unfold bind at 1. rewrite on_rule.
  unfold get_optional_space at 1. rewrite (bind_ok _ _ _ _ _ _ _ (opt_no TWhitespace _ _ (open_piece star :: name_pieces o ++ x :: cs) s ltac:(destruct star; discriminate))).
  unfold get_block_name. rewrite bind_assoc. rewrite (bind_ok _ _ _ _ _ _ _ (opt_yes (if star then TLeftBlockStar else TLeftBlock) _ _ (open_piece star) _ s ltac:(destruct star; reflexivity))).
  rewrite bind_assoc. unfold get_optional_space at 1. erewrite bind_ok; [|apply opt_no; intro X; apply (name_first_tok o (x :: cs) Ho); rewrite X; cbn; tauto].
  erewrite bind_ok; [|apply name_read; auto]. cbv beta iota zeta. rewrite name_score by auto. cbv beta iota zeta. rewrite Hr. unfold bind at 1. rewrite on_rule. rewrite Hs. rewrite andb_false_r.
  unfold get_optional_space. erewrite bind_ok; [|apply opt_no; auto]. reflexivity.
Qed.
(** *** Ends of blocks. *)
Lemma end_read p sol o cs s : good_name o -> ends (close_pieces o ++ cs) -> get_end_block E (on p sol (close_pieces o ++ cs)) s = ROk o (on p false cs) s.
Proof.
  intros Ho He. unfold get_end_block, close_pieces. cbn [app]. rewrite <- app_assoc. cbn [app]. unfold close_pieces in He. cbn [app] in He. rewrite <- app_assoc in He. cbn [app] in He.
  erewrite bind_ok; [|apply get_yes]. unfold get_optional_space. erewrite bind_ok; [|apply opt_no; intro X; apply (name_first_tok o (right_piece :: cs) Ho); rewrite X; cbn; tauto].
  unfold get_block_name. rewrite bind_assoc. erewrite bind_ok; [|apply opt_no; intro X; apply (name_first_tok o (right_piece :: cs) Ho); rewrite X; cbn; tauto].
  rewrite bind_assoc. unfold get_optional_space. erewrite bind_ok; [|apply opt_no; intro X; apply (name_first_tok o (right_piece :: cs) Ho); rewrite X; cbn; tauto].
  erewrite bind_ok; [|apply name_read; [auto|cbn; tauto|eapply ends_cons; exact He]]. cbv beta iota zeta. cbn [fst right_piece]. change (tok_eqb TRightBlock TWhitespace) with false. reflexivity.
Qed.
Lemma verify_close b br p sol o cs s : good_name o -> existsb (eq_nocase o) (br_names br) = true -> ends (close_pieces o ++ cs) ->
  exists t, verify_end_block E b br (on p sol (close_pieces o ++ cs)) s = ROk (Some t) (on p false cs) s.
Proof.
  intros Ho Hn He. unfold verify_end_block, save_evaluate_fn. eexists.
  assert (X : (if br_newlines br && negb b then get_optional_line_break else ret tt) (on p sol (close_pieces o ++ cs)) s = ROk tt (on p sol (close_pieces o ++ cs)) s).
  { destruct (br_newlines br && negb b); [|reflexivity]. apply opt_no. discriminate. }
  rewrite (bind_ok _ _ _ _ _ _ _ X). rewrite (bind_ok _ _ _ _ _ _ _ (end_read p sol o cs s Ho He)). rewrite name_score by auto. cbn [fst]. rewrite Hn. unfold ret. rewrite on_update by reflexivity. reflexivity.
Qed.
Lemma verify_line_close br p sol o cs s : br_newlines br = true -> good_name o -> existsb (eq_nocase o) (br_names br) = true -> ends (line_piece :: close_pieces o ++ cs) ->
  exists t, verify_end_block E false br (on p sol (line_piece :: close_pieces o ++ cs)) s = ROk (Some t) (on p false cs) s.
Proof.
  intros Hl Ho Hn He. unfold verify_end_block, save_evaluate_fn. eexists. rewrite Hl. cbn [negb andb]. unfold get_optional_line_break. erewrite bind_ok; [|apply opt_yes; reflexivity].
  rewrite (bind_ok _ _ _ _ _ _ _ (end_read p _ o cs s Ho (ends_cons _ _ He))). rewrite name_score by auto. cbn [fst]. rewrite Hn. unfold ret. rewrite on_update by reflexivity. reflexivity.
Qed.
(** Tokens that go on. *)
Definition quiet (k : token) : bool := match k with TInputEnd | TParagraphBreak | TLeftBlockEnd | TLineBreak => false | _ => true end.
Lemma verify_go b br p sol cs s : quiet (first cs) = true -> verify_end_block E b br (on p sol cs) s = ROk None (on p sol cs) s.
Proof.
  intro Hq. unfold verify_end_block, save_evaluate_fn.
  assert (X : (if br_newlines br && negb b then get_optional_line_break else ret tt) (on p sol cs) s = ROk tt (on p sol cs) s).
  { destruct (br_newlines br && negb b); [|reflexivity]. apply opt_no. intro X. rewrite X in Hq. discriminate. }
  rewrite (bind_ok _ _ _ _ _ _ _ X). unfold get_end_block, bind. rewrite get_no; [reflexivity|]. intro Y. rewrite Y in Hq. discriminate.
Qed.

(** *** What is in a head. *)
Lemma head_block_in br p sol z cs s : (br_newlines br = true -> first cs <> TLineBreak) -> get_head_block br true (on p sol ((TRightBlock, z) :: cs)) s = ROk tt (on p false cs) s.
Proof.
  intro H. unfold get_head_block. rewrite bind_assoc. erewrite bind_ok; [|apply get_yes]. unfold bind at 1, ret at 1. rewrite bind_gets. destruct (negb _ && br_newlines br) eqn:X; [|reflexivity]. apply andb_true_iff in X as [_ X]. apply opt_no; auto.
Qed.
Lemma head_block_out br p sol cs s : (br_newlines br = true -> first cs <> TLineBreak) -> get_head_block br false (on p sol cs) s = ROk tt (on p sol cs) s.
Proof.
  intro H. unfold get_head_block. unfold bind at 1, ret at 1. rewrite bind_gets. destruct (negb _ && br_newlines br) eqn:X; [|reflexivity]. apply andb_true_iff in X as [_ X]. apply opt_no; auto.
Qed.
Lemma head_line_in br p sol z cs s : br_newlines br = true -> get_head_block br true (on p sol ((TRightBlock, z) :: line_piece :: cs)) s = ROk tt (on p true cs) s.
Proof.
  intro H. unfold get_head_block. rewrite bind_assoc. erewrite bind_ok; [|apply get_yes]. unfold bind at 1, ret at 1. rewrite bind_gets, H, on_is. apply opt_yes. reflexivity.
Qed.
Lemma head_line_out br p sol cs s : br_newlines br = true -> get_head_block br false (on p sol (line_piece :: cs)) s = ROk tt (on p true cs) s.
Proof. intro H. unfold get_head_block. unfold bind at 1, ret at 1. rewrite bind_gets, H, on_is. apply opt_yes. reflexivity. Qed.
(** Attributes. *)
Lemma any_no l p sol cs : ~ In (first cs) l -> is_any l (on p sol cs) = false.
Proof. intro H. unfold is_any. rewrite on_tok. destruct (existsb _ _) eqn:X; auto. exfalso. apply existsb_exists in X as (k & Hk & X). apply tok_eqb_true in X. rewrite X in H. auto. Qed.
Lemma any_blank p sol cs s : ~ In (first cs) [TWhitespace; TLineBreak; TParagraphBreak; TEquals] -> get_optional_spaces_any (on p sol cs) s = ROk tt (on p sol cs) s.
Proof. intro H. unfold get_optional_spaces_any, looping. cbn [loop]. unfold bind at 1. rewrite bind_gets, any_no by auto. reflexivity. Qed.
Lemma any_blank_yes p sol cs s : ~ In (first cs) [TWhitespace; TLineBreak; TParagraphBreak; TEquals] -> get_optional_spaces_any (on p sol (blank_piece :: cs)) s = ROk tt (on p false cs) s.
Proof.
  intro H. unfold get_optional_spaces_any, looping. rewrite on_len. cbn [length]. cbn [loop]. unfold bind at 1. rewrite bind_gets.
  assert (X : is_any [TWhitespace; TLineBreak; TParagraphBreak; TEquals] (on p sol (blank_piece :: cs)) = true) by reflexivity. rewrite X. rewrite stepu. unfold ret at 1. cbn [fst blank_piece line_start_token].
  unfold bind at 1. rewrite bind_gets, any_no by auto. reflexivity.
Qed.
Definition key_piece (x : piece) : Prop := is_key_slice (snd x) = true /\ (fst x = TIdentifier \/ fst x = TOther).
Lemma key_loop p s ws : forall z cs sol fuel, Forall key_piece ws -> length ws < fuel ->
  loop fuel (fun _ : unit =>
    let! c := gets cur in
    match t_token c with
    | TRightBlock => ret (inr true)
    | TWhitespace | TLineBreak | TParagraphBreak | TEquals => ret (inr false)
    | _ => if is_key_slice (t_slice c) then step ;; ret (inl tt) else fail BlockMalformedArguments
    end) tt (on p sol (ws ++ (TEquals, z) :: cs)) s = ROk false (on p (match ws with [] => sol | _ => false end) ((TEquals, z) :: cs)) s.
Proof.
  induction ws as [|[k y] ws IH]; intros z cs sol fuel Hw Hf; (destruct fuel as [|fuel]; [cbn [length] in Hf; lia|]); cbn [loop app]; unfold bind at 1; rewrite bind_gets, on_cur; cbn [t_token t_slice]; [reflexivity|].
  inversion Hw as [|? ? [H1 H2] Hw']; subst. cbn [fst snd] in H1, H2. rewrite H1. cbn [length] in Hf.
  destruct H2 as [-> | ->]; rewrite stepu; unfold ret at 1; cbn [fst]; rewrite IH; auto; try lia; destruct ws; reflexivity.
Qed.
Lemma key_read p sol k z cs s : key_name k -> ends (pieces k ++ (TEquals, z) :: cs) -> get_argument_key E (on p sol (pieces k ++ (TEquals, z) :: cs)) s = ROk (Some k) (on p false ((TEquals, z) :: cs)) s.
Proof.
  intros (Hp & (c & r & Ek & Hc) & Ha) He. unfold get_argument_key. rewrite bind_gets.
  assert (Hw : Forall key_piece (pieces k)).
  { pose proof (pieces_word k) as Hw. pose proof (flat_pieces k) as Hfl. assert (Hin : forall x, In x (pieces k) -> forall d, In d (snd x) -> is_alnum d = true \/ d = 45%N).
    { intros x Hx d Hd. apply Ha. rewrite <- Hfl. unfold flat. apply in_flat_map. eauto. }
    rewrite Forall_forall in *. intros [kk y] Hx. specialize (Hw _ Hx). specialize (Hin _ Hx). unfold word_piece, key_piece in *. cbn [fst snd] in *. destruct kk; try contradiction.
    - destruct Hw as [Hn Hsp]. destruct y as [|d y]; [congruence|]. inversion Hsp; subst. destruct (Hin d (or_introl eq_refl)) as [X | ->]; [apply alnum_sp in X; congruence|discriminate].
    - destruct Hw as [Hn Hl]. destruct y as [|d y]; [congruence|]. split; auto. unfold is_key_slice. cbn [existsb]. unfold key_char. rewrite Hl by (left; auto). reflexivity.
    - destruct Hw as (d & -> & Hd & _). destruct (Hin d (or_introl eq_refl)) as [X | ->]; [congruence|]. split; auto. }
  assert (Hne : pieces k <> []) by (intro X; pose proof (flat_pieces k) as Y; rewrite X in Y; cbn in Y; congruence).
  unfold looping. erewrite bind_ok; [|apply key_loop; [exact Hw|rewrite on_len, app_length; cbn [length]; lia]]. cbv iota.
  rewrite bind_gets, on_cur. destruct (pieces k) as [|[k0 y0] ps] eqn:Eps; [congruence|]. cbn [app]. rewrite on_cur. unfold partial_slice. cbn [t_start]. pose proof (slice_of ((k0, y0) :: ps) ((TEquals, z) :: cs) He) as X. cbn [app] in X. rewrite X, <- Eps, flat_pieces. reflexivity.
Qed.
Lemma key_end p sol z cs s : get_argument_key E (on p sol ((TRightBlock, z) :: cs)) s = ROk None (on p sol ((TRightBlock, z) :: cs)) s.
Proof. unfold get_argument_key. rewrite bind_gets. unfold looping. cbn [loop]. unfold bind at 1 2 3. unfold gets at 1. rewrite on_cur. cbn [t_token]. reflexivity. Qed.
Lemma key_first k r : key_name k -> first (pieces k ++ r) = TIdentifier.
Proof. intros (_ & (c & q & -> & Hc) & _). cbn [pieces]. unfold kind_of. rewrite Hc. destruct (pieces q) as [|[k z] ws]; [reflexivity|]. destruct (tok_eqb k TIdentifier) eqn:X; [apply tok_eqb_true in X; subst k; reflexivity|reflexivity]. Qed.
Definition no_lead (a : list attribute) : list piece := match flat_map attribute_pieces a with x :: l => l | [] => [] end.
Definition map_body : arguments -> M (arguments + arguments) := fun map : arguments =>
        get_optional_spaces_any ;;
        let! key := get_argument_key E in
        match key with
        | None => ret (inr map)
        | Some key =>
            get_optional_space ;;
            get_token TEquals BlockMalformedArguments ;;
            get_optional_space ;;
            let! raw := get_token TString BlockMalformedArguments in
            let! value := or_panic PanicString (parse_string raw) in
            ret (inl (args_insert map key value))
        end.
Lemma one_argument p sol map k v cs s (b : bool) : key_name k -> ends (pieces k ++ (TEquals, lit "=") :: (TString, 34%N :: quote_inside v ++ [34%N]) :: cs) ->
  map_body map (on p sol ((if b then [blank_piece] else []) ++ pieces k ++ (TEquals, lit "=") :: (TString, 34%N :: quote_inside v ++ [34%N]) :: cs)) s = ROk (inl (args_insert map k v)) (on p false cs) s.
Proof.
  intros Hk He. unfold map_body.
  assert (X : exists sol', get_optional_spaces_any (on p sol ((if b then [blank_piece] else []) ++ pieces k ++ (TEquals, lit "=") :: (TString, 34%N :: quote_inside v ++ [34%N]) :: cs)) s = ROk tt (on p sol' (pieces k ++ (TEquals, lit "=") :: (TString, 34%N :: quote_inside v ++ [34%N]) :: cs)) s).
  { destruct b; eexists; cbn [app]; [apply any_blank_yes|apply any_blank]; rewrite key_first by auto; cbn; intuition discriminate. }
  destruct X as [sol' X]. rewrite (bind_ok _ _ _ _ _ _ _ X). rewrite (bind_ok _ _ _ _ _ _ _ (key_read p sol' k _ _ s Hk He)). cbv iota. unfold get_optional_space. erewrite bind_ok; [|apply opt_no; discriminate]. erewrite bind_ok; [|apply get_yes]. erewrite bind_ok; [|apply opt_no; discriminate].
  erewrite bind_ok; [|apply get_yes]. rewrite (parse_string_decodes _ _ (quote_decodes v)). reflexivity.
Qed.
Fixpoint collected (m : arguments) (a : list attribute) : arguments := match a with [] => m | (k, v) :: a' => collected (args_insert m k v) a' end.
Lemma map_loop p s z cs a : forall fuel m sol, (forall k v, In (k, v) a -> key_name k /\ ~ In 13%N v) -> length a < fuel -> ends (flat_map attribute_pieces a ++ (TRightBlock, z) :: cs) ->
  loop fuel map_body m (on p sol (flat_map attribute_pieces a ++ (TRightBlock, z) :: cs)) s = ROk (collected m a) (on p (match a with [] => sol | _ => false end) ((TRightBlock, z) :: cs)) s.
Proof.
  induction a as [|[k v] a IH]; intros fuel m sol Ha Hf He; (destruct fuel as [|fuel]; [cbn [length] in Hf; lia|]); cbn [loop flat_map].
  - cbn [app]. unfold bind at 1. unfold map_body at 1. erewrite bind_ok; [|apply any_blank; cbn; intuition discriminate]. erewrite bind_ok; [|apply key_end]. reflexivity.
  - cbn [flat_map] in He. unfold attribute_pieces in He |- *. cbn [fst snd] in He |- *. cbn [app] in He |- *. rewrite <- !app_assoc in He |- *. cbn [app] in He |- *. destruct (Ha k v (or_introl eq_refl)) as [Hk Hv]. fold attribute_pieces in He |- *.
    rewrite (bind_ok _ _ _ _ _ _ _ (one_argument p sol m k v _ s true Hk (ends_cons _ _ He))). rewrite IH; [|intros; apply Ha; right; auto|cbn [length] in Hf; lia|].
    + destruct a; reflexivity.
    + apply ends_cons in He. apply ends_app in He. apply ends_cons, ends_cons in He. exact He.
Qed.
Lemma map_read p sol s z cs a : (forall k v, In (k, v) a -> key_name k /\ ~ In 13%N v) -> a <> [] -> ends (no_lead a ++ (TRightBlock, z) :: cs) ->
  looping map_body [] (on p sol (no_lead a ++ (TRightBlock, z) :: cs)) s = ROk (collected [] a) (on p false ((TRightBlock, z) :: cs)) s.
Proof.
  intros Ha Hne He. destruct a as [|[k v] a]; [congruence|]. unfold no_lead in *. cbn [flat_map] in *. unfold attribute_pieces in He |- *. cbn [fst snd] in He |- *. cbn [app] in He |- *. rewrite <- !app_assoc in He |- *. cbn [app] in He |- *. destruct (Ha k v (or_introl eq_refl)) as [Hk Hv]. fold attribute_pieces in He |- *.
  unfold looping. rewrite on_len. cbn [loop]. rewrite (bind_ok _ _ _ _ _ _ _ (one_argument p sol [] k v _ s false Hk He)).
  rewrite map_loop; [destruct a; reflexivity|intros; apply Ha; right; auto| |apply ends_app in He; apply ends_cons, ends_cons in He; exact He].
  rewrite app_length. cbn [length]. rewrite app_length. assert (X : length a <= length (flat_map attribute_pieces a)). { clear. induction a as [|x a IH]; [cbn; lia|]. cbn [flat_map length]. rewrite app_length. unfold attribute_pieces at 1. cbn [length]. lia. } lia.
Qed.
End Head.
End Where.

(** *** Attributes. *)
Lemma before_ltb : forall a b, before a b = str_ltb a b.
Proof.
  induction a as [|x a IH]; intros [|y b]; auto. cbn [before str_ltb]. rewrite IH. destruct (x <? y)%N eqn:X; auto. cbn [orb]. destruct (ceqb x y) eqn:Y.
  - apply ceqb_eq in Y. subst y. rewrite N.ltb_irrefl. reflexivity.
  - apply ceqb_neq in Y. assert (Z : (y <? x)%N = true) by (apply N.ltb_lt; apply N.ltb_ge in X; lia). rewrite Z. reflexivity.
Qed.
Lemma insert_put m k v : ~ In k (map fst m) -> bt_insert m k v = put (k, v) m.
Proof.
  induction m as [|[k' v'] m IH]; intro H; auto. cbn [bt_insert put fst]. destruct (seqb k' k) eqn:X; [apply seqb_eq in X; exfalso; apply H; left; auto|]. rewrite before_ltb. destruct (str_ltb k k'); auto. f_equal. apply IH. intro Y. apply H. right. auto.
Qed.
Lemma put_keys kv m x : In x (put kv m) <-> x = kv \/ In x m.
Proof. induction m as [|y m IH]; cbn [put]; [cbn; intuition|]. destruct (before _ _); cbn [In]; [intuition|]. rewrite IH. intuition. Qed.
Lemma starts_cons (p : str) c d s : starts_with (c :: p) (d :: s) = ceqb c d && starts_with p s.
Proof. unfold starts_with. cbn [strip_prefix]. destruct (ceqb c d); [reflexivity|reflexivity]. Qed.
Lemma handler_head k : is_handler k = true -> exists d r, k = d :: r /\ lower d = 111%N.
Proof. unfold is_handler. destruct k as [|d [|e r]]; try discriminate. cbn [slower map]. intro H. apply andb_true_iff in H as [H _]. apply ceqb_eq in H. exists d, (e :: r). auto. Qed.
Definition no_on (s : str) : bool := match s with c :: d :: _ => negb (ceqb c 111 && ceqb d 110) | _ => true end.
Lemma handler_unsafe k : is_handler k = true -> is_safe_attribute k = false.
Proof.
  intro H. destruct (handler_head k H) as (d & r & -> & Hd). unfold is_safe_attribute. destruct (unicase_mem _ _) eqn:X.
  - exfalso. unfold unicase_mem in X. apply existsb_exists in X as (n & Hn & X). unfold eq_nocase in X. apply seqb_eq in X.
    assert (Y : forallb (fun n => no_on (slower n)) SAFE_ATTRIBUTES = true) by (vm_compute; reflexivity). rewrite forallb_forall in Y. specialize (Y n Hn). rewrite <- X in Y. unfold is_handler in H. unfold no_on in Y. destruct (slower (d :: r)) as [|c1 [|c2 l]]; try discriminate. rewrite H in Y. discriminate.
  - unfold SAFE_ATTRIBUTE_PREFIXES. cbn [map existsb]. assert (Z : forall c, c <> 111%N -> lower c = c -> ceqb c d = false) by (intros c H1 H2; apply ceqb_neq; intros ->; congruence).
    change (lit "aria-") with (97%N :: lit "ria-"). change (lit "data-") with (100%N :: lit "ata-"). rewrite !starts_cons, !Z by (try discriminate; reflexivity). reflexivity.
Qed.
Lemma common_facts k : In (slower k) common_attributes -> is_handler k = false /\ is_safe_attribute k = true /\ unicase_mem k BOOLEAN_ATTRIBUTES = false /\ unicase_mem k URL_ATTRIBUTES = false /\ slower k <> lit "id".
Proof.
  intro H. assert (X : forallb (fun n => no_on n && existsb (eq_nocase n) SAFE_ATTRIBUTES && negb (existsb (eq_nocase n) BOOLEAN_ATTRIBUTES) && negb (existsb (eq_nocase n) URL_ATTRIBUTES) && negb (seqb n (lit "id"))) common_attributes = true) by (vm_compute; reflexivity).
  rewrite forallb_forall in X. specialize (X _ H). rewrite !andb_true_iff, !negb_true_iff in X. destruct X as ((((X1 & X2) & X3) & X4) & X5). rewrite nocase_any in X2, X3, X4. conj.
  - unfold is_handler. unfold no_on in X1. destruct (slower k) as [|c [|d r]]; auto. apply negb_true_iff in X1. auto.
  - unfold is_safe_attribute, unicase_mem. rewrite X2. reflexivity.
  - exact X3.
  - exact X4.
  - intros Y. rewrite Y in X5. rewrite seqb_refl in X5. discriminate.
Qed.
Lemma prefixed_facts k r : letters r -> slower r = r -> (k = lit "data-" ++ r \/ k = lit "aria-" ++ r) ->
  is_handler k = false /\ is_safe_attribute k = true /\ unicase_mem k BOOLEAN_ATTRIBUTES = false /\ unicase_mem k URL_ATTRIBUTES = false /\ slower k <> lit "id".
Proof.
  intros Hr Hl Hk.
  assert (Hs : slower k = k) by (destruct Hk as [-> | ->]; unfold slower; rewrite map_app; fold (slower r); rewrite Hl; reflexivity).
  assert (Hno : forall l, forallb (fun n => negb (starts_with (lit "data-") (slower n)) && negb (starts_with (lit "aria-") (slower n))) l = true -> unicase_mem k l = false).
  { intros l H. unfold unicase_mem. destruct (existsb _ _) eqn:X; auto. exfalso. apply existsb_exists in X as (n & Hn & X). unfold eq_nocase in X. apply seqb_eq in X. rewrite forallb_forall in H. specialize (H n Hn). rewrite <- X, Hs in H.
    apply andb_true_iff in H as [H1 H2]. apply negb_true_iff in H1, H2. unfold starts_with in H1, H2. destruct Hk as [-> | ->]; [rewrite strip_prefix_app in H1|rewrite strip_prefix_app in H2]; discriminate. }
  conj.
  - unfold is_handler. rewrite Hs. destruct Hk as [-> | ->]; reflexivity.
  - unfold is_safe_attribute. destruct (unicase_mem k SAFE_ATTRIBUTES); auto. unfold SAFE_ATTRIBUTE_PREFIXES. cbn [map existsb]. unfold starts_with. destruct Hk as [-> | ->]; rewrite strip_prefix_app; [|reflexivity]. rewrite orb_false_r. apply orb_true_iff. right. reflexivity.
  - apply Hno. vm_compute. reflexivity.
  - apply Hno. vm_compute. reflexivity.
  - rewrite Hs. destruct Hk as [-> | ->]; discriminate.
Qed.
Lemma key_facts k : good_key k -> (is_handler k = true /\ is_safe_attribute k = false) \/
  (is_handler k = false /\ is_safe_attribute k = true /\ unicase_mem k BOOLEAN_ATTRIBUTES = false /\ unicase_mem k URL_ATTRIBUTES = false /\ slower k <> lit "id").
Proof. intros [H|[(r & Hr & Hl & H)|[H _]]]; [right; apply common_facts; auto|right; eapply prefixed_facts; eauto|left; split; auto; apply handler_unsafe; auto]. Qed.
Lemma attribute_facts k v : good_attribute k v -> (is_handler k = true /\ is_safe_attribute k = false) \/
  (is_handler k = false /\ is_safe_attribute k = true /\ unicase_mem k BOOLEAN_ATTRIBUTES = false /\
   (forall word norm, (if unicase_mem k URL_ATTRIBUTES then normalize_href word norm v else Some v) = Some v) /\ slower k <> lit "id").
Proof.
  intros [H|[H Hv]].
  - destruct (key_facts k H) as [X|(H1 & H2 & H3 & H4 & H5)]; [left; exact X|right]. conj; auto. intros. rewrite H4. reflexivity.
  - right. assert (X : forallb (fun n => no_on n && existsb (eq_nocase n) SAFE_ATTRIBUTES && negb (existsb (eq_nocase n) BOOLEAN_ATTRIBUTES) && negb (seqb n (lit "id"))) (map lit ["href"; "src"]%string) = true) by (vm_compute; reflexivity).
    rewrite forallb_forall in X. specialize (X _ H). rewrite !andb_true_iff, !negb_true_iff in X. destruct X as (((X1 & X2) & X3) & X5). rewrite nocase_any in X2, X3. conj.
    + unfold is_handler. unfold no_on in X1. destruct (slower k) as [|c [|d r]]; auto. apply negb_true_iff in X1. auto.
    + unfold is_safe_attribute, unicase_mem. rewrite X2. reflexivity.
    + exact X3.
    + intros word norm. destruct (unicase_mem k URL_ATTRIBUTES); [|reflexivity]. unfold normalize_href. assert (Y : is_url v || starts_with [35%N] v || seqb v (lit "javascript:;") = true).
      { destruct Hv as [(sc & r & Hs & ->)|[(r & ->)| ->]]; [|rewrite orb_true_iff; left; apply orb_true_iff; right; reflexivity|reflexivity]. rewrite !orb_true_iff. left. left. apply LinksLemmas.is_url_iff. exists sc, r. split; [|reflexivity].
        assert (Z : forallb (fun x => smem x URL_SCHEMES) absolute_starts = true) by (vm_compute; reflexivity). rewrite forallb_forall in Z. apply smem_In. auto. }
      rewrite Y. reflexivity.
    + intros Y. rewrite Y in X5. rewrite seqb_refl in X5. discriminate.
Qed.
Lemma shown_from word norm a : forall acc, (forall k v, In (k, v) a -> good_attribute k v) -> NoDup (map (fun kv => slower (fst kv)) a) -> (forall x, In x (map fst acc) -> ~ In x (map (fun kv => slower (fst kv)) a)) ->
  from_arguments word norm acc a = Some (fold_left (fun l kv => if is_handler (fst kv) then l else put (slower (fst kv), snd kv) l) a acc).
Proof.
  induction a as [|[k v] a IH]; intros acc Hg Hn Hd; [reflexivity|]. cbn [from_arguments fold_left fst snd]. inversion Hn as [|? ? Hk Hn']; subst. cbn [fst] in Hk.
  destruct (attribute_facts k v (Hg k v (or_introl eq_refl))) as [[H1 H2]|(H1 & H2 & H3 & H4 & _)]; rewrite H1, H2.
  - apply IH; auto; [intros; eapply Hg; right; eauto|]. intros x Hx Hi. apply (Hd x Hx). right. auto.
  - unfold attr_entry. rewrite H3, H4. rewrite insert_put by (intro X; apply (Hd _ X); left; reflexivity). apply IH; auto; [intros; eapply Hg; right; eauto|].
    intros x Hx Hi. apply in_map_iff in Hx as ([k' v'] & <- & Hx). apply put_keys in Hx as [Hx|Hx]; [|apply (Hd k'); [apply in_map_iff; exists (k', v'); auto|right; auto]].
    apply pair_equal_spec in Hx as [-> _]. auto.
Qed.
Lemma shown_keys a : forall acc, (forall k v, In (k, v) a -> good_attribute k v) -> ~ In (lit "id") (map fst acc) -> ~ In (lit "id") (map fst (fold_left (fun l kv => if is_handler (fst kv) then l else put (slower (fst kv), snd kv) l) a acc)).
Proof.
  induction a as [|[k v] a IH]; intros acc Hg H; [auto|]. cbn [fold_left fst snd]. apply IH; [intros; eapply Hg; right; eauto|].
  destruct (attribute_facts k v (Hg k v (or_introl eq_refl))) as [[H1 H2]|(H1 & _ & _ & _ & H5)]; rewrite H1; auto. intro X. apply in_map_iff in X as ([k' v'] & E1 & X). cbn [fst] in E1. apply put_keys in X as [X|X].
  - apply pair_equal_spec in X as [X _]. congruence.
  - apply H. apply in_map_iff. exists (k', v'). auto.
Qed.
Lemma get_missing m k : ~ In k (map fst m) -> bt_get m k = None.
Proof. induction m as [|[k' v'] m IH]; intro H; auto. cbn [bt_get]. destruct (seqb k' k) eqn:X; [apply seqb_eq in X; exfalso; apply H; left; auto|]. apply IH. intro Y. apply H. right. auto. Qed.
Lemma attrs_read E a p s : good_attributes a -> attrs E a p s = ROk (shown_attributes a) p s.
Proof.
  intros [Hn Hg]. unfold attrs, to_attribute_map. rewrite shown_from; auto; [|intros k v Hi; apply (Hg k v Hi)]. fold (shown_attributes a). unfold isolate_id. destruct (en_isolate E); [|reflexivity]. rewrite get_missing; [reflexivity|].
  apply shown_keys; auto. intros k v Hi. apply (Hg k v Hi).
Qed.
Lemma insert_end m k v : ~ In (slower k) (map (fun kv : attribute => slower (fst kv)) m) -> args_insert m k v = m ++ [(k, v)].
Proof.
  induction m as [|[k' v'] m IH]; intro H; auto. cbn [args_insert app]. unfold eq_nocase. destruct (seqb (slower k') (slower k)) eqn:X; [apply seqb_eq in X; exfalso; apply H; left; auto|]. f_equal. apply IH. intro Y. apply H. right. auto.
Qed.
Lemma collected_all a : forall m, NoDup (map (fun kv : attribute => slower (fst kv)) (m ++ a)) -> collected m a = m ++ a.
Proof.
  induction a as [|[k v] a IH]; intros m H; [rewrite app_nil_r; auto|]. cbn [collected]. rewrite insert_end.
  - rewrite IH; rewrite <- app_assoc; auto.
  - rewrite map_app in H. apply NoDup_remove_2 in H. intro X. apply H. apply in_or_app. auto.
Qed.
