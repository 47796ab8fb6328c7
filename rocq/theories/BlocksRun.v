(** BlocksRun.v -- the parser run on the paragraphs of the pages of SpecBlocks.v. *)
From Verif Require Import Base BaseLemmas Strings StringsLemmas SpecStrings Links SpecLinks LinksLemmas Attr Lexer SpecLexer LexerLemmas Depth Tree Text Toc PState Blocks Rules Parse SpecParse SpecPage ParseInv
  ProseLemmas WritingParse WritingBlocks VerbatimLex BlocksLex BlocksParse BlocksLinks.
From Verif Require Import SpecBlocks.

Section Run.
Variable E : env.
Notation on := (on E). Notation ends := (ends E).
(** *** Heads. *)
Lemma attributes_head a : flat_map attribute_pieces a = match a with [] => [] | _ => blank_piece :: no_lead a end.
Proof. destruct a as [|[k v] a]; reflexivity. Qed.
Lemma map_after br a cs : (forall k v, In (k, v) a -> key_name k /\ ~ In 13%N v) -> NoDup (map (fun kv : attribute => slower (fst kv)) a) -> ends (flat_map attribute_pieces a ++ right_piece :: cs) -> (a = [] -> first cs <> TWhitespace) ->
  exists x cs0, flat_map attribute_pieces a ++ right_piece :: cs = x :: cs0 /\ In (fst x) [TWhitespace; TRightBlock] /\ first cs0 <> TWhitespace /\
    forall q s, ((br_newlines br = true -> first cs <> TLineBreak) -> get_head_map E br (tok_eqb (fst x) TWhitespace) (on q false cs0) s = ROk a (on q false cs) s) /\
      (forall cs', br_newlines br = true -> cs = line_piece :: cs' -> get_head_map E br (tok_eqb (fst x) TWhitespace) (on q false cs0) s = ROk a (on q true cs') s).
Proof.
  intros Ha Hn He Hc. rewrite attributes_head in *. destruct a as [|kv a].
  - cbn [app] in *. exists right_piece, cs. conj; auto; [cbn; tauto|]. intros q s. change (tok_eqb (fst right_piece) TWhitespace) with false. split; [intros H|intros cs' H ->]; unfold get_head_map; unfold bind at 1, ret at 1.
    + erewrite bind_ok; [|apply head_block_out; exact H]. reflexivity.
    + erewrite bind_ok; [|apply head_line_out; exact H]. reflexivity.
  - remember (kv :: a) as l eqn:El. assert (Hl : l <> []) by (subst; discriminate). clear El kv a Hc. cbn [app] in *.
    exists blank_piece, (no_lead l ++ right_piece :: cs). apply ends_cons in He. conj; auto; [cbn; tauto| |].
    { destruct l as [|[k v] l]; [congruence|]. unfold no_lead. cbn [flat_map attribute_pieces app fst]. rewrite <- !app_assoc. rewrite key_first by (apply (Ha k v); left; auto). discriminate. }
    intros q s. change (tok_eqb (fst blank_piece) TWhitespace) with true. split; [intros H|intros cs' H ->]; unfold get_head_map; fold (map_body E); (erewrite bind_ok; [|apply map_read; auto]); rewrite collected_all by auto; cbn [app].
    + erewrite bind_ok; [|apply head_block_in; exact H]. reflexivity.
    + erewrite bind_ok; [|apply head_line_in; exact H]. reflexivity.
Qed.
Lemma map_head con star p sol o a cs s br f : good_name o -> (forall k v, In (k, v) a -> key_name k /\ ~ In 13%N v) -> NoDup (map (fun kv : attribute => slower (fst kv)) a) ->
  ends (head_pieces star o (flat_map attribute_pieces a) ++ cs) -> get_block_rule E con o = Some (br, f) -> negb (br_star br) && star = false -> (a = [] -> first cs <> TWhitespace) ->
  exists h cs0, parse_block E con star (on p sol (head_pieces star o (flat_map attribute_pieces a) ++ cs)) s = f br o star false h (on (with_rule (br_name br) p) false cs0) s /\
    forall q, ((br_newlines br = true -> first cs <> TLineBreak) -> get_head_map E br h (on q false cs0) s = ROk a (on q false cs) s) /\
      (forall cs', br_newlines br = true -> cs = line_piece :: cs' -> get_head_map E br h (on q false cs0) s = ROk a (on q true cs') s).
Proof.
  intros Ho Ha Hn He Hr Hs Hc. unfold head_pieces in *. cbn [app] in *. rewrite <- !app_assoc in *. cbn [app] in *. pose proof (ends_app E _ _ (ends_cons E _ _ He)) as He'.
  destruct (map_after br a cs Ha Hn He' Hc) as (x & cs0 & E1 & Hx & Hf & H). rewrite E1 in *. exists (tok_eqb (fst x) TWhitespace), cs0. split; [|intro q; apply H].
  apply (parse_head E con star p sol o x cs0 s br f); auto. eapply ends_cons; exact He.
Qed.
Definition value_piece (x : piece) : Prop := In (fst x) [TIdentifier; TWhitespace; TOther; TPipe; THeading].
Lemma word_value x : word_piece x -> value_piece x. Proof. unfold word_piece, value_piece. destruct x as [[] z]; cbn; tauto. Qed.
Lemma pieces_value s : Forall value_piece (pieces s). Proof. eapply Forall_impl; [apply word_value|apply pieces_word]. Qed.
Lemma value_head con star p sol o v cs s br f : good_name o -> first v <> TWhitespace -> v <> [] -> 
  ends (head_pieces star o (blank_piece :: v) ++ cs) -> get_block_rule E con o = Some (br, f) -> negb (br_star br) && star = false ->
  parse_block E con star (on p sol (head_pieces star o (blank_piece :: v) ++ cs)) s = f br o star false true (on (with_rule (br_name br) p) false (v ++ right_piece :: cs)) s.
Proof.
  intros Ho Hv Hne He Hr Hs. unfold head_pieces in *. cbn [app] in *. rewrite <- !app_assoc in *. cbn [app] in *. rewrite <- !app_assoc in *. cbn [app] in *.
  rewrite (parse_head E con star p sol o blank_piece (v ++ right_piece :: cs) s br f); auto; [cbn; tauto|eapply ends_cons; exact He|]. destruct v as [|[k z] v]; [congruence|]. exact Hv.
Qed.
Lemma value_read {T} br (convert : option str -> M T) p sol v cs s r : Forall value_piece v -> ends (v ++ right_piece :: cs) -> (br_newlines br = true -> first cs <> TLineBreak) ->
  (forall q, convert (Some (flat v)) q s = ROk r q s) -> get_head_value E br true convert (on p sol (v ++ right_piece :: cs)) s = ROk r (on p false cs) s.
Proof.
  intros Hv He Hl Hc. unfold get_head_value.
  destruct (collect_to E (map IsToken [TRightBlock]) (map IsToken [TParagraphBreak; TLineBreak]) (Some BlockMalformedArguments) p sol s v TRightBlock (lit "]]") cs) as (t & _ & Hr); auto.
  - discriminate.
  - eapply Forall_impl; [|exact Hv]. intros [k z] Hk. unfold value_piece in Hk. cbn [fst] in Hk |- *. conj; [apply passes_tokens|apply passes_tokens|]; cbn [fst]; cbn in Hk |- *; intuition congruence.
  - rewrite bind_assoc. unfold collect_text. rewrite bind_assoc. rewrite (bind_ok _ _ _ _ _ _ _ Hr). unfold ret at 1. unfold bind at 1. cbn [fst]. unfold bind at 1. unfold ret at 1. rewrite (bind_ok _ _ _ _ _ _ _ (Hc _)).
    erewrite bind_ok; [|apply head_block_out; exact Hl]. reflexivity.
Qed.
(** *** A block is consumed. *)
Lemma on_accepts p sol cs : accepts_partial (on p sol cs) = accepts_partial p. Proof. unfold BlocksParse.on. destruct (toks E cs) eqn:E1; [destruct (toks_ne _ _ E1)|]. reflexivity. Qed.
Lemma rule_consume_g n x p sol cs name f more out r sol' cs' s s' : depth p < MAX_RECURSION_DEPTH ->
  rules_for E (consume_n E n) (fst x) = RULE name AnyPosition f :: more ->
  f (on (with_rule name (pushed p)) sol (x :: cs)) s = ROk out (on (with_rule r (pushed p)) sol' cs') s' ->
  (forall q, accepts_partial q = accepts_partial p -> check_partials (su_item out) q = None) -> length cs' <= length cs ->
  consume_n E (S n) (on p sol (x :: cs)) s = ROk out (on p sol' cs') s'.
Proof.
  intros Hd Hr Hf Hcp Hl. destruct x as [k z]. rewrite consume_S by exact Hd. rewrite on_tok.
  set (q0 := with_depth (S (depth (on p sol ((k, z) :: cs)))) (on p sol ((k, z) :: cs))).
  assert (Hq : q0 = on (pushed p) sol ((k, z) :: cs)) by reflexivity. rewrite Hq. clear q0 Hq.
  cbn [fst] in Hr. cbn [first]. rewrite Hr. cbn [consume_rules]. rewrite bind_gets. unfold attempt, try_consume. unfold bind at 1. cbn [rd_position rd_fn rd_name]. rewrite on_rule, Hf, Hcp by (rewrite on_accepts; reflexivity).
  unfold step_if_same. rewrite bind_assoc, bind_gets. unfold same_pointer.
  rewrite on_update by reflexivity. rewrite !on_len. cbn [length]. destruct (length cs' =? S (length cs)) eqn:Y; [apply Nat.eqb_eq in Y; lia|].
  unfold bind, ret, depth_decrement, modify. rewrite on_depth. f_equal.
  unfold BlocksParse.on. destruct (toks E cs') eqn:E1; [destruct (toks_ne _ _ E1)|]. unfold pushed, with_depth. cbn. rewrite ?Nat.sub_0_r. reflexivity.
Qed.
Lemma rule_consume n x p sol cs name f more out r sol' cs' s s' : depth p < MAX_RECURSION_DEPTH ->
  rules_for E (consume_n E n) (fst x) = RULE name AnyPosition f :: more ->
  f (on (with_rule name (pushed p)) sol (x :: cs)) s = ROk out (on (with_rule r (pushed p)) sol' cs') s' ->
  (forall q, check_partials (su_item out) q = None) -> length cs' <= length cs ->
  consume_n E (S n) (on p sol (x :: cs)) s = ROk out (on p sol' cs') s'.
Proof. intros. eapply rule_consume_g; eauto. Qed.
Lemma block_consume_g n star p sol cs out r sol' cs' s s' : depth p < MAX_RECURSION_DEPTH ->
  parse_block E (consume_n E n) star (on (with_rule (if star then "block-star" else "block")%string (pushed p)) sol (open_piece star :: cs)) s = ROk out (on (with_rule r (pushed p)) sol' cs') s' ->
  (forall q, accepts_partial q = accepts_partial p -> check_partials (su_item out) q = None) -> length cs' <= length cs ->
  consume_n E (S n) (on p sol (open_piece star :: cs)) s = ROk out (on p sol' cs') s'.
Proof.
  intros Hd Hf Hcp Hl. apply rule_consume_g with (name := if star then "block-star"%string else "block"%string) (f := parse_block E (consume_n E n) star) (more := []) (r := r); auto. destruct star; reflexivity.
Qed.
Lemma block_consume n star p sol cs out r sol' cs' s s' : depth p < MAX_RECURSION_DEPTH ->
  parse_block E (consume_n E n) star (on (with_rule (if star then "block-star" else "block")%string (pushed p)) sol (open_piece star :: cs)) s = ROk out (on (with_rule r (pushed p)) sol' cs') s' ->
  (forall q, check_partials (su_item out) q = None) -> length cs' <= length cs ->
  consume_n E (S n) (on p sol (open_piece star :: cs)) s = ROk out (on p sol' cs') s'.
Proof. intros. eapply block_consume_g; eauto. Qed.
(** *** Rules of the blocks. *)
Definition box_ct (k : box) : container_type :=
  match k with
  | Strong => CBold | Emphasis => CItalics | Underlined => CUnderline | Struck => CStrikethrough | Lowered => CSubscript | Raised => CSuperscript | Mono => CMonospace | Marked => CMark
  | Inserted => CInsertion | Deleted => CDeletion | Span => CSpan | Hidden => CHidden | Invisible => CInvisible | Anchored _ => CSpan
  end.
Definition box_el (k : box) (a : btmap) (es : elements) : Tree.element := match k with Anchored tab => EAnchor (if tab then Some ATNewTab else None) a es | _ => EContainer (box_ct k) a es end.
Lemma box_rule con k o : named (box_names k) o -> exists br f, get_block_rule E con o = Some (br, f) /\ br_names br = box_names k /\ (br_star br || negb (starred k) = true) /\ forall name h, f br name (starred k) false h = match k with Anchored tab => blk_anchor E con br name tab false h | _ => container_block E con br (box_ct k) false false same name h end.
Proof.
  intro H. rewrite rule_lower by (left; eapply box_names_letters; eauto). unfold named in H. remember (slower o) as n eqn:En. clear En.
  destruct k; cbn [box_names map] in H; repeat (destruct H as [<-|H]; [eexists; eexists; split; [reflexivity|]; split; [reflexivity|]; split; [reflexivity|]; intros; reflexivity|]); destruct H.
Qed.
Lemma rule_of_name con (o : String.string) br f : lookup_block (BLOCK_RULES E con) (lit o) = Some (br, f) -> slower (lit o) = lit o -> good_name (lit o) -> get_block_rule E con (lit o) = Some (br, f).
Proof. intros H Hs Hg. rewrite rule_lower by auto. rewrite Hs. exact H. Qed.
(** *** Paragraphs. *)
(** Neither is a cell of a table drawn with bars over here. *)
Definition in_cell (p : pstate) : Prop := is_column (cur_tok p) = false /\ (cur_tok p = TWhitespace -> forall t, look_ahead 0 p = Some t -> is_column (t_token t) = false).
Definition strict_at (p : pstate) : Prop := quiet (cur_tok p) = true /\ in_cell p.
(** At a line break before something else than the end of a block. *)
Definition at_break (p : pstate) : Prop := cur_tok p = TLineBreak /\ exists t r, rem p = t :: r /\ t_token t <> TLeftBlockEnd.
Definition quiet_at (p : pstate) : Prop := quiet (cur_tok p) = true \/ at_break p.
Lemma quiet_plain p : quiet (cur_tok p) = true -> is_column (cur_tok p) = false -> cur_tok p <> TWhitespace -> strict_at p.
Proof. intros H1 H2 H3. split; [exact H1|]. split; [exact H2|]. intro X. congruence. Qed.
Lemma steps_weaken (P Q : pstate -> Prop) n s p es p' : (forall q, P q -> Q q) -> steps E n s P p es p' -> steps E n s Q p es p'.
Proof. intros H X. induction X; [constructor|econstructor; eauto]. Qed.
Lemma strict_quiet n s p es p' : steps E n s strict_at p es p' -> steps E n s quiet_at p es p'. Proof. apply steps_weaken. intros q H. left. exact (proj1 H). Qed.
Lemma verify_tok b br p s : quiet (cur_tok p) = true -> verify_end_block E b br p s = ROk None p s.
Proof.
  intros Hq. unfold verify_end_block, save_evaluate_fn.
  assert (X : (if br_newlines br && negb b then get_optional_line_break else ret tt) p s = ROk tt p s).
  { destruct (br_newlines br && negb b); [|reflexivity]. unfold get_optional_line_break, get_optional_token. rewrite bind_gets. unfold is_tok. destruct (cur_tok p); try discriminate; reflexivity. }
  rewrite (bind_ok _ _ _ _ _ _ _ X). unfold get_end_block, get_token. unfold bind, gets. unfold cur_tok in Hq. destruct (t_token (cur p)); try discriminate; reflexivity.
Qed.
Lemma verify_strict b br p s : strict_at p -> verify_end_block E b br p s = ROk None p s.
Proof. intros [Hq _]. apply verify_tok. exact Hq. Qed.
Lemma verify_quiet b br p s : quiet_at p -> verify_end_block E b br p s = ROk None p s.
Proof.
  intros [H|[Hb (t & r & Hr & Ht)]]; [apply verify_tok; exact H|]. unfold verify_end_block, save_evaluate_fn.
  destruct p as [c rm ru d a f h sol]. unfold cur_tok in Hb. cbn [cur rem] in *. subst rm.
  assert (X : forall q, t_token (cur q) <> TLeftBlockEnd -> exists e, (let! name := get_end_block E in ret (existsb (eq_nocase (fst (strip_score name))) (br_names br))) q s = RErr e q s).
  { intros q Hq. unfold get_end_block, get_token. unfold bind, gets. destruct (tok_eqb (t_token (cur q)) TLeftBlockEnd) eqn:Y; [apply tok_eqb_true in Y; contradiction|]. eexists. reflexivity. }
  destruct (br_newlines br && negb b).
  - unfold bind at 1. unfold get_optional_line_break, get_optional_token. rewrite bind_gets. unfold is_tok, cur_tok. cbn [cur]. rewrite Hb, tok_refl. unfold step. unfold bind at 1. unfold ret at 1. cbn [rem].
    match goal with |- context [bind (get_end_block E) _ ?q s] => destruct (X q Ht) as [e Y]; rewrite Y end. reflexivity.
  - match goal with |- context [bind (ret tt) _ ?q s] => destruct (X q) as [e Y]; [cbn [cur]; rewrite Hb; discriminate|] end. unfold bind at 1. unfold ret at 1. rewrite Y. reflexivity.
Qed.
Lemma body_loop n br s p es p' p2 : steps E n s quiet_at p es p' -> (forall b, exists t, verify_end_block E b br p' s = ROk (Some t) p2 s) -> forall k all first, length (rem p) < k ->
  loop k (fun '(all, errs, safe, first) =>
    let! r := verify_end_block E first br in
    match r with
    | Some _ => ret (inr (PSu all errs safe))
    | None =>
        let! old := gets rem in
        let! out := consume_n E n in
        step_if_same old ;;
        ret (inl (all ++ su_item out, errs ++ su_errors out, safe && su_safe out, false))
    end) (all, [], true, first) p s = ROk (PSu (all ++ es) [] true) p2 s.
Proof.
  intros H Hc. induction H as [p|p es p1 es' p3 Hg Hco Hlt H IH]; intros k all first Hk; (destruct k as [|k]; [lia|]); cbn [loop].
  - unfold bind at 1. destruct (Hc first) as [t Ht]. rewrite (bind_ok _ _ _ _ _ _ _ Ht). rewrite app_nil_r. reflexivity.
  - unfold bind at 1. rewrite (bind_ok _ _ _ _ _ _ _ (verify_quiet first br p s Hg)). cbv iota. rewrite bind_gets, (bind_ok _ _ _ _ _ _ _ Hco). unfold step_if_same. rewrite bind_assoc, bind_gets. unfold same_pointer.
    destruct (length (rem p1) =? length (rem p)) eqn:Y; [apply Nat.eqb_eq in Y; lia|]. unfold bind at 1. unfold ret at 1. unfold ret at 1. cbn [su_item su_errors su_safe app andb]. rewrite IH by (auto; lia). rewrite <- app_assoc. reflexivity.
Qed.
Lemma body_read n br s p sol cs es sol' c cs' : steps E n s quiet_at (on p sol cs) es (on p sol' (close_pieces c ++ cs')) -> good_name c -> existsb (eq_nocase c) (br_names br) = true -> ends (close_pieces c ++ cs') ->
  get_body_elements E (consume_n E n) br false (on p sol cs) s = ROk (PSu es [] true) (on p false cs') s.
Proof.
  intros H Hc Hn He. unfold get_body_elements, get_body_no_paragraphs, looping. rewrite (body_loop n br s _ _ _ (on p false cs') H); auto. intro b. apply verify_close; auto.
Qed.
Definition page_label (p : page) (c : caption) : link_label :=
  match c with
  | Bare => LabelUrl match on_site p, category p with None, None => None | _, _ => Some (page_name p ++ more_of p) end
  | Title => LabelPage
  | Caption s => LabelText s
  end.
Definition new_tab (tab : bool) : option anchor_target := if tab then Some ATNewTab else None.
Definition jump_url (o : option str) : str := match o with Some s => lit "#" ++ en_normalize E s | None => lit "javascript:;" end.
Definition own_category : str := unwrap_or (en_category E) (lit "_default").
Fixpoint els (x : inline) : elements :=
  match x with
  | Text s => map (fun x => EText (snd x)) (pieces s)
  | Box k _ a inside _ => [box_el k (shown_attributes a) (flat_map els inside)]
  | Size z inside => [EContainer CSize [(lit "style", lit "font-size: " ++ z ++ lit ";")] (flat_map els inside)]
  | User avatar name => [EUser name avatar]
  | Checkbox checked a => [ECheckBox checked (shown_attributes a)]
  | Radio checked name a => [ERadioButton name checked (shown_attributes a)]
  | Ruby base above => [EContainer CRuby [] [EText base; EContainer CRubyText [] [EText above]]]
  | Character e => [EText match en_entity E e with Some s => s | None => [] end]
  | Equation name => [EEquationReference name]
  | PageLink tab p c => [ELink LTPage (LPage (PR (on_site p) (full_name p))) (match more_of p with [] => None | m => Some m end) (page_label p c) (new_tab tab)]
  | Link tab a c => [ELink LTDirect (LUrl (address_source a)) None (LabelText c) (new_tab tab)]
  | Jump o c => [ELink LTAnchor (LUrl (jump_url o)) None (LabelText c) None]
  | When b cs inside => if holds (en_tags E) own_category b cs then flat_map els inside else []
  | Break => [ELineBreak]
  end.
Definition calm (k : token) : Prop := ~ In k [TQuote; THeading; TEquals; TTripleDash; TClearFloatLeft; TClearFloatRight; TClearFloatBoth; TUnderscore; TBulletItem; TNumberedItem; TTableColumn; TTableColumnTitle; TTableColumnLeft; TTableColumnCenter; TTableColumnRight].
Lemma text_steps n s p rest : forall ws sol, Forall word_piece ws -> calm (first rest) -> depth p < MAX_RECURSION_DEPTH -> 
  exists sol', steps E (S n) s strict_at (on p sol (ws ++ rest)) (map (fun x => EText (snd x)) ws) (on p sol' rest).
Proof.
  induction ws as [|[k z] ws IH]; intros sol Hw Hc Hd; [exists sol; constructor|]. inversion Hw as [|? ? Hk Hw']; subst.
  assert (Hk' : In k [TIdentifier; TWhitespace; TOther]) by (unfold word_piece in Hk; cbn [fst] in Hk; destruct k; try contradiction; cbn; tauto).
  assert (Hline : line_start_token k = false) by (cbn in Hk'; intuition; subst; reflexivity).
  destruct (IH false Hw' Hc Hd) as [sol' H]. exists sol'. cbn [app map snd]. change (EText z :: map (fun x => EText (snd x)) ws) with ([EText z] ++ map (fun x : piece => EText (snd x)) ws).
  assert (Hcalm : calm (first (ws ++ rest))).
  { destruct ws as [|[k1 z1] ws]; [exact Hc|]. inversion Hw' as [|? ? Hk1 _]; subst. cbn [app first]. unfold word_piece in Hk1. cbn [fst] in Hk1. unfold calm. destruct k1; try contradiction; cbn; intuition discriminate. }
  econstructor; [| | |exact H].
  - split; [rewrite on_tok; cbn [first]; cbn in Hk'; intuition; subst; reflexivity|]. split; [rewrite on_tok; cbn [first]; cbn in Hk'; intuition; subst; reflexivity|].
    intros _ t Ht. unfold look_ahead in Ht. rewrite on_rem in Ht. assert (Y : t_token t = first (ws ++ rest)) by (destruct (ws ++ rest) as [|[k1 z1] q]; cbn [toks nth_error] in Ht; injection Ht as <-; reflexivity).
    rewrite Y. unfold calm in Hcalm. destruct (first (ws ++ rest)); try reflexivity; exfalso; apply Hcalm; cbn; tauto.
  - destruct (toks E (ws ++ rest)) as [|t r] eqn:Et; [destruct (toks_ne _ _ Et)|].
    assert (Ht : t_token t = first (ws ++ rest)) by (destruct (ws ++ rest) as [|[k1 z1] q]; cbn [toks] in Et; injection Et as <- _; reflexivity).
    rewrite (plain_consume E n (on p sol ((k, z) :: ws ++ rest)) s t r).
    + rewrite on_cur. cbn [t_slice]. f_equal; [f_equal; unfold plain_errors; cbn [t_token]; cbn in Hk'; intuition; subst; reflexivity|]. unfold adv. unfold BlocksParse.on. rewrite Et. cbn. f_equal. exact Hline.
    + exact Hd.
    + rewrite on_rem. exact Et.
    + unfold plain_at. rewrite on_cur, on_rem. cbn [t_token]. rewrite Et. unfold kind_at. cbn [nth_error option_map]. rewrite Ht. cbn in Hk'. destruct Hk' as [<-|[<-|[<-|[]]]]; auto.
      unfold calm in Hcalm. cbn in Hcalm. split; [intros [= X]; rewrite X in Hcalm; tauto|]. intros _. split; intros [= X]; rewrite X in Hcalm; tauto.
  - rewrite !on_len. cbn [length]. lia.
Qed.

(** *** Each kind of inline block. *)
Lemma head_consume_g n star o t p sol rest out r sol' cs' s s' : depth p < MAX_RECURSION_DEPTH ->
  parse_block E (consume_n E n) star (on (with_rule (if star then "block-star" else "block")%string (pushed p)) sol (head_pieces star o t ++ rest)) s = ROk out (on (with_rule r (pushed p)) sol' cs') s' ->
  (forall q, accepts_partial q = accepts_partial p -> check_partials (su_item out) q = None) -> length cs' <= length rest ->
  consume_n E (S n) (on p sol (head_pieces star o t ++ rest)) s = ROk out (on p sol' cs') s'.
Proof. intros Hd H Hc Hl. unfold head_pieces in *. cbn [app] in *. apply block_consume_g with (r := r); auto. rewrite !app_length. lia. Qed.
Lemma head_consume n star o t p sol rest out r sol' cs' s s' : depth p < MAX_RECURSION_DEPTH ->
  parse_block E (consume_n E n) star (on (with_rule (if star then "block-star" else "block")%string (pushed p)) sol (head_pieces star o t ++ rest)) s = ROk out (on (with_rule r (pushed p)) sol' cs') s' ->
  (forall q, check_partials (su_item out) q = None) -> length cs' <= length rest ->
  consume_n E (S n) (on p sol (head_pieces star o t ++ rest)) s = ROk out (on p sol' cs') s'.
Proof. intros. eapply head_consume_g; eauto. Qed.
Lemma assert_ok br name p s : existsb (eq_nocase name) (br_names br) = true -> assert_block_name E br name p s = ROk tt p s.
Proof. intro H. unfold assert_block_name, assert_name. rewrite H. cbn [negb]. rewrite andb_false_r. reflexivity. Qed.
Lemma box_lower k : map slower (box_names k) = box_names k. Proof. destruct k; reflexivity. Qed.
Lemma box_in k o : named (box_names k) o -> existsb (eq_nocase o) (box_names k) = true. Proof. intro H. apply named_in. rewrite box_lower. exact H. Qed.
Lemma box_good k o : named (box_names k) o -> good_name o. Proof. intro H. left. eapply box_names_letters; eauto. Qed.
Lemma good_nodup a : good_attributes a -> NoDup (map (fun kv : attribute => slower (fst kv)) a). Proof. intros [H _]. exact H. Qed.
Lemma box_consume n k o a c p sol cs rest es s : named (box_names k) o -> named (box_names k) c -> good_attributes a -> depth p < MAX_RECURSION_DEPTH ->
  ends (head_pieces (starred k) o (flat_map attribute_pieces a) ++ cs ++ close_pieces c ++ rest) -> (a = [] -> first (cs ++ close_pieces c ++ rest) <> TWhitespace) -> first (cs ++ close_pieces c ++ rest) <> TLineBreak ->
  (forall q, depth q = S (depth p) -> exists sol', steps E n s quiet_at (on q false (cs ++ close_pieces c ++ rest)) es (on q sol' (close_pieces c ++ rest))) ->
  consume_n E (S n) (on p sol (head_pieces (starred k) o (flat_map attribute_pieces a) ++ cs ++ close_pieces c ++ rest)) s = ROk (PSu [box_el k (shown_attributes a) es] [] true) (on p false rest) s.
Proof.
  intros Ho Hc Ha Hd He Hw Hl Hst. destruct (box_rule (consume_n E n) k o Ho) as (br & f & Hr & Hnm & Hst0 & Hf).
  pose proof (ends_app E _ _ (ends_app E _ _ He)) as Hec.
  destruct (map_head (consume_n E n) (starred k) (with_rule (if starred k then "block-star" else "block")%string (pushed p)) sol o a (cs ++ close_pieces c ++ rest) s br f) as (h & cs0 & Hp & Hm); auto.
  { eapply box_good; eauto. } { apply good_attributes_names; auto. } { apply good_nodup; auto. } { destruct (br_star br), (starred k); auto. }
  apply head_consume with (r := br_name br); auto; [|intro q; destruct k; reflexivity|rewrite !app_length; lia].
  rewrite Hp, Hf. destruct (Hst (with_rule (br_name br) (with_rule (if starred k then "block-star" else "block")%string (pushed p))) eq_refl) as [sol' Hst']. pose proof (assert_ok br o) as Hok.
  pose proof (body_read n br s _ _ _ _ _ _ _ Hst' (box_good k c Hc) ltac:(rewrite Hnm; apply box_in; auto) Hec) as Hb.
  assert (D : (exists tab, k = Anchored tab) \/ match k with Anchored tab => blk_anchor E (consume_n E n) br o tab false h | _ => container_block E (consume_n E n) br (box_ct k) false false same o h end = container_block E (consume_n E n) br (box_ct k) false false same o h /\ forall a es, box_el k a es = EContainer (box_ct k) a es) by (destruct k; eauto).
  destruct D as [[tab ->]|[-> ->]]; [unfold blk_anchor|unfold container_block]; rewrite (bind_ok _ _ _ _ _ _ _ (Hok _ s ltac:(rewrite Hnm; apply box_in; auto)));
    rewrite (bind_ok _ _ _ _ _ _ _ (proj1 (Hm _) (fun _ => Hl))).
  - rewrite (bind_ok _ _ _ _ _ _ _ (attrs_read E a _ s Ha)). rewrite (bind_ok _ _ _ _ _ _ _ Hb). reflexivity.
  - rewrite (bind_ok _ _ _ _ _ _ _ Hb). rewrite (bind_ok _ _ _ _ _ _ _ (attrs_read E a _ s Ha)). reflexivity.
Qed.
Lemma sp_ws c : is_sp c = true -> is_ws c = true. Proof. unfold is_sp, is_ws. intro H. rewrite orb_true_iff in H. destruct H as [H|H]; apply N.eqb_eq in H; subst; reflexivity. Qed.
Lemma pieces_first c r : first (pieces (c :: r)) = kind_of c /\ pieces (c :: r) <> [].
Proof. cbn [pieces]. destruct (pieces r) as [|[k z] ws]; [split; [reflexivity|discriminate]|]. destruct (tok_eqb k (kind_of c)) eqn:X; cbn [andb]; [|split; [reflexivity|discriminate]]. apply tok_eqb_true in X. subst k. destruct (negb _); split; try discriminate; reflexivity. Qed.
Lemma value_pieces v : value v -> first (pieces v) <> TWhitespace /\ pieces v <> [].
Proof.
  intro H. destruct (value_first v H) as (c & r & -> & Hc & _). destruct (pieces_first c r) as [H1 H2]. split; auto. rewrite H1. unfold kind_of. rewrite Hc. destruct (is_alnum c); discriminate.
Qed.
Lemma lit_name o : forallb is_alnum (lit o) = true -> lit o <> [] -> good_name (lit o). Proof. intros H Hn. left. split; auto. rewrite forallb_forall in H. auto. Qed.
Lemma size_consume n z p sol cs rest es s : value z -> depth p < MAX_RECURSION_DEPTH ->
  ends (head_pieces false (lit "size") (blank_piece :: pieces z) ++ cs ++ close_pieces (lit "size") ++ rest) ->
  (forall q, depth q = S (depth p) -> exists sol', steps E n s quiet_at (on q false (cs ++ close_pieces (lit "size") ++ rest)) es (on q sol' (close_pieces (lit "size") ++ rest))) ->
  consume_n E (S n) (on p sol (head_pieces false (lit "size") (blank_piece :: pieces z) ++ cs ++ close_pieces (lit "size") ++ rest)) s = ROk (PSu [EContainer CSize [(lit "style", lit "font-size: " ++ z ++ lit ";")] es] [] true) (on p false rest) s.
Proof.
  intros Hz Hd He Hst. destruct (value_pieces z Hz) as [Hz1 Hz2]. assert (Hg : good_name (lit "size")) by (apply lit_name; [reflexivity|discriminate]).
  assert (Hr : get_block_rule E (consume_n E n) (lit "size") = Some (BR "block-size" [lit "size"] false false false, blk_size E (consume_n E n))) by reflexivity.
  pose proof (ends_app E _ _ (ends_app E _ _ He)) as Hec.
  assert (Hev : ends (pieces z ++ right_piece :: cs ++ close_pieces (lit "size") ++ rest)).
  { unfold head_pieces in He. cbn [app] in He. rewrite <- !app_assoc in He. cbn [app] in He. rewrite <- !app_assoc in He. apply ends_cons, ends_app, ends_cons in He. exact He. }
  apply head_consume with (r := "block-size"%string); auto; [|rewrite !app_length; lia].
  rewrite (value_head (consume_n E n) false _ sol (lit "size") (pieces z) _ s _ _ Hg Hz1 Hz2 He Hr eq_refl). cbn [br_name]. unfold blk_size.
  erewrite bind_ok; [|apply assert_ok; reflexivity].
  erewrite bind_ok; [|apply value_read; [apply pieces_value|exact Hev|discriminate|intro; reflexivity]]. rewrite flat_pieces.
  destruct (Hst (with_rule "block-size" (with_rule "block" (pushed p))) eq_refl) as [sol' Hst'].
  rewrite (bind_ok _ _ _ _ _ _ _ (body_read n (BR "block-size" [lit "size"] false false false) s _ _ _ _ _ _ _ Hst' Hg eq_refl Hec)). reflexivity.
Qed.
(** Conditional text. *)
Definition to_condition (c : sign * str) : condition := Cond match fst c with Must => Required | MustNot => Prohibited | OneOf => Present end (snd c).
Definition signed (c : sign * str) : str := match fst c with Must => lit "+" | MustNot => lit "-" | OneOf => [] end ++ snd c.
Lemma signed_word c : good_condition c -> Forall (fun d => ceqb d 32 = false) (signed c) /\ signed c <> [] /\ (let '(t, v) := get_spec (signed c) in Cond t v) = to_condition c.
Proof.
  intros [Hw Hf]. destruct c as [k v]. cbn [fst snd] in *. destruct (value_first v (proj1 Hw)) as (d & r & -> & _).
  assert (Hs : Forall (fun d => ceqb d 32 = false) (d :: r)) by (apply Forall_forall; intros x Hx; destruct Hw as [_ Hw]; specialize (Hw x Hx); apply ceqb_neq; intros ->; apply Hw; cbn; tauto).
  specialize (Hf d r eq_refl). unfold signed, to_condition. cbn [fst snd]. destruct k; cbn [lit app]; conj; auto; try (constructor; [reflexivity|exact Hs]); try discriminate.
  unfold get_spec. cbn [strip_prefix]. destruct (ceqb 43 d) eqn:X1; [apply ceqb_eq in X1; subst d; destruct Hf; vm_compute; tauto|]. destruct (ceqb 45 d) eqn:X2; [apply ceqb_eq in X2; subst d; destruct Hf; vm_compute; tauto|]. reflexivity.
Qed.
Lemma condition_words cs : Forall good_condition cs -> words (fun c => ceqb c 32) (flat_map condition_source cs) (map signed cs).
Proof.
  induction cs as [|c cs IH]; intro H; [constructor|]. inversion H; subst. cbn [flat_map map]. unfold condition_source at 1. change (lit " " ++ ?x) with (32%N :: x). cbn [app]. apply words_sep; [reflexivity|]. fold (signed c).
  destruct (signed_word c H2) as (X1 & X2 & _). apply words_word; auto. destruct cs as [|c2 cs]; [left; reflexivity|]. right. eexists. eexists. split; [reflexivity|reflexivity].
Qed.
Lemma conditions_parse cs : Forall good_condition cs -> cond_parse (flat_map condition_source cs) = map to_condition cs.
Proof.
  intro H. unfold cond_parse. change (fun s0 : list N => match s0 with [] => false | _ :: _ => true end) with nonempty. rewrite (words_split_char _ _ _ (condition_words cs H)). rewrite map_map. apply map_ext_in. intros c Hc. rewrite Forall_forall in H. apply signed_word. auto.
Qed.
Lemma lead_parse s : cond_parse (32%N :: s) = cond_parse s. Proof. reflexivity. Qed.
Lemma conditions_check present cs : cond_check (map to_condition cs) present = meets present cs.
Proof.
  apply eq_true_iff_eq. rewrite cond_check_spec. unfold meets. rewrite andb_true_iff, forallb_forall. split.
  - intros (H1 & H2 & H3). split.
    + intros c Hc. pose proof (H1 _ (in_map to_condition _ _ Hc)) as G1. pose proof (H2 _ (in_map to_condition _ _ Hc)) as G2. destruct c as [[] v]; cbn [to_condition fst snd c_type c_value] in *; auto; [apply smem_In; auto|]. apply negb_true_iff, not_true_iff_false. intro X. apply smem_In in X. exact (G2 eq_refl X).
    + apply orb_true_iff. destruct (existsb is_one cs) eqn:X; [right|left; reflexivity]. apply existsb_exists in X as (c & Hc & Ho). destruct H3 as (c' & Hc' & Ht & Hv).
      * exists (to_condition c). split; [apply in_map; auto|]. destruct c as [[] v]; try discriminate. reflexivity.
      * apply in_map_iff in Hc' as (c1 & <- & H1c). apply existsb_exists. exists c1. split; auto. destruct c1 as [[] v]; try discriminate. cbn [to_condition fst snd c_value] in Hv. apply smem_In. exact Hv.
  - intros [H1 H2]. conj.
    + intros c Hc Ht. apply in_map_iff in Hc as (c1 & <- & H1c). specialize (H1 c1 H1c). destruct c1 as [[] v]; try discriminate. apply smem_In. exact H1.
    + intros c Hc Ht Hv. apply in_map_iff in Hc as (c1 & <- & H1c). specialize (H1 c1 H1c). destruct c1 as [[] v]; try discriminate. cbn [fst snd to_condition c_value] in *. apply smem_In in Hv. rewrite Hv in H1. discriminate.
    + intros (c & Hc & Ht). apply in_map_iff in Hc as (c1 & <- & H1c). apply orb_true_iff in H2 as [H2|H2].
      * apply negb_true_iff in H2. exfalso. apply not_true_iff_false in H2. apply H2, existsb_exists. exists c1. split; auto. destruct c1 as [[] v]; try discriminate. reflexivity.
      * apply existsb_exists in H2 as (c2 & H2c & H2). apply andb_true_iff in H2 as [Ho Hm]. exists (to_condition c2). split; [apply in_map; auto|]. destruct c2 as [[] v]; try discriminate. split; [reflexivity|]. apply smem_In. exact Hm.
Qed.
Lemma category_conditions cs : map (fun c => match c_type c with Required => Cond Present (c_value c) | _ => c end) (map to_condition cs) = map to_condition (map (fun c : sign * str => (match fst c with Must => OneOf | s => s end, snd c)) cs).
Proof. rewrite !map_map. apply map_ext. intros [[] v]; reflexivity. Qed.
Lemma conditions_value cs : Forall good_condition cs -> cs <> [] -> exists v, flat_map condition_pieces cs = blank_piece :: v /\ v <> [] /\ first v <> TWhitespace /\ Forall value_piece v /\ 32%N :: flat v = flat_map condition_source cs.
Proof.
  intros H Hn. destruct cs as [|c cs]; [congruence|]. inversion H as [|? ? Hc Hcs]; subst. exists (sign_pieces c ++ flat_map condition_pieces cs). destruct Hc as [[Hv _] Hf]. destruct (value_pieces _ Hv) as [V1 V2].
  assert (Hp : forall c, Forall value_piece (sign_pieces c)) by (intros [[] v]; unfold sign_pieces; cbn [fst snd]; try apply pieces_value; constructor; [unfold value_piece; cbn; tauto|apply pieces_value]).
  conj.
  - reflexivity.
  - destruct c as [[] v]; unfold sign_pieces; cbn [fst snd] in *; try discriminate; [|destruct (pieces v); [congruence|discriminate]]. destruct (pieces_first 45%N v) as [_ X]. destruct (pieces (45%N :: v)); [congruence|discriminate].
  - destruct c as [[] v]; unfold sign_pieces; cbn [fst snd] in *; try discriminate.
    + destruct (pieces_first 45%N v) as [X Y]. destruct (pieces (45%N :: v)) as [|[k z] ws]; [congruence|]. cbn [app first] in *. rewrite X. discriminate.
    + destruct (pieces v) as [|[k z] ws]; [congruence|]. exact V1.
  - apply Forall_app. split; [apply Hp|]. apply Forall_forall. intros x Hx. apply in_flat_map in Hx as (c' & _ & [<-|Hx]); [unfold value_piece; cbn; tauto|]. pose proof (Hp c') as Y. rewrite Forall_forall in Y. auto.
  - rewrite <- conditions_flat. reflexivity.
Qed.
Lemma when_consume n b cds p sol cs rest es s : Forall good_condition cds -> cds <> [] -> depth p < MAX_RECURSION_DEPTH ->
  ends (head_pieces false (when_name b) (flat_map condition_pieces cds) ++ cs ++ close_pieces (when_name b) ++ rest) -> first (cs ++ close_pieces (when_name b) ++ rest) <> TLineBreak ->
  (forall q, depth q = S (depth p) -> exists sol', steps E n s quiet_at (on q false (cs ++ close_pieces (when_name b) ++ rest)) es (on q sol' (close_pieces (when_name b) ++ rest))) ->
  (forall q, check_partials (if holds (en_tags E) own_category b cds then es else []) q = None) ->
  consume_n E (S n) (on p sol (head_pieces false (when_name b) (flat_map condition_pieces cds) ++ cs ++ close_pieces (when_name b) ++ rest)) s = ROk (PSu (if holds (en_tags E) own_category b cds then es else []) [] true) (on p false rest) s.
Proof.
  intros Hc Hn Hd He Hl Hst Hcp. destruct (conditions_value cds Hc Hn) as (v & Ev & Hv1 & Hv2 & Hv3 & Hv4). rewrite Ev in *. assert (Hg : good_name (when_name b)) by (left; apply when_letters).
  pose proof (ends_app E _ _ (ends_app E _ _ He)) as Hec.
  assert (Hev : ends (v ++ right_piece :: cs ++ close_pieces (when_name b) ++ rest)).
  { unfold head_pieces in He. cbn [app] in He. rewrite <- !app_assoc in He. cbn [app] in He. rewrite <- !app_assoc in He. apply ends_cons, ends_app, ends_cons in He. exact He. }
  assert (Hpa : cond_parse (flat v) = map to_condition cds) by (rewrite <- lead_parse, Hv4; apply conditions_parse; auto).
  set (br := BR (if b then "block-ifcategory" else "block-iftags")%string [when_name b] false false true).
  assert (Hr : get_block_rule E (consume_n E n) (when_name b) = Some (br, if b then blk_ifcategory E (consume_n E n) else blk_iftags E (consume_n E n))) by (destruct b; reflexivity).
  assert (Hnm : existsb (eq_nocase (when_name b)) [when_name b] = true) by (destruct b; reflexivity).
  apply head_consume with (r := br_name br); auto; [|rewrite !app_length; lia].
  rewrite (value_head (consume_n E n) false _ sol (when_name b) v _ s _ _ Hg Hv2 Hv1 He Hr eq_refl).
  destruct (Hst (with_rule (br_name br) (with_rule "block" (pushed p))) eq_refl) as [sol' Hst']. pose proof (body_read n br s _ _ _ _ _ _ _ Hst' Hg Hnm Hec) as Hb.
  destruct b.
  - unfold blk_ifcategory. erewrite bind_ok; [|apply assert_ok; reflexivity]. erewrite bind_ok; [|apply value_read; [exact Hv3|exact Hev|auto|intro; rewrite Hpa, category_conditions; reflexivity]].
    rewrite (bind_ok _ _ _ _ _ _ _ Hb). cbn [su_item su_safe su_errors]. unfold check_ifcategory. rewrite conditions_check. reflexivity.
  - unfold blk_iftags. erewrite bind_ok; [|apply assert_ok; reflexivity]. erewrite bind_ok; [|apply value_read; [exact Hv3|exact Hev|auto|intro; rewrite Hpa; reflexivity]].
    rewrite (bind_ok _ _ _ _ _ _ _ Hb). cbn [su_item su_safe su_errors]. rewrite conditions_check. reflexivity.
Qed.
(** Blocks with a value and nothing inside. *)
Lemma leaf_consume n star o name names st f v p sol rest s x : good_name (lit o) -> first v <> TWhitespace -> v <> [] -> Forall value_piece v -> depth p < MAX_RECURSION_DEPTH ->
  get_block_rule E (consume_n E n) (lit o) = Some (BR name (map lit names) st false false, f) -> negb st && star = false -> ends (head_pieces star (lit o) (blank_piece :: v) ++ rest) ->
  (forall q sl s, ends (v ++ right_piece :: rest) -> f (BR name (map lit names) st false false) (lit o) star false true (on q sl (v ++ right_piece :: rest)) s = ROk (PSu [x] [] true) (on q false rest) s) -> (match x with EPartial _ => False | _ => True end) ->
  consume_n E (S n) (on p sol (head_pieces star (lit o) (blank_piece :: v) ++ rest)) s = ROk (PSu [x] [] true) (on p false rest) s.
Proof.
  intros Hg Hv Hne Hvp Hd Hr Hs He Hf Hx.
  assert (Hev : ends (v ++ right_piece :: rest)).
  { unfold head_pieces in He. cbn [app] in He. rewrite <- !app_assoc in He. cbn [app] in He. rewrite <- !app_assoc in He. apply ends_cons, ends_app, ends_cons in He. exact He. }
  apply head_consume with (r := name); auto.
  - rewrite (value_head (consume_n E n) star _ sol (lit o) v _ s _ _ Hg Hv Hne He Hr Hs). cbn [br_name]. rewrite Hf by auto. reflexivity.
  - apply check_ones. cbn [su_item forallb]. destruct x; auto; contradiction.
Qed.
Ltac good := apply lit_name; [reflexivity|discriminate].
Lemma user_consume n star v p sol rest s : value v -> depth p < MAX_RECURSION_DEPTH -> ends (head_pieces star (lit "user") (blank_piece :: pieces v) ++ rest) ->
  consume_n E (S n) (on p sol (head_pieces star (lit "user") (blank_piece :: pieces v) ++ rest)) s = ROk (PSu [EUser v star] [] true) (on p false rest) s.
Proof.
  intros Hv Hd He. destruct (value_pieces v Hv) as [Hv1 Hv2]. eapply leaf_consume with (names := ["user"%string]) (st := true) (f := blk_user E); auto; [good|apply pieces_value|reflexivity|].
  intros q sl s' Hev. unfold blk_user. erewrite bind_ok; [|apply assert_ok; reflexivity]. erewrite bind_ok; [|apply value_read with (r := v); auto; [apply pieces_value|discriminate|]]; [reflexivity|].
  intro q'. rewrite flat_pieces. cbn [required]. rewrite value_trim by auto. reflexivity.
Qed.
Lemma eref_consume n v p sol rest s : value v -> depth p < MAX_RECURSION_DEPTH -> ends (head_pieces false (lit "eref") (blank_piece :: pieces v) ++ rest) ->
  consume_n E (S n) (on p sol (head_pieces false (lit "eref") (blank_piece :: pieces v) ++ rest)) s = ROk (PSu [EEquationReference v] [] true) (on p false rest) s.
Proof.
  intros Hv Hd He. destruct (value_pieces v Hv) as [Hv1 Hv2]. eapply leaf_consume with (names := ["equation"; "eref"; "eqref"]%string) (st := false) (f := blk_equation_ref E); auto; [good|apply pieces_value|reflexivity|].
  intros q sl s' Hev. unfold blk_equation_ref. erewrite bind_ok; [|apply assert_ok; reflexivity]. erewrite bind_ok; [|apply value_read with (r := v); auto; [apply pieces_value|discriminate|]]; [reflexivity|].
  intro q'. rewrite flat_pieces. cbn [required]. rewrite value_trim by auto. reflexivity.
Qed.
Lemma letters_entity e : letters e -> strip_entity e = e.
Proof.
  intro H. unfold strip_entity. rewrite value_trim by (apply letters_value_; auto). destruct H as [Hn H]. destruct e as [|c e]; [congruence|]. cbn [strip_prefix].
  assert (Hc : ceqb 38 c = false) by (apply ceqb_neq; intros <-; specialize (H 38%N (or_introl eq_refl)); discriminate). rewrite Hc.
  destruct (rev (c :: e)) as [|d r] eqn:X; auto. destruct (ceqb d 59) eqn:Y; auto. apply ceqb_eq in Y. subst d. specialize (H 59%N ltac:(apply in_rev; rewrite X; left; auto)). discriminate.
Qed.
Lemma char_consume n e t p sol rest s : letters e -> en_entity E e = Some t -> depth p < MAX_RECURSION_DEPTH -> ends (head_pieces false (lit "char") (blank_piece :: pieces e) ++ rest) ->
  consume_n E (S n) (on p sol (head_pieces false (lit "char") (blank_piece :: pieces e) ++ rest)) s = ROk (PSu [EText t] [] true) (on p false rest) s.
Proof.
  intros Hl Ht Hd He. destruct (value_pieces e (letters_value_ e Hl)) as [Hv1 Hv2]. eapply leaf_consume with (names := ["char"; "character"]%string) (st := false) (f := blk_char E); auto; [good|apply pieces_value|reflexivity|].
  intros q sl s' Hev. unfold blk_char. erewrite bind_ok; [|apply assert_ok; reflexivity]. erewrite bind_ok; [|apply value_read with (r := t); auto; [apply pieces_value|discriminate|]]; [reflexivity|].
  intro q'. rewrite flat_pieces. rewrite letters_entity by auto. unfold find_entity. rewrite Ht. reflexivity.
Qed.
Lemma value_pipe v : value v -> Forall (fun c => ceqb c 124 = false) v.
Proof.
  intro H. apply Forall_forall. intros c Hc. apply ceqb_neq. intros ->. apply in_split in Hc as (a & b & ->). destruct (value_plain _ H a 124%N b eq_refl) as [X|[X _]]; [apply X; cbn; tauto|cbn in X; intuition discriminate].
Qed.
Lemma ruby_consume n b v p sol rest s : value b -> value v -> depth p < MAX_RECURSION_DEPTH -> ends (head_pieces false (lit "rb") (blank_piece :: pieces b ++ (TPipe, lit "|") :: pieces v) ++ rest) ->
  consume_n E (S n) (on p sol (head_pieces false (lit "rb") (blank_piece :: pieces b ++ (TPipe, lit "|") :: pieces v) ++ rest)) s = ROk (PSu [EContainer CRuby [] [EText b; EContainer CRubyText [] [EText v]]] [] true) (on p false rest) s.
Proof.
  intros Hb Hv Hd He. destruct (value_pieces b Hb) as [Hv1 Hv2]. 
  assert (Hp : Forall value_piece (pieces b ++ (TPipe, lit "|") :: pieces v)) by (apply Forall_app; split; [apply pieces_value|constructor; [cbn; tauto|apply pieces_value]]).
  eapply leaf_consume with (names := ["rb"; "ruby2"]%string) (st := false) (f := blk_rb E); auto; [good| | |reflexivity|].
  - destruct (pieces b); [congruence|exact Hv1].
  - destruct (pieces b); discriminate.
  - intros q sl s' Hev. unfold blk_rb. erewrite bind_ok; [|apply assert_ok; reflexivity]. erewrite bind_ok; [|apply value_read with (r := (b, v)); auto; [discriminate|]]; [reflexivity|].
    intro q'. rewrite flat_app. cbn [flat flat_map snd]. fold (flat (pieces v)). rewrite !flat_pieces. change (lit "|" ++ v) with (124%N :: v). rewrite split_char_word by (apply value_pipe; auto). rewrite split_char_nosep by (apply value_pipe; auto). rewrite !value_trim by auto. reflexivity.
Qed.
Lemma checkbox_consume n star a p sol rest s : good_attributes a -> depth p < MAX_RECURSION_DEPTH -> first rest <> TWhitespace -> ends (head_pieces star (lit "checkbox") (flat_map attribute_pieces a) ++ rest) ->
  consume_n E (S n) (on p sol (head_pieces star (lit "checkbox") (flat_map attribute_pieces a) ++ rest)) s = ROk (PSu [ECheckBox star (shown_attributes a)] [] true) (on p false rest) s.
Proof.
  intros Ha Hd Hw He. set (br := BR "block-checkbox" [lit "checkbox"] true false false).
  destruct (map_head (consume_n E n) star (with_rule (if star then "block-star" else "block") (pushed p)) sol (lit "checkbox") a rest s br (blk_checkbox E)) as (h & cs0 & Hp & Hm); auto; [good|apply good_attributes_names; auto|apply good_nodup; auto|].
  apply head_consume with (r := "block-checkbox"%string); auto. rewrite Hp. unfold blk_checkbox. rewrite (bind_ok _ _ _ _ _ _ _ (assert_ok br (lit "checkbox") _ s eq_refl)).
  rewrite (bind_ok _ _ _ _ _ _ _ (proj1 (Hm _) ltac:(discriminate))). unfold get_optional_space. erewrite bind_ok; [|apply opt_no; auto]. rewrite (bind_ok _ _ _ _ _ _ _ (attrs_read E a _ s Ha)). reflexivity.
Qed.
Lemma word_read er p sol o x cs s : word o -> In (fst x) [TWhitespace; TRightBlock] -> ends (pieces o ++ x :: cs) ->
  get_block_name_internal E er (on p sol (pieces o ++ x :: cs)) s = ROk (o, tok_eqb (fst x) TWhitespace) (on p false cs) s.
Proof.
  intros [Ho Hb] Hx He. destruct x as [k z]. cbn [fst] in Hx.
  destruct (collect_to E (map IsToken [TWhitespace; TLineBreak; TParagraphBreak; TRightBlock]) [] (Some er) p sol s (pieces o) k z cs) as (t & Et & Hr); auto.
  - apply stops_tokens. cbn in Hx |- *. intuition.
  - cbn in Hx. intuition congruence.
  - pose proof (pieces_word o) as Hw. pose proof (flat_pieces o) as Hfl. rewrite Forall_forall in *. intros [k0 z0] Hk.
    assert (Hn : k0 = TIdentifier \/ k0 = TOther).
    { specialize (Hw _ Hk). unfold word_piece in Hw. cbn [fst snd] in Hw. destruct k0; try contradiction; auto. destruct Hw as [Hne Hsp]. destruct z0 as [|d z0]; [congruence|]. inversion Hsp as [|? ? Hd _]; subst. exfalso. apply (Hb d).
      - rewrite <- Hfl. unfold flat. apply in_flat_map. exists (TWhitespace, d :: z0). split; auto. left. auto.
      - unfold is_sp in Hd. apply orb_true_iff in Hd as [Hd|Hd]; apply N.eqb_eq in Hd; subst; cbn; tauto. }
    conj; [apply passes_tokens; cbn [fst]; destruct Hn; subst; cbn; intuition discriminate|intros q sl rest; reflexivity|cbn [fst]; destruct Hn; subst; discriminate].
  - unfold get_block_name_internal. rewrite (bind_ok _ _ _ _ _ _ _ Hr). cbv beta iota zeta. rewrite Et, flat_pieces, value_trim by auto. cbn in Hx. destruct Hx as [<-|[<-|[]]]; reflexivity.
Qed.
Lemma radio_consume n star v a p sol rest s : word v -> good_attributes a -> depth p < MAX_RECURSION_DEPTH -> first rest <> TWhitespace -> ends (head_pieces star (lit "radio") (blank_piece :: pieces v ++ flat_map attribute_pieces a) ++ rest) ->
  consume_n E (S n) (on p sol (head_pieces star (lit "radio") (blank_piece :: pieces v ++ flat_map attribute_pieces a) ++ rest)) s = ROk (PSu [ERadioButton v star (shown_attributes a)] [] true) (on p false rest) s.
Proof.
  intros Hv Ha Hd Hw He. set (br := BR "block-radio" [lit "radio"; lit "radio-button"] true false false). destruct (value_pieces v (proj1 Hv)) as [Hv1 Hv2].
  assert (Hr : get_block_rule E (consume_n E n) (lit "radio") = Some (br, blk_radio E)) by reflexivity.
  assert (Hev : ends (pieces v ++ flat_map attribute_pieces a ++ right_piece :: rest)).
  { unfold head_pieces in He. cbn [app] in He. rewrite <- !app_assoc in He. cbn [app] in He. rewrite <- !app_assoc in He. apply ends_cons, ends_app, ends_cons in He. exact He. }
  apply head_consume with (r := "block-radio"%string); auto. rewrite (value_head (consume_n E n) star _ sol (lit "radio") (pieces v ++ flat_map attribute_pieces a) rest s br (blk_radio E)); auto; [|good|destruct (pieces v); [congruence|exact Hv1]|destruct (pieces v); [congruence|discriminate]].
  unfold blk_radio. rewrite (bind_ok _ _ _ _ _ _ _ (assert_ok br (lit "radio") _ s eq_refl)). unfold get_head_name_map. cbn [negb]. rewrite <- app_assoc. cbn [app].
  destruct (map_after br a rest (good_attributes_names a Ha) (good_nodup a Ha) (ends_app E _ _ Hev) (fun _ => Hw)) as (x & cs0 & E1 & Hx & Hf & H). rewrite E1 in *.
  rewrite bind_assoc. erewrite bind_ok; [|apply word_read; auto]. cbv beta iota zeta. rewrite bind_assoc. rewrite (bind_ok _ _ _ _ _ _ _ (proj1 (H _ _) ltac:(discriminate))). unfold bind at 1. unfold ret at 1. cbv beta iota zeta.
  unfold get_optional_space. erewrite bind_ok; [|apply opt_no; auto]. rewrite (bind_ok _ _ _ _ _ _ _ (attrs_read E a _ s Ha)). reflexivity.
Qed.
(** Links. *)
Lemma check_yes k p sol z cs s {A} (m : M A) : bind (check_step k) (fun _ => m) (on p sol ((k, z) :: cs)) s = m (on p (line_start_token k) cs) s.
Proof. unfold check_step. rewrite bind_assoc, bind_gets, on_cur. cbn [t_token]. rewrite tok_refl. rewrite bind_assoc, stepu. reflexivity. Qed.
Definition bare_piece (x : piece) : Prop := ~ In (fst x) [TWhitespace; TRightBracket; TParagraphBreak; TLineBreak; TInputEnd].
Lemma read_to close invalid ws k z cs p sol s : In k close -> k <> TInputEnd -> Forall (fun x => ~ In (fst x) (TInputEnd :: close ++ invalid)) ws -> ends (ws ++ (k, z) :: cs) ->
  exists t, t_token t = k /\ collect_text_keep (en_text E) (map IsToken close) (map IsToken invalid) None (on p sol (ws ++ (k, z) :: cs)) s = ROk (flat ws, t) (on p (line_start_token k) cs) s.
Proof.
  intros Hk Hn Hw He. apply collect_to; auto; [apply stops_tokens; auto|]. eapply Forall_impl; [|exact Hw]. intros x Hx. conj; [apply passes_tokens|apply passes_tokens|]; intro X; apply Hx; cbn [In]; rewrite in_app_iff; auto.
Qed.
Lemma read_text close invalid ws k z cs p sol s : In k close -> k <> TInputEnd -> Forall (fun x => ~ In (fst x) (TInputEnd :: close ++ invalid)) ws -> ends (ws ++ (k, z) :: cs) ->
  collect_text (en_text E) (map IsToken close) (map IsToken invalid) None (on p sol (ws ++ (k, z) :: cs)) s = ROk (flat ws) (on p (line_start_token k) cs) s.
Proof. intros H1 H2 H3 H4. destruct (read_to close invalid ws k z cs p sol s H1 H2 H3 H4) as (t & _ & X). unfold collect_text. rewrite (bind_ok _ _ _ _ _ _ _ X). reflexivity. Qed.
Lemma word_tokens s l : ~ In TIdentifier l -> ~ In TOther l -> ~ In TWhitespace l -> Forall (fun x => ~ In (fst x) l) (pieces s).
Proof. intros H1 H2 H3. eapply Forall_impl; [|apply pieces_word]. intros [k z] Hk. unfold word_piece in Hk. cbn [fst] in Hk |- *. destruct k; try contradiction; auto. Qed.
Lemma word_solid s l : word s -> ~ In TIdentifier l -> ~ In TOther l -> Forall (fun x => ~ In (fst x) l) (pieces s).
Proof.
  intros [_ Hb] H1 H2. pose proof (pieces_word s) as Hw. pose proof (flat_pieces s) as Hfl. rewrite Forall_forall in *. intros [k z] Hk. specialize (Hw _ Hk). unfold word_piece in Hw. cbn [fst snd] in *. destruct k; try contradiction; auto.
  destruct Hw as [Hne Hsp]. destruct z as [|d z0]; [congruence|]. inversion Hsp as [|? ? Hd _]; subst. exfalso. apply (Hb d).
  - rewrite <- Hfl. unfold flat. apply in_flat_map. exists (TWhitespace, d :: z0). split; auto. left. auto.
  - unfold is_sp in Hd. apply orb_true_iff in Hd as [Hd|Hd]; apply N.eqb_eq in Hd; subst; cbn; tauto.
Qed.
Ltac notin := cbn; intuition discriminate.
Lemma target_tokens p l : Forall (fun k => ~ In k l) [TIdentifier; TOther; TWhitespace; TColon; TNumberedItem] -> Forall (fun x => ~ In (fst x) l) (target_pieces p).
Proof.
  intro H. rewrite Forall_forall in H. assert (P : forall s, Forall (fun x => ~ In (fst x) l) (pieces s)) by (intro s; apply word_tokens; apply H; cbn; tauto).
  unfold target_pieces. apply Forall_app. split.
  - destruct (on_site p); cbn; [|constructor]. constructor; [|constructor; [|constructor; [|constructor]]]; apply H; cbn; tauto.
  - apply Forall_app. split; [destruct (category p); cbn; [|constructor]; constructor; [|constructor; [|constructor]]; apply H; cbn; tauto|].
    apply Forall_app. split; auto. apply Forall_app. split; [destruct (path p); [apply P|constructor]|]. destruct (spot p); [|constructor]. constructor; auto. apply H. cbn. tauto.
Qed.
Lemma page_link_consume n tab q c p sol rest s : good_page_name q -> good_caption c -> depth p < MAX_RECURSION_DEPTH -> ends (inline_pieces (PageLink tab q c) ++ rest) ->
  consume_n E (S n) (on p sol (inline_pieces (PageLink tab q c) ++ rest)) s = ROk (PSu (els (PageLink tab q c)) [] true) (on p false rest) s.
Proof.
  intros Hq Hc Hd He. cbn [inline_pieces els] in *. cbn [app] in *. rewrite <- !app_assoc in *. set (k := if tab then TLeftLinkStar else TLeftLink).
  assert (Ek : link_open tab = (k, snd (link_open tab))) by (destruct tab; reflexivity).
  assert (Hbuild : forall label q0 sl, build_link E (page_source q) label (new_tab tab) (on q0 sl rest) s = ROk (PSu [ELink LTPage (LPage (PR (on_site q) (full_name q))) (match more_of q with [] => None | m => Some m end) label (new_tab tab)] [] true) (on q0 sl rest) s).
  { intros label q0 sl. unfold build_link. rewrite page_interwiki by auto. rewrite (proj2 (page_parse q Hq)). reflexivity. }
  assert (Hf : forall q0 sl, rule_link_triple E k (new_tab tab) (on q0 sl (link_open tab :: target_pieces q ++ caption_pieces c ++ [link_end] ++ rest)) s =
    ROk (PSu [ELink LTPage (LPage (PR (on_site q) (full_name q))) (match more_of q with [] => None | m => Some m end) (page_label q c) (new_tab tab)] [] true) (on q0 false rest) s).
  { intros q0 sl. unfold rule_link_triple. rewrite Ek, check_yes. destruct (source_first q Hq) as (c0 & r0 & E0 & _). apply ends_cons in He.
    destruct c as [| |t]; cbn [caption_pieces app] in *.
    - destruct (read_to [TPipe; TRightLink] [TParagraphBreak; TLineBreak] (target_pieces q) TRightLink (lit "]]]") rest q0 (line_start_token k) s) as (t & Et & Hr); [cbn; tauto|discriminate|apply target_tokens; repeat constructor; notin|exact He|].
      cbn [map] in Hr. fold tok_pb tok_lb in Hr. unfold link_end. rewrite (bind_ok _ _ _ _ _ _ _ Hr). cbv beta iota zeta. rewrite target_flat, source_trim by auto. rewrite E0, Et, <- E0. rewrite Hbuild. cbn [page_label]. rewrite page_category by auto. reflexivity.
    - destruct (read_to [TPipe; TRightLink] [TParagraphBreak; TLineBreak] (target_pieces q) TPipe (lit "|") (link_end :: rest) q0 (line_start_token k) s) as (t & Et & Hr); [cbn; tauto|discriminate|apply target_tokens; repeat constructor; notin|exact He|].
      cbn [map] in Hr. fold tok_pb tok_lb in Hr. rewrite (bind_ok _ _ _ _ _ _ _ Hr). cbv beta iota zeta. rewrite target_flat, source_trim by auto. rewrite E0, Et, <- E0. apply ends_app, ends_cons in He.
      erewrite bind_ok; [|apply (read_text [TRightLink] [TParagraphBreak; TLineBreak] [] TRightLink (lit "]]]") rest); [cbn; tauto|discriminate|constructor|exact He]]. cbn [flat flat_map]. change (trim []) with (@nil N). cbv iota. rewrite Hbuild. reflexivity.
    - destruct (read_to [TPipe; TRightLink] [TParagraphBreak; TLineBreak] (target_pieces q) TPipe (lit "|") (pieces t ++ link_end :: rest) q0 (line_start_token k) s) as (t' & Et & Hr); [cbn; tauto|discriminate|apply target_tokens; repeat constructor; notin|exact He|].
      cbn [map] in Hr. fold tok_pb tok_lb in Hr. rewrite (bind_ok _ _ _ _ _ _ _ Hr). cbv beta iota zeta. rewrite target_flat, source_trim by auto. rewrite E0, Et, <- E0. apply ends_app, ends_cons in He.
      erewrite bind_ok; [|apply (read_text [TRightLink] [TParagraphBreak; TLineBreak] (pieces t) TRightLink (lit "]]]") rest); [cbn; tauto|discriminate|apply word_tokens; notin|exact He]]. rewrite flat_pieces, value_trim by auto. destruct t as [|t0 t]; [destruct Hc as [[X _] _]; congruence|]. rewrite Hbuild. reflexivity. }
  apply rule_consume with (name := if tab then "link-triple-new-tab"%string else "link-triple"%string) (f := rule_link_triple E k (new_tab tab)) (more := []) (r := if tab then "link-triple-new-tab"%string else "link-triple"%string); auto.
  - destruct tab; reflexivity.
  - rewrite !app_length. cbn [length]. lia.
Qed.
Lemma address_tokens a l : good_address a -> Forall (fun k => ~ In k l) [TIdentifier; TOther; TUrl] -> Forall (fun x => ~ In (fst x) l) (address_pieces a).
Proof.
  intros Ha H. rewrite Forall_forall in H. destruct a as [u|m o]; cbn [address_pieces].
  - constructor; [|constructor]. apply H. cbn. tauto.
  - destruct Ha as (Hm & _ & Ho). apply Forall_app. split; [apply word_solid; auto; apply H; cbn; tauto|]. destruct o as [o|]; [|constructor]. apply word_solid; auto; apply H; cbn; tauto.
Qed.
Lemma address_valid a : good_address a -> url_valid (address_source a) = true /\ link_parse_extra (address_source a) = Some None.
Proof.
  intro Ha. assert (H : is_url (address_source a) = true \/ starts_with [47%N] (address_source a) = true).
  { destruct a as [u|m o]; [left|right; reflexivity]. destruct Ha as (sc & r & Hi & -> & _). apply is_url_iff. exists (sc ++ lit "://"), r. rewrite <- app_assoc. split; [|reflexivity]. cbn in Hi. destruct Hi as [<-|[<-|[<-|[]]]]; vm_compute; tauto. }
  assert (Hn : address_source a <> []) by (destruct a as [u|m o]; [|discriminate]; destruct Ha as (sc & r & Hi & -> & _); cbn in Hi; destruct Hi as [<-|[<-|[<-|[]]]]; discriminate).
  split.
  - unfold url_valid. destruct (address_source a); [congruence|]. apply orb_true_iff. tauto.
  - unfold link_parse_extra. destruct H as [-> | ->]; [reflexivity|rewrite !orb_true_r; reflexivity].
Qed.
Lemma link_consume n tab a c p sol rest s : good_address a -> value c -> depth p < MAX_RECURSION_DEPTH -> ends (inline_pieces (Link tab a c) ++ rest) ->
  consume_n E (S n) (on p sol (inline_pieces (Link tab a c) ++ rest)) s = ROk (PSu (els (Link tab a c)) [] true) (on p false rest) s.
Proof.
  intros Ha Hc Hd He. cbn [inline_pieces els] in *. cbn [app] in *. rewrite <- !app_assoc in *. cbn [app] in *. rewrite <- !app_assoc in *. set (k := if tab then TLeftBracketStar else TLeftBracket).
  assert (Ek : bracket_open tab = (k, snd (bracket_open tab))) by (destruct tab; reflexivity).
  assert (Hf : forall q0 sl, rule_link_single E k (new_tab tab) (on q0 sl (bracket_open tab :: address_pieces a ++ blank_piece :: pieces c ++ [bracket_end] ++ rest)) s = ROk (PSu [ELink LTDirect (LUrl (address_source a)) None (LabelText c) (new_tab tab)] [] true) (on q0 false rest) s).
  { intros q0 sl. unfold rule_link_single. rewrite Ek, check_yes. apply ends_cons in He.
    erewrite bind_ok; [|apply (read_text [TWhitespace] [TRightBracket; TParagraphBreak; TLineBreak] (address_pieces a) TWhitespace (lit " ")); [cbn; tauto|discriminate|apply address_tokens; [auto|repeat constructor; notin]|exact He]].
    rewrite address_flat. destruct (address_valid a Ha) as [-> ->]. cbn [negb]. apply ends_app, ends_cons in He.
    erewrite bind_ok; [|apply (read_text [TRightBracket] [TParagraphBreak; TLineBreak] (pieces c) TRightBracket (lit "]")); [cbn; tauto|discriminate|apply word_tokens; notin|exact He]]. rewrite flat_pieces, value_trim by auto. reflexivity. }
  apply rule_consume with (name := if tab then "link-single-new-tab"%string else "link-single"%string) (f := rule_link_single E k (new_tab tab)) (more := if tab then [] else [R_text]) (r := if tab then "link-single-new-tab"%string else "link-single"%string); auto.
  - destruct tab; reflexivity.
  - repeat (rewrite app_length; cbn [length]). lia.
Qed.
Lemma jump_consume n o c p sol rest s : (forall t, o = Some t -> word t) -> value c -> depth p < MAX_RECURSION_DEPTH -> ends (inline_pieces (Jump o c) ++ rest) ->
  consume_n E (S n) (on p sol (inline_pieces (Jump o c) ++ rest)) s = ROk (PSu (els (Jump o c)) [] true) (on p false rest) s.
Proof.
  intros Ho Hc Hd He. cbn [inline_pieces els] in *. cbn [app] in *. rewrite <- !app_assoc in *. cbn [app] in *. rewrite <- !app_assoc in *.
  assert (Hf : forall q0 sl, rule_link_anchor E (on q0 sl ((TLeftBracketAnchor, lit "[#") :: optional_pieces o pieces ++ blank_piece :: pieces c ++ [bracket_end] ++ rest)) s = ROk (PSu [ELink LTAnchor (LUrl (jump_url o)) None (LabelText c) None] [] true) (on q0 false rest) s).
  { intros q0 sl. unfold rule_link_anchor. rewrite check_yes. apply ends_cons in He.
    erewrite bind_ok; [|apply (read_text [TWhitespace] [TRightBracket; TParagraphBreak; TLineBreak] (optional_pieces o pieces) TWhitespace (lit " ")); [cbn; tauto|discriminate|destruct o; [apply word_solid; [auto|notin|notin]|constructor]|exact He]].
    apply ends_app, ends_cons in He. cbv zeta.
    erewrite bind_ok; [|apply (read_text [TRightBracket] [TParagraphBreak; TLineBreak] (pieces c) TRightBracket (lit "]")); [cbn; tauto|discriminate|apply word_tokens; notin|exact He]]. rewrite flat_pieces, value_trim by auto.
    destruct o as [t|]; [|reflexivity]. cbn [optional_pieces jump_url]. rewrite flat_pieces. destruct (Ho t eq_refl) as [[[Hn _] _] _]. destruct t as [|t0 t]; [congruence|]. reflexivity. }
  apply rule_consume with (name := "link-anchor"%string) (f := rule_link_anchor E) (more := []) (r := "link-anchor"%string); auto.
  repeat (rewrite app_length; cbn [length]). lia.
Qed.
(** *** Paragraphs. *)
Definition lone (x : inline) : bool := match x with Checkbox _ _ | Radio _ _ _ => true | _ => false end.
Definition over (k : token) : Prop := In k [TLeftBlockEnd; TLineBreak; TParagraphBreak; TInputEnd].
Definition stops (l : list inline) (rest : list piece) : Prop := calm (first rest) /\ forall x r, l = r ++ [x] -> lone x = true -> first rest <> TWhitespace.
Lemma over_calm k : over k -> calm k. Proof. unfold over, calm. cbn. intros H X. intuition congruence. Qed.
Lemma over_stops l rest : over (first rest) -> stops l rest.
Proof. intro H. split; [apply over_calm; exact H|]. intros x r _ _ X. rewrite X in H. unfold over in H. cbn in H. intuition congruence. Qed.
Lemma text_first s rest : plain s -> In (first (pieces s ++ rest)) [TIdentifier; TWhitespace; TOther] /\ (flush s -> first (pieces s ++ rest) <> TWhitespace).
Proof.
  intros [Hn _]. destruct s as [|c r]; [congruence|]. destruct (pieces_first c r) as [H1 H2]. destruct (pieces (c :: r)) as [|[k z] ws] eqn:X; [congruence|]. cbn [app first] in *. subst k. unfold kind_of. split.
  - destruct (is_alnum c); [cbn; tauto|]. destruct (is_sp c); cbn; tauto.
  - intros Hf Hk. destruct (is_alnum c); [discriminate|]. destruct (is_sp c) eqn:Y; [|discriminate]. apply (Hf c r eq_refl). unfold is_sp in Y. apply orb_true_iff in Y as [Y|Y]; apply N.eqb_eq in Y; subst; cbn; tauto.
Qed.
Lemma inline_first x rest : good_inline (en_entity E) x -> In (first (inline_pieces x ++ rest)) [TIdentifier; TWhitespace; TOther; TLeftBlock; TLeftBlockStar; TLeftLink; TLeftLinkStar; TLeftBracket; TLeftBracketStar; TLeftBracketAnchor; TLineBreak] /\
  (first (inline_pieces x ++ rest) = TWhitespace -> exists t, x = Text t /\ ~ flush t).
Proof.
  intro H. destruct x; try (cbn [inline_pieces]; match goal with |- context [starred ?k] => destruct (starred k) end; (split; [cbn; tauto|intro; discriminate])); try (split; [try destruct avatar; try destruct checked; try destruct tab; cbn; tauto|try destruct avatar; try destruct checked; try destruct tab; discriminate]).
  destruct (text_first s rest H) as [H1 H2]. cbn [inline_pieces]. split; [cbn in H1 |- *; tauto|]. intro X. exists s. split; auto. intro F. exact (H2 F X).
Qed.
Lemma inline_calm x rest : good_inline (en_entity E) x -> calm (first (inline_pieces x ++ rest)) /\ first (inline_pieces x ++ rest) <> TLeftBlockEnd /\ (x <> Break -> first (inline_pieces x ++ rest) <> TLineBreak).
Proof.
  intro H. destruct (inline_first x rest H) as [X _]. split; [|split].
  - unfold calm. destruct (first (inline_pieces x ++ rest)); cbn in X |- *; intuition discriminate.
  - intro Y. rewrite Y in X. cbn in X. intuition discriminate.
  - intros Hb. destruct x; try (cbn [inline_pieces]; match goal with |- context [starred ?k] => destruct (starred k) end; intro; discriminate); try (try destruct avatar; try destruct checked; try destruct tab; discriminate); [|congruence]. destruct (text_first s rest H) as [H1 _]. cbn [inline_pieces]. intro Y. rewrite Y in H1. cbn in H1. intuition discriminate.
Qed.
Lemma inlines_calm l rest : Forall (good_inline (en_entity E)) l -> calm (first rest) -> calm (first (flat_map inline_pieces l ++ rest)).
Proof. intros H Hr. destruct l as [|x l]; [exact Hr|]. inversion H; subst. cbn [flat_map]. rewrite <- app_assoc. apply inline_calm. auto. Qed.
Lemma inlines_first l rest : good_inside (en_entity E) l -> calm (first (flat_map inline_pieces l ++ rest)) /\ first (flat_map inline_pieces l ++ rest) <> TLineBreak \/ l = [].
Proof.
  intros [[_ Ha] H]. destruct l as [|x l]; [right; auto|]. left. inversion H; subst. cbn [flat_map]. rewrite <- app_assoc. destruct (inline_calm x (flat_map inline_pieces l ++ rest)) as (X & _ & Y); auto.
  split; auto. apply Y. intros ->. exact (proj1 (Ha l) eq_refl).
Qed.
(** *** A line break. *)
Lemma head_begins star o t rest : t = [] \/ (exists v, t = blank_piece :: v) -> exists x more, head_pieces star o t ++ rest = open_piece star :: name_pieces o ++ x :: more /\ In (fst x) [TWhitespace; TRightBlock].
Proof.
  unfold head_pieces. intros [->|[v ->]]; cbn [app]; rewrite <- ?app_assoc; cbn [app]; eexists _, _; (split; [reflexivity|cbn; tauto]).
Qed.
Lemma attributes_begin a : flat_map attribute_pieces a = [] \/ exists v, flat_map attribute_pieces a = blank_piece :: v.
Proof. rewrite attributes_head. destruct a as [|kv a]; [left|right; eexists]; reflexivity. Qed.
Definition lineless (con : M (success elements)) (name : str) : Prop := match get_block_rule E con name with Some (br, _) => br_newlines br = false | None => True end.
Lemma star_lineless con o : lineless con (lit "[[*" ++ o).
Proof.
  unfold lineless, get_block_rule. assert (X : exists r, fst (strip_score (lit "[[*" ++ o)) = 91%N :: r).
  { unfold strip_score. destruct (rev (lit "[[*" ++ o)) as [|c z] eqn:W; [eexists; reflexivity|]. destruct (ceqb c 95) eqn:Y; [|eexists; reflexivity]. cbn [fst].
    assert (V : lit "[[*" ++ o = rev z ++ [c]) by (rewrite <- (rev_involutive (lit "[[*" ++ o)), W; reflexivity). destruct (rev z) as [|d y]; [discriminate|]. cbn [app] in V. injection V as <- _. eexists. reflexivity. }
  destruct X as [r ->]. assert (Y : forallb (fun b => forallb (fun n => match n with c :: _ => negb (ceqb 91 (lower c)) | [] => true end) (br_names (fst b))) (BLOCK_RULES E con) = true) by reflexivity.
  revert Y. generalize (BLOCK_RULES E con). induction l as [|b l IH]; intro Y; [exact I|]. cbn [forallb lookup_block] in *. apply andb_true_iff in Y as [Y1 Y2].
  replace (existsb (eq_nocase (91%N :: r)) (br_names (fst b))) with false; [apply IH; exact Y2|]. symmetry. apply not_true_iff_false. intro Z. apply existsb_exists in Z as (n & Hn & Z). rewrite forallb_forall in Y1. specialize (Y1 n Hn).
  destruct n as [|c n]; [discriminate|]. unfold eq_nocase in Z. apply seqb_eq in Z. unfold slower in Z. cbn [map] in Z. injection Z as Z _. rewrite <- Z in Y1. discriminate.
Qed.
Lemma begins y rest con : good_inline (en_entity E) y -> beside Break y ->
  (exists star o x more, inline_pieces y ++ rest = open_piece star :: name_pieces o ++ x :: more /\ good_name o /\ In (fst x) [TWhitespace; TRightBlock] /\
    lineless con (if star then lit "[[*" ++ o else o)) \/
  In (first (inline_pieces y ++ rest)) [TIdentifier; TWhitespace; TOther; TLeftLink; TLeftLinkStar; TLeftBracket; TLeftBracketStar; TLeftBracketAnchor].
Proof.
  intros Hg Hb.
  assert (HL : forall (star : bool) (o : String.string) t, forallb is_alnum (lit o) = true -> lit o <> [] -> lineless con (if star then lit "[[*" ++ lit o else lit o) -> t = [] \/ (exists v, t = blank_piece :: v) ->
    exists star0 o0 x more, head_pieces star (lit o) t ++ rest = open_piece star0 :: name_pieces o0 ++ x :: more /\ good_name o0 /\ In (fst x) [TWhitespace; TRightBlock] /\ lineless con (if star0 then lit "[[*" ++ o0 else o0)).
  { intros star o t H1 H2 H3 H4. destruct (head_begins star (lit o) t rest H4) as (x & more & X & Y). exists star, (lit o), x, more. split; [exact X|]. split; [apply lit_name; auto|]. split; [exact Y|exact H3]. }
  destruct y as [s|k o a inside c|z inside|b n|b a|b n a|b a|e|n|b p c|b a c|o c|b cs inside|]; cbn [inline_pieces].
  - right. destruct (text_first s rest Hg) as [H _]. cbn in H |- *. tauto.
  - left. apply good_box in Hg as (Ho & _). rewrite <- !app_assoc. destruct (head_begins (starred k) o (flat_map attribute_pieces a) (flat_map inline_pieces inside ++ close_pieces c ++ rest) (attributes_begin a)) as (x & more & X & Y).
    exists (starred k), o, x, more. split; [exact X|]. split; [eapply box_good; eauto|]. split; [exact Y|]. destruct (starred k); [apply star_lineless|]. unfold lineless. rewrite rule_lower by (eapply box_good; eauto). unfold named in Ho. remember (slower o) as m eqn:En. clear En.
    destruct k; try contradiction; cbn [box_names map] in Ho; repeat (destruct Ho as [<-|Ho]; [reflexivity|]); destruct Ho.
  - left. rewrite <- app_assoc. destruct (head_begins false (lit "size") (blank_piece :: pieces z) ((flat_map inline_pieces inside ++ close_pieces (lit "size")) ++ rest)) as (x' & more' & X' & Y'); [right; eexists; reflexivity|].
    exists false, (lit "size"), x', more'. split; [exact X'|]. split; [apply lit_name; [reflexivity|discriminate]|]. split; [exact Y'|reflexivity].
  - left. apply (HL b "user"%string); [reflexivity|discriminate|destruct b; reflexivity|right; eexists; reflexivity].
  - left. apply (HL b "checkbox"%string); [reflexivity|discriminate|destruct b; reflexivity|apply attributes_begin].
  - left. apply (HL b "radio"%string); [reflexivity|discriminate|destruct b; reflexivity|right; eexists; reflexivity].
  - left. apply (HL false "rb"%string); [reflexivity|discriminate|reflexivity|right; eexists; reflexivity].
  - left. apply (HL false "char"%string); [reflexivity|discriminate|reflexivity|right; eexists; reflexivity].
  - left. apply (HL false "eref"%string); [reflexivity|discriminate|reflexivity|right; eexists; reflexivity].
  - right. destruct b; cbn; tauto.
  - right. destruct b; cbn; tauto.
  - right. cbn. tauto.
  - destruct Hb.
  - destruct Hb.
Qed.
Lemma star_name o : good_name o -> trim (lit "[[*" ++ o) = lit "[[*" ++ o.
Proof.
  intro H. apply trim_id; [intros c r X; injection X as <- _; reflexivity|]. intros c r X. assert (Hc : In c (lit "[[*" ++ o)) by (rewrite X; apply in_or_app; right; left; auto).
  apply in_app_or in Hc as [Hc|Hc]; [cbn in Hc; destruct Hc as [<-|[<-|[<-|[]]]]; reflexivity|]. destruct (name_chars o c H Hc) as [Y|Y]; [apply alnum_ws; auto|]. cbn in Y. destruct Y as [<-|[<-|[<-|[]]]]; reflexivity.
Qed.
Lemma star_read er p sol o x cs s : good_name o -> In (fst x) [TWhitespace; TRightBlock] -> ends (open_piece true :: name_pieces o ++ x :: cs) ->
  get_block_name_internal E er (on p sol (open_piece true :: name_pieces o ++ x :: cs)) s = ROk (lit "[[*" ++ o, tok_eqb (fst x) TWhitespace) (on p false cs) s.
Proof.
  intros Ho Hx He. destruct x as [k z]. cbn [fst] in Hx. destruct (name_tokens o Ho) as [Ht _]. change (open_piece true :: name_pieces o ++ (k, z) :: cs) with ((open_piece true :: name_pieces o) ++ (k, z) :: cs) in *.
  destruct (collect_to E (map IsToken [TWhitespace; TLineBreak; TParagraphBreak; TRightBlock]) [] (Some er) p sol s (open_piece true :: name_pieces o) k z cs) as (t & Et & Hr); auto.
  - apply stops_tokens. cbn in Hx |- *. intuition.
  - cbn in Hx. intuition congruence.
  - constructor; [split; [apply passes_tokens; cbn; intuition discriminate|split; [intros q sl rest; reflexivity|discriminate]]|].
    eapply Forall_impl; [|exact Ht]. intros [k0 z0] Hk. cbn [fst] in *. split; [apply passes_tokens; cbn [fst]; intro X; apply Hk; cbn in X |- *; tauto|]. split; [intros q sl rest; reflexivity|]. intro X. apply Hk. rewrite X. cbn. tauto.
  - unfold get_block_name_internal. rewrite (bind_ok _ _ _ _ _ _ _ Hr). cbv beta iota zeta. change (flat (open_piece true :: name_pieces o)) with (lit "[[*" ++ flat (name_pieces o)). rewrite Et, name_flat, star_name by auto. cbn in Hx. destruct Hx as [<-|[<-|[]]]; reflexivity.
Qed.
Lemma skip_not n q sol y rest s : good_inline (en_entity E) y -> beside Break y -> ends (inline_pieces y ++ rest) -> exists e q', block_skip E (consume_n E n) (on q sol (line_piece :: inline_pieces y ++ rest)) s = RErr e q' s.
Proof.
  intros Hg Hu He. destruct (begins y rest (consume_n E n) Hg Hu) as [(star & o & x & more & X & Ho & Hx & Hl)|H].
  - rewrite X in *. unfold block_skip. set (cs := open_piece star :: name_pieces o ++ x :: more) in *. destruct (step_on E q sol line_piece cs s) as [t Ht].
    assert (Ht2 : t_token t = if star then TLeftBlockStar else TLeftBlock) by (unfold cs in Ht; unfold step, BlocksParse.on in Ht; destruct star; cbn in Ht; injection Ht as <-; reflexivity).
    rewrite (bind_ok _ _ _ _ _ _ _ Ht). rewrite Ht2. cbn [fst line_piece line_start_token].
    assert (Hev : evaluate_fn (let! (name, _) := get_block_name E false in ret match get_block_rule E (consume_n E n) name with Some (br, _) => br_newlines br | None => false end) (on q true cs) s = ROk false (on q true cs) s).
    { unfold evaluate_fn. unfold get_block_name, cs. rewrite bind_assoc. unfold lineless in Hl. destruct star.
      - erewrite bind_ok; [|apply opt_no; discriminate]. rewrite bind_assoc. unfold get_optional_space. erewrite bind_ok; [|apply opt_no; discriminate].
        erewrite bind_ok; [|apply star_read; auto]. cbv beta iota zeta. destruct (get_block_rule E (consume_n E n) (lit "[[*" ++ o)) as [[br f]|]; [rewrite Hl|]; reflexivity.
      - erewrite bind_ok; [|apply (opt_yes E TLeftBlock q true (open_piece false)); reflexivity].
        rewrite bind_assoc. unfold get_optional_space. erewrite bind_ok; [|apply opt_no; intro Y; apply (name_first_tok o (x :: more) Ho); rewrite Y; cbn; tauto].
        erewrite bind_ok; [|apply name_read; auto; eapply ends_cons; exact He]. cbv beta iota zeta. destruct (get_block_rule E (consume_n E n) o) as [[br f]|]; [rewrite Hl|]; reflexivity. }
    replace (match (if star then TLeftBlockStar else TLeftBlock) with TLeftBlock | TLeftBlockStar => true | _ => false end) with true by (destruct star; reflexivity).
    rewrite (bind_ok _ _ _ _ _ _ _ Hev). eexists _, _. reflexivity.
  - unfold block_skip. destruct (step_on E q sol line_piece (inline_pieces y ++ rest) s) as [t Ht].
    assert (Ht2 : t_token t = first (inline_pieces y ++ rest)) by (unfold step, BlocksParse.on in Ht; destruct (inline_pieces y ++ rest) as [|[k z] m]; cbn in Ht; injection Ht as <-; reflexivity).
    rewrite (bind_ok _ _ _ _ _ _ _ Ht), Ht2. cbn [fst line_piece line_start_token].
    assert (Hev : forall m p, evaluate_fn (if match first (inline_pieces y ++ rest) with TLeftBlock | TLeftBlockStar => true | _ => false end then m else ret false) p s = ROk false p s).
    { intros m p. cbn in H. destruct (first (inline_pieces y ++ rest)); try reflexivity; intuition discriminate. }
    unfold bind at 1. rewrite Hev. eexists _, _. reflexivity.
Qed.

Lemma inlines_flush l rest : Forall (good_inline (en_entity E)) l -> starts_flush l -> over (first rest) -> first (flat_map inline_pieces l ++ rest) <> TWhitespace.
Proof.
  intros H Hs Hr. destruct l as [|x l]; [cbn [flat_map app]; unfold over in Hr; cbn in Hr; intuition congruence|]. inversion H; subst. cbn [flat_map]. rewrite <- app_assoc. destruct (inline_first x (flat_map inline_pieces l ++ rest)) as [_ X]; auto.
  intro Y. destruct (X Y) as (t & -> & Hf). apply Hf. eapply Hs. reflexivity.
Qed.
Lemma after_blank y rest z cs : good_inline (en_entity E) y -> calm (first rest) -> inline_pieces y ++ rest = (TWhitespace, z) :: cs -> calm (first cs).
Proof.
  intros Hg Hr X. destruct (inline_first y rest Hg) as [_ Y]. rewrite X in Y. destruct (Y eq_refl) as (t & -> & _). cbn [inline_pieces] in X. pose proof (pieces_word t) as Hw. destruct (pieces t) as [|w ws] eqn:Ep.
  - exfalso. apply (proj1 Hg). rewrite <- (flat_pieces t), Ep. reflexivity.
  - injection X as _ <-. inversion Hw as [|? ? _ Hw']; subst. destruct ws as [|[k1 z1] ws]; [exact Hr|]. inversion Hw' as [|? ? Hk1 _]; subst. cbn [app first]. unfold word_piece in Hk1. cbn [fst] in Hk1. unfold calm. destruct k1; try contradiction; cbn; intuition discriminate.
Qed.
Lemma break_consume n p sol y rest s : depth p < MAX_RECURSION_DEPTH -> good_inline (en_entity E) y -> beside Break y -> calm (first rest) -> ends (inline_pieces y ++ rest) ->
  consume_n E (S n) (on p sol (line_piece :: inline_pieces y ++ rest)) s = ROk (PSu [ELineBreak] [] true) (on p true (inline_pieces y ++ rest)) s.
Proof.
  intros Hd Hg Hb Hr He. set (cs := inline_pieces y ++ rest) in *. unfold line_piece. rewrite consume_S by exact Hd. rewrite on_tok.
  set (q0 := with_depth (S (depth (on p sol ((TLineBreak, [10%N]) :: cs)))) (on p sol ((TLineBreak, [10%N]) :: cs))).
  assert (Hq : q0 = on (pushed p) sol (line_piece :: cs)) by reflexivity. rewrite Hq. clear q0 Hq. cbn [first rules_for].
  assert (F1 : fails (RULE "block-skip" AnyPosition (block_skip E (consume_n E n))) (on (pushed p) sol (line_piece :: cs)) s).
  { apply rule_fails. cbn [rd_fn rd_name]. rewrite on_rule. apply skip_not; auto. }
  assert (Hc1 : calm (first cs) /\ first cs <> TColon). { split; [apply inline_calm; exact Hg|]. destruct (inline_first y rest Hg) as [X _]. fold cs in X. intro Y. rewrite Y in X. cbn in X. intuition discriminate. }
  assert (F2 : fails (RULE "definition-list-skip-newline" AnyPosition rule_def_skip) (on (pushed p) sol (line_piece :: cs)) s).
  { apply rule_fails. cbn [rd_fn rd_name]. rewrite on_rule. unfold rule_def_skip. rewrite bind_gets. unfold next_is, look_ahead. rewrite on_rem.
    destruct (toks E cs) as [|t r] eqn:Et; [destruct (toks_ne _ _ Et)|]. assert (Ht : t_token t = first cs) by (destruct cs as [|[k z] q]; cbn [toks] in Et; injection Et as <- _; reflexivity).
    cbn [nth_error]. destruct (tok_eqb (t_token t) TColon) eqn:Y; [apply tok_eqb_true in Y; rewrite Ht in Y; destruct (proj2 Hc1 Y)|]. rewrite andb_false_r. eexists _, _. reflexivity. }
  match goal with |- context [consume_rules (?a :: ?b :: ?l) [] ?p s] => destruct (skip_rule a (b :: l) [] p s F1) as [e1 ->]; destruct (skip_rule b l e1 p s F2) as [e2 ->] end.
  set (L := [TQuote; TBulletItem; TNumberedItem; THeading; TEquals; TTripleDash; TClearFloatLeft; TClearFloatRight; TClearFloatBoth; TTableColumn; TTableColumnLeft; TTableColumnRight; TTableColumnCenter; TTableColumnTitle]).
  assert (Hany : forall q sl cs', calm (first cs') -> gets (is_any L) (on q sl cs') s = ROk false (on q sl cs') s).
  { intros q sl cs' H. unfold gets. f_equal. unfold is_any. rewrite on_tok. unfold calm in H. destruct (first cs'); try reflexivity; exfalso; apply H; cbn; tauto. }
  assert (Hs : forall q, evaluate_fn (step ;; get_optional_space ;; gets (is_any L)) (on q sol (line_piece :: cs)) s = ROk false (on q sol (line_piece :: cs)) s).
  { intro q. unfold evaluate_fn. destruct (step_on E q sol line_piece cs s) as [t Ht]. rewrite (bind_ok _ _ _ _ _ _ _ Ht). cbn [fst line_piece line_start_token]. unfold get_optional_space.
    destruct (tok_eqb (first cs) TWhitespace) eqn:Y.
    - apply tok_eqb_true in Y. destruct cs as [|[k z] cs'] eqn:Ecs; [discriminate|]. cbn [first] in Y. subst k. erewrite bind_ok; [|apply opt_yes; reflexivity]. rewrite Hany; [reflexivity|]. eapply after_blank; eauto.
    - erewrite bind_ok; [|apply opt_no; intro X; rewrite X in Y; discriminate]. rewrite Hany; [reflexivity|]. apply Hc1. }
  cbn [consume_rules]. unfold bind at 1 2. unfold gets at 1, attempt, try_consume. cbn [rd_position rd_fn rd_name]. rewrite on_rule. unfold rule_line_break. fold L. unfold bind at 1.
  rewrite Hs. unfold ok_derived, or_panic, bind, ret. cbn [all_paragraph_safe paragraph_safe check_partials su_item]. rewrite on_update by reflexivity.
  unfold step_if_same, bind, gets, same_pointer. cbn [length]. rewrite Nat.eqb_refl. destruct (step_on E (pushed p) sol line_piece cs s) as [t Ht]. rewrite Ht. unfold ret, depth_decrement, modify. f_equal.
  unfold BlocksParse.on. destruct (toks E cs) eqn:E1; [destruct (toks_ne _ _ E1)|]. unfold pushed, with_depth. cbn. rewrite ?Nat.sub_0_r. reflexivity.
Qed.
(** A line break is followed by something that does not take it. *)
Definition follows (x : inline) (rest : list piece) : Prop := x = Break -> exists y rest', good_inline (en_entity E) y /\ beside Break y /\ calm (first rest') /\ rest = inline_pieces y ++ rest'.
Definition reading (x : inline) (p : pstate) : Prop := strict_at p \/ x = Break /\ at_break p.
Definition inline_run (s : shared) (x : inline) : Prop := good_inline (en_entity E) x -> forall n p sol rest, inline_height x < n -> depth p + n <= MAX_RECURSION_DEPTH -> ends (inline_pieces x ++ rest) -> calm (first rest) ->
  (lone x = true -> first rest <> TWhitespace) -> follows x rest -> exists sol', steps E n s (reading x) (on p sol (inline_pieces x ++ rest)) (els x) (on p sol' rest).
Lemma inlines_run s (Q : pstate -> Prop) l : Forall (inline_run s) l -> tidy l -> Forall (good_inline (en_entity E)) l -> (forall p, strict_at p -> Q p) -> (In Break l -> forall p, at_break p -> Q p) ->
  forall n p sol rest, Forall (fun x => inline_height x < n) l -> depth p + n <= MAX_RECURSION_DEPTH -> ends (flat_map inline_pieces l ++ rest) -> stops l rest ->
  exists sol', steps E n s Q (on p sol (flat_map inline_pieces l ++ rest)) (flat_map els l) (on p sol' rest).
Proof.
  intros H. induction H as [|x l Hx Hl IH]; intros Ha Hg HQ HB n p sol rest Hh Hd He Hr; [exists sol; constructor|].
  inversion Hg as [|? ? Hgx Hgl]; subst. inversion Hh as [|? ? Hhx Hhl]; subst. cbn [flat_map] in *. rewrite <- app_assoc in *.
  assert (Hc : calm (first (flat_map inline_pieces l ++ rest))) by (apply inlines_calm; [exact Hgl|apply Hr]).
  destruct (Hx Hgx n p sol (flat_map inline_pieces l ++ rest) Hhx Hd He Hc) as [sol1 H1].
  { intro Hlo. destruct l as [|y l]; [cbn [flat_map app]; apply (proj2 Hr x []); auto|]. inversion Hgl as [|? ? Hgy _]; subst. cbn [flat_map]. rewrite <- app_assoc.
    destruct (inline_first y (flat_map inline_pieces l ++ rest) Hgy) as [_ X]. intro Y. destruct (X Y) as (t & -> & Hf). apply Hf. apply tidy_head in Ha. destruct x; try discriminate; exact Ha. }
  { intros ->. destruct l as [|y l]; [destruct (proj2 Ha [] eq_refl)|]. apply tidy_head in Ha. inversion Hgl as [|? ? Hgy Hgl']; subst. exists y, (flat_map inline_pieces l ++ rest). cbn [flat_map]. rewrite <- app_assoc.
    split; [exact Hgy|]. split; [exact Ha|]. split; [|reflexivity]. apply inlines_calm; [exact Hgl'|apply Hr]. }
  destruct (IH (tidy_tail _ _ Ha) Hgl HQ (fun Hb => HB (or_intror Hb)) n p sol1 rest Hhl Hd (ends_app E _ _ He)) as [sol2 H2]; [split; [apply Hr|]; intros y r -> ; apply (proj2 Hr y (x :: r)); reflexivity|]. exists sol2. eapply steps_app; eauto.
  eapply steps_weaken; [|exact H1]. intros q [Hq|[-> Hq]]; auto. apply HB; auto. left. reflexivity.
Qed.
Lemma body_run s l n p sol rest : Forall (inline_run s) l -> good_inside (en_entity E) l -> Forall (fun x => inline_height x < n) l -> depth p + n <= MAX_RECURSION_DEPTH -> ends (flat_map inline_pieces l ++ rest) -> over (first rest) ->
  exists sol', steps E n s quiet_at (on p sol (flat_map inline_pieces l ++ rest)) (flat_map els l) (on p sol' rest).
Proof. intros H [Ha Hg] Hh Hd He Hr. apply inlines_run; auto; [apply apart_tidy; auto|intros q Hq; left; exact (proj1 Hq)|intros _ q Hq; right; exact Hq|apply over_stops; auto]. Qed.
Lemma most_lt (l : list inline) n : (fix most (l : list inline) : nat := match l with [] => 0 | y :: l' => Nat.max (inline_height y) (most l') end) l < n -> Forall (fun x => inline_height x < n) l.
Proof. induction l as [|x l IH]; intro H; constructor; [lia|apply IH; lia]. Qed.
Lemma one_step n s p sol star cs es p1 : consume_n E n (on p sol (open_piece star :: cs)) s = ROk (PSu es [] true) p1 s -> length (rem p1) < S (length cs) -> steps E n s strict_at (on p sol (open_piece star :: cs)) es p1.
Proof. intros H Hl. apply steps_one; auto; [apply quiet_plain; rewrite on_tok; destruct star; (reflexivity || discriminate)|rewrite on_len; exact Hl]. Qed.
Lemma head_step n s p sol star o t rest es sol' cs' : consume_n E n (on p sol (head_pieces star o t ++ rest)) s = ROk (PSu es [] true) (on p sol' cs') s -> length cs' <= length rest -> steps E n s strict_at (on p sol (head_pieces star o t ++ rest)) es (on p sol' cs').
Proof. intros H Hl. unfold head_pieces in *. cbn [app] in *. apply one_step; auto. rewrite on_len, !app_length. lia. Qed.
Lemma link_step n s p sol x cs es sol' cs' : consume_n E n (on p sol (x :: cs)) s = ROk (PSu es [] true) (on p sol' cs') s -> In (fst x) [TLeftLink; TLeftLinkStar; TLeftBracket; TLeftBracketStar; TLeftBracketAnchor] -> length cs' <= length cs -> steps E n s strict_at (on p sol (x :: cs)) es (on p sol' cs').
Proof. intros H Hq Hl. apply steps_one; auto; [apply quiet_plain; rewrite on_tok; destruct x as [k z]; cbn [fst first] in *; cbn in Hq; (destruct Hq as [<-|[<-|[<-|[<-|[<-|[]]]]]]; (reflexivity || discriminate))|rewrite !on_len; cbn [length]; lia]. Qed.
Lemma els_whole x : forallb (fun e => match e with EPartial _ => false | _ => true end) (els x) = true.
Proof.
  induction x as [t|k o a inside c IH|z inside IH|b m|b a|b m a|b a|e|m|b q c|b a c|o c|b cds inside IH|] using inline_ind'; try reflexivity; try (destruct k; reflexivity); cbn [els].
  - induction (pieces t) as [|y l IHl]; [reflexivity|exact IHl].
  - destruct (holds _ _ _ _); [|reflexivity]. apply forallb_forall. intros y Hy. apply in_flat_map in Hy as (x & Hx & Hy). rewrite Forall_forall in IH. specialize (IH x Hx). rewrite forallb_forall in IH. auto.
Qed.
Lemma strict_reading n s x p es (f : bool -> pstate) : (exists sol', steps E n s strict_at p es (f sol')) -> exists sol', steps E n s (reading x) p es (f sol').
Proof. intros [sol' H]. exists sol'. eapply steps_weaken; [|exact H]. intros q Hq. left. exact Hq. Qed.
Lemma inline_runs s x : inline_run s x.
Proof.
  induction x as [t|k o a inside c IH|z inside IH|b m|b a|b m a|b a|e|m|b q c|b a c|o c|b cds inside IH|] using inline_ind'; intros Hg n p sol rest Hh Hd He Hc Hlo Hfo; (destruct n as [|n]; [lia|]); cbn [inline_pieces els] in *; [(apply strict_reading; clear Hfo)..|].
  - apply text_steps; auto; [apply pieces_word|lia].
  - apply good_box in Hg as (Ho & Hcl & Ha & Hf & Hgi). rewrite <- !app_assoc in *. cbn [inline_height] in Hh. assert (Hov : over (first (close_pieces c ++ rest))) by (cbn; tauto).
    exists false. apply head_step; [|rewrite !app_length; lia]. apply box_consume; auto; [lia| | |].
    + intro E1. apply inlines_flush; [apply Hgi|auto|auto].
    + destruct (inlines_first inside (close_pieces c ++ rest) Hgi) as [[_ X] | ->]; auto. discriminate.
    + intros q Hq. apply body_run; auto; [apply most_lt; lia|lia|eapply ends_app; exact He].
  - apply good_size in Hg as [Hz Hgi]. rewrite <- !app_assoc in *. cbn [inline_height] in Hh. exists false. apply head_step; [|rewrite !app_length; lia]. apply size_consume; auto; [lia|].
    intros q Hq. apply body_run; auto; [apply most_lt; lia|lia|eapply ends_app; exact He|cbn; tauto].
  - exists false. apply head_step; [|lia]. apply user_consume; auto. lia.
  - exists false. apply head_step; [|lia]. apply checkbox_consume; auto. lia.
  - destruct Hg as [Hm Ha]. exists false. apply head_step; [|lia]. apply radio_consume; auto. lia.
  - destruct Hg as [Hb Ha]. exists false. apply head_step; [|lia]. apply ruby_consume; auto. lia.
  - destruct Hg as [Hl Hn]. exists false. apply head_step; [|lia]. destruct (en_entity E e) as [t|] eqn:X; [|congruence]. apply char_consume; auto. lia.
  - exists false. apply head_step; [|lia]. apply eref_consume; auto. lia.
  - destruct Hg as [Hq Hl]. exists false. pose proof (page_link_consume n b q c p sol rest s Hq Hl ltac:(lia) He) as X. cbn [inline_pieces app] in *. rewrite <- !app_assoc in *. eapply link_step; eauto; [destruct b; cbn; tauto|rewrite !app_length; lia].
  - destruct Hg as [Hq Hl]. exists false. pose proof (link_consume n b a c p sol rest s Hq Hl ltac:(lia) He) as X. cbn [inline_pieces app] in *. rewrite <- !app_assoc in *. eapply link_step; eauto; [destruct b; cbn; tauto|rewrite !app_length; lia].
  - destruct Hg as [Hq Hl]. exists false. pose proof (jump_consume n o c p sol rest s Hq Hl ltac:(lia) He) as X. cbn [inline_pieces app] in *. rewrite <- !app_assoc in *. eapply link_step; eauto; [cbn; tauto|rewrite !app_length; lia].
  - apply good_when in Hg as (Hn & Hcs & Hgi). rewrite <- !app_assoc in *. cbn [inline_height] in Hh. assert (Hov : over (first (close_pieces (when_name b) ++ rest))) by (cbn; tauto).
    exists false. apply head_step; [|rewrite !app_length; lia]. apply when_consume; auto; [lia| | |].
    + destruct (inlines_first inside (close_pieces (when_name b) ++ rest) Hgi) as [[_ X] | ->]; auto. discriminate.
    + intros q Hq. apply body_run; auto; [apply most_lt; lia|lia|eapply ends_app; exact He].
    + intro q. apply check_ones. destruct (holds _ _ _ _); [|reflexivity]. apply forallb_forall. intros y Hy. apply in_flat_map in Hy as (x & _ & Hy). pose proof (els_whole x) as X. rewrite forallb_forall in X. auto.
  - destruct (Hfo eq_refl) as (y & rest' & Hy & Hby & Hc' & ->). exists true. cbn [app] in *. apply ends_cons in He. apply steps_one.
    + right. split; [reflexivity|]. split; [apply on_tok|]. rewrite on_rem. destruct (toks E (inline_pieces y ++ rest')) as [|t r] eqn:Et; [destruct (toks_ne _ _ Et)|]. exists t, r. split; [reflexivity|].
      assert (Ht : t_token t = first (inline_pieces y ++ rest')) by (destruct (inline_pieces y ++ rest') as [|[k z] q]; cbn [toks] in Et; injection Et as <- _; reflexivity). rewrite Ht. apply inline_calm. exact Hy.
    + apply break_consume; auto. lia.
    + rewrite !on_len. cbn [length]. lia.
Qed.
Lemma par_run s l n p sol rest : good_inside (en_entity E) l -> Forall (fun x => inline_height x < n) l -> depth p + n <= MAX_RECURSION_DEPTH -> ends (flat_map inline_pieces l ++ rest) -> over (first rest) ->
  exists sol', steps E n s quiet_at (on p sol (flat_map inline_pieces l ++ rest)) (flat_map els l) (on p sol' rest).
Proof. intros. apply body_run; auto. apply Forall_forall. intros x _. apply inline_runs. Qed.
Lemma said_run s l n p sol rest : tidy l -> ~ In Break l -> Forall (good_inline (en_entity E)) l -> Forall (fun x => inline_height x < n) l -> depth p + n <= MAX_RECURSION_DEPTH -> ends (flat_map inline_pieces l ++ rest) -> stops l rest ->
  exists sol', steps E n s strict_at (on p sol (flat_map inline_pieces l ++ rest)) (flat_map els l) (on p sol' rest).
Proof. intros. apply inlines_run; auto; [|intro; contradiction]. apply Forall_forall. intros x _. apply inline_runs. Qed.
(** The first thing read leaves something. *)
Lemma inline_begun s x : good_inline (en_entity E) x -> (forall b cs i, x <> When b cs i) -> x <> Break -> forall n p sol rest, inline_height x < n -> depth p + n <= MAX_RECURSION_DEPTH -> ends (inline_pieces x ++ rest) -> calm (first rest) ->
  (lone x = true -> first rest <> TWhitespace) -> exists es p1, consume_n E n (on p sol (inline_pieces x ++ rest)) s = ROk (PSu es [] true) p1 s /\ es <> [].
Proof.
  intros Hg Hw Hbk n p sol rest Hh Hd He Hc Hlo. destruct n as [|n]; [lia|].
  destruct x as [t|k o a inside c|z inside|b m|b a|b m a|b a|e|m|b q c|b a c|o c|b cds inside|]; cbn [inline_pieces] in *.
  - pose proof (pieces_word t) as Hwp. destruct (pieces t) as [|[k z] ws] eqn:X; [exfalso; destruct Hg as [Hg _]; apply Hg; rewrite <- (flat_pieces t), X; reflexivity|]. inversion Hwp as [|? ? Hk Hwp']; subst.
    assert (Hk' : In k [TIdentifier; TWhitespace; TOther]) by (unfold word_piece in Hk; cbn [fst] in Hk; destruct k; try contradiction; cbn; tauto).
    assert (Hcalm : calm (first (ws ++ rest))).
    { destruct ws as [|[k1 z1] ws]; [exact Hc|]. inversion Hwp' as [|? ? Hk1 _]; subst. cbn [app first]. unfold word_piece in Hk1. cbn [fst] in Hk1. unfold calm. destruct k1; try contradiction; cbn; intuition discriminate. }
    cbn [app]. destruct (toks E (ws ++ rest)) as [|u r] eqn:Et; [destruct (toks_ne _ _ Et)|].
    assert (Ht : t_token u = first (ws ++ rest)) by (destruct (ws ++ rest) as [|[k1 z1] q]; cbn [toks] in Et; injection Et as <- _; reflexivity).
    eexists _, _. split; [rewrite (plain_consume E n (on p sol ((k, z) :: ws ++ rest)) s u r)|].
    + rewrite on_cur. cbn [t_slice]. replace (plain_errors _) with (@nil perr) by (unfold plain_errors; cbn [t_token]; cbn in Hk'; intuition; subst; reflexivity). reflexivity.
    + cbn. lia.
    + rewrite on_rem. exact Et.
    + unfold plain_at. rewrite on_cur, on_rem. cbn [t_token]. rewrite Et. unfold kind_at. cbn [nth_error option_map]. rewrite Ht. cbn in Hk'. destruct Hk' as [<-|[<-|[<-|[]]]]; auto.
      unfold calm in Hcalm. cbn in Hcalm. split; [intros [= Y]; rewrite Y in Hcalm; tauto|]. intros _. split; intros [= Y]; rewrite Y in Hcalm; tauto.
    + discriminate.
  - apply good_box in Hg as (Ho & Hcl & Ha & Hf & Hgi). rewrite <- !app_assoc in *. cbn [inline_height] in Hh. assert (Hov : over (first (close_pieces c ++ rest))) by (cbn; tauto).
    eexists _, _. split; [apply box_consume with (k := k) (es := flat_map els inside); auto; [lia| | |]|discriminate].
    + intro E1. apply inlines_flush; [apply Hgi|auto|auto].
    + destruct (inlines_first inside (close_pieces c ++ rest) Hgi) as [[_ X] | ->]; auto. discriminate.
    + intros q Hq. apply par_run; auto; [apply most_lt; lia|lia|eapply ends_app; exact He].
  - apply good_size in Hg as [Hz Hgi]. rewrite <- !app_assoc in *. cbn [inline_height] in Hh. eexists _, _. split; [apply size_consume with (es := flat_map els inside); auto; [lia|]|discriminate].
    intros q Hq. apply par_run; auto; [apply most_lt; lia|lia|eapply ends_app; exact He|cbn; tauto].
  - eexists _, _. split; [apply user_consume; auto; lia|discriminate].
  - eexists _, _. split; [apply checkbox_consume; auto; lia|discriminate].
  - destruct Hg as [Hm Ha]. eexists _, _. split; [apply radio_consume; auto; lia|discriminate].
  - destruct Hg as [Hb Ha]. eexists _, _. split; [apply ruby_consume; auto; lia|discriminate].
  - destruct Hg as [Hl Hn]. destruct (en_entity E e) as [t|] eqn:X; [|congruence]. eexists _, _. split; [apply char_consume; eauto; lia|discriminate].
  - eexists _, _. split; [apply eref_consume; auto; lia|discriminate].
  - destruct Hg as [Hq Hl]. pose proof (page_link_consume n b q c p sol rest s Hq Hl ltac:(lia) He) as X. cbn [inline_pieces app] in *. rewrite <- !app_assoc in *. eexists _, _. split; [exact X|discriminate].
  - destruct Hg as [Hq Hl]. pose proof (link_consume n b a c p sol rest s Hq Hl ltac:(lia) He) as X. cbn [inline_pieces app] in *. rewrite <- !app_assoc in *. eexists _, _. split; [exact X|discriminate].
  - destruct Hg as [Hq Hl]. pose proof (jump_consume n o c p sol rest s Hq Hl ltac:(lia) He) as X. cbn [inline_pieces app] in *. rewrite <- !app_assoc in *. eexists _, _. split; [exact X|discriminate].
  - destruct (Hw _ _ _ eq_refl).
  - congruence.
Qed.
End Run.
