(** BlocksGroup.v -- the parser run on the groups and on the whole pages of SpecBlocks.v. *)
From Verif Require Import Base BaseLemmas Strings StringsLemmas SpecStrings Links Attr Lexer SpecLexer LexerLemmas Depth Tree Text Toc PState Blocks Rules Parse SpecParse SpecPage ParseInv
  ProseLemmas WritingParse WritingBlocks VerbatimLex BlocksLex BlocksParse BlocksRun BlocksVerbatim BlocksTable BlocksLines.
From Verif Require Import SpecBlocks.

Section Group.
Variable E : env.
Notation on := (on E). Notation ends := (ends E).
(** *** Collecting paragraphs. *)
Definition closing := option (bool -> M bool).
Definition gather (n : nat) (close : closing) : pstack * list perr * bool -> M ((pstack * list perr * bool) + (pstack * list perr)) :=
  fun '(stack, errs, first) =>
    let! t := gets cur_tok in
    match t with
    | TInputEnd => match close with Some _ => fail EndOfInput | None => ret (inr (stack, errs)) end
    | TParagraphBreak => step ;; ret (inl (end_paragraph stack, errs, first))
    | _ =>
        let! closed := match close with
                       | Some f => let! r := attempt (f first) in ret match r with inl b => b | inr _ => false end
                       | None => ret false
                       end in
        if closed then ret (inr (stack, errs))
        else let! out := consume_n E n in
             ret (inl (push_elements stack (su_item out) (su_safe out), errs ++ su_errors out, false))
    end.
Definition goes (close : closing) : Prop := match close with Some f => forall s p b, quiet_at p -> f b p s = ROk false p s | None => True end.
Lemma gather_one n close s s' p st first out p' k : goes close -> quiet_at p -> consume_n E n p s = ROk out p' s' -> su_errors out = [] ->
  loop (S k) (gather n close) (st, [], first) p s = loop k (gather n close) (push_elements st (su_item out) (su_safe out), [], false) p' s'.
Proof.
  intros Hg Hq Hc He. cbn [loop]. unfold bind at 1. unfold gather at 1. rewrite bind_gets.
  assert (X : match close with Some f => let! r := attempt (f first) in ret match r with inl b => b | inr _ => false end | None => ret false end p s = ROk false p s).
  { destruct close as [f|]; [|reflexivity]. unfold attempt, bind. rewrite (Hg s p first Hq). reflexivity. }
  assert (Hk : quiet (cur_tok p) = true \/ cur_tok p = TLineBreak) by (destruct Hq as [Hq|[Hq _]]; auto).
  destruct (cur_tok p); try (destruct Hk; discriminate); rewrite (bind_ok _ _ _ _ _ _ _ X), (bind_ok _ _ _ _ _ _ _ Hc), He; reflexivity.
Qed.
Lemma gather_more n close s p es p' : goes close -> steps E n s quiet_at p es p' -> forall k st, length (rem p) < k ->
  exists k', length (rem p') < k' /\ loop k (gather n close) (st, [], false) p s = loop k' (gather n close) (push_elements st es true, [], false) p' s.
Proof.
  intros Hg H. induction H as [p|p es p1 es' p2 Hq Hco Hlt H IH]; intros k st Hk; [exists k; split; [exact Hk|]; reflexivity|].
  destruct k as [|k]; [lia|]. rewrite (gather_one n close s s p st false _ p1 k Hg Hq Hco eq_refl). cbn [su_item su_safe]. rewrite push_elements_app. apply IH. lia.
Qed.
Lemma gather_steps n close s p es p' : goes close -> steps E n s quiet_at p es p' -> p' <> p \/ es <> [] -> forall k st first, length (rem p) < k ->
  exists k', length (rem p') < k' /\ loop k (gather n close) (st, [], first) p s = loop k' (gather n close) (push_elements st es true, [], false) p' s.
Proof.
  intros Hg H. destruct H as [p|p es p1 es' p2 Hq Hco Hlt H]; intros Hne k st first Hk; [destruct Hne; congruence|].
  destruct k as [|k]; [lia|]. rewrite (gather_one n close s s p st first _ p1 k Hg Hq Hco eq_refl). cbn [su_item su_safe]. rewrite push_elements_app. apply gather_more; auto. lia.
Qed.
Lemma gather_pause n close s p sol cs st first k : loop (S k) (gather n close) (st, [], first) (on p sol (break_piece :: cs)) s = loop k (gather n close) (end_paragraph st, [], first) (on p true cs) s.
Proof. cbn [loop]. unfold bind at 1. unfold gather at 1. rewrite bind_gets, on_tok. cbn [BlocksParse.first break_piece]. rewrite stepu. reflexivity. Qed.
Lemma into_end st : into_elements (end_paragraph st) = into_elements st.
Proof. destruct st as [[|x cu] fi]; reflexivity. Qed.
Lemma end_current st : ps_current (end_paragraph st) = []. Proof. destruct st as [[|x cu] fi]; reflexivity. Qed.

(** *** What the blocks become. *)
Definition side (w : SpecBlocks.alignment) : Tree.alignment := match w with Centred => AlCenter | Justified => AlJustify | Leftwards => AlLeft | Rightwards => AlRight end.
Definition group_el (g : group) (es : elements) : Tree.element :=
  match g with
  | Div a => EContainer CDiv (shown_attributes a) es
  | Aligned w => EContainer (CAlign (side w)) [] es
  | Quoted a => EContainer CBlockquote (shown_attributes a) es
  | Collapsible f a => ECollapsible es (shown_attributes a) (match starts_folded f with Some false => true | _ => false end) (show_label f) (hide_label f)
      (fst (match hide_at f with Some w => w | None => (true, false) end)) (snd (match hide_at f with Some w => w | None => (true, false) end))
  end.
Fixpoint block_els (b : block) : elements :=
  match b with
  | Par l => match left_of (en_tags E) (own_category E) l with [] => [] | l => [paragraph (flat_map (els E) l)] end
  | Group g _ inside _ => [group_el g (flat_map block_els inside)]
  | Verbatim v _ t _ => [verbatim_el v t]
  | Items b a items => [items_el E b a items]
  | Grid a rows => [grid_el E a rows]
  | Bars rows => [bars_el E rows]
  | Divider _ => [EHorizontalRule]
  | Clear w _ => [EClearFloat (clear_of w)]
  end.
(** What is stored beside the tree. *)
Definition blocks_add (bs : list block) (s : shared) : shared :=
  SH (sh_toc s) (sh_html s ++ flat_map block_documents bs) (sh_code s ++ map (fun t => CB t None) (flat_map block_programs bs)) (sh_footnotes s) (sh_bibs s).
Lemma add_none s : blocks_add [] s = s. Proof. destruct s. unfold blocks_add. cbn. rewrite !app_nil_r. reflexivity. Qed.
Lemma add_cons b bs s : blocks_add (b :: bs) s = blocks_add bs (blocks_add [b] s).
Proof. destruct s. unfold blocks_add. cbn [PState.sh_toc PState.sh_html PState.sh_code PState.sh_footnotes PState.sh_bibs flat_map]. rewrite !app_nil_r, map_app, !app_assoc. reflexivity. Qed.
Lemma add_par l s : blocks_add [Par l] s = s. Proof. apply add_none. Qed.
Lemma add_group g o inside c s : blocks_add [Group g o inside c] s = blocks_add inside s.
Proof. unfold blocks_add. cbn [flat_map block_documents block_programs]. rewrite !app_nil_r. reflexivity. Qed.
Lemma add_verbatim v o t c s : blocks_add [Verbatim v o t c] s = verbatim_add v t s.
Proof. destruct v, s; unfold blocks_add, verbatim_add; cbn; rewrite ?app_nil_r; reflexivity. Qed.
(** What is left of a paragraph. *)
Notation kept := (kept (en_tags E) (own_category E)). Notation left_of := (left_of (en_tags E) (own_category E)).
Lemma kept_els x : flat_map (els E) (kept x) = els E x.
Proof.
  induction x as [t|k o a inside c IH|z inside IH|b m|b a|b m a|b a|e|m|b q c|b a c|o c|b cds inside IH|] using inline_ind'; try (cbn [SpecBlocks.kept flat_map]; apply app_nil_r).
  cbn [SpecBlocks.kept els]. destruct (holds _ _ _ _); [|reflexivity]. induction IH as [|x l Hx Hl IH']; [reflexivity|]. cbn [flat_map]. rewrite flat_map_app, Hx, IH'. reflexivity.
Qed.
Lemma kepts_els l : flat_map (els E) (flat_map kept l) = flat_map (els E) l.
Proof. induction l as [|x l IH]; [reflexivity|]. cbn [flat_map]. rewrite flat_map_app, kept_els, IH. reflexivity. Qed.
Definition plainly (x : inline) : Prop := good_inline (en_entity E) x /\ match x with When _ _ _ => False | _ => True end.
Lemma kept_plainly x : good_inline (en_entity E) x -> Forall plainly (kept x).
Proof.
  induction x as [t|k o a inside c IH|z inside IH|b m|b a|b m a|b a|e|m|b q c|b a c|o c|b cds inside IH|] using inline_ind'; intro H; try (cbn [SpecBlocks.kept]; constructor; [split; [exact H|exact I]|constructor]).
  cbn [SpecBlocks.kept]. apply good_when in H as (_ & _ & _ & H). destruct (holds _ _ _ _); [|constructor]. rewrite Forall_forall in *. intros y Hy. apply in_flat_map in Hy as (x & Hx & Hy). specialize (IH x Hx (H x Hx)). rewrite Forall_forall in IH. auto.
Qed.
Lemma kepts_plainly l : Forall (good_inline (en_entity E)) l -> Forall plainly (flat_map kept l).
Proof. intro H. rewrite Forall_forall in *. intros y Hy. apply in_flat_map in Hy as (x & Hx & Hy). pose proof (kept_plainly x (H x Hx)) as X. rewrite Forall_forall in X. auto. Qed.
Lemma skip_plainly l : Forall plainly l -> Forall plainly (skip_breaks l).
Proof. induction 1 as [|x l Hx Hl IH]; [constructor|]. destruct x; try (constructor; assumption). exact IH. Qed.
Lemma left_good l : Forall (good_inline (en_entity E)) l -> Forall (good_inline (en_entity E)) (left_of l).
Proof. intro H. eapply Forall_impl; [|apply skip_plainly, kepts_plainly; exact H]. intros x Hx. apply Hx. Qed.
Lemma skip_first l : match skip_breaks l with Break :: _ => False | _ => True end.
Proof. induction l as [|x l IH]; [exact I|]. destruct x; try exact I. exact IH. Qed.
Lemma plainly_first x r : plainly x -> x <> Break -> line_break_first (els E x ++ r) = false.
Proof.
  intros [Hg Hw] Hb. destruct x as [t|k o a inside c|z inside|b m|b a|b m a|b a|e|m|b q c|b a c|o c|b cds inside|]; try reflexivity; try (destruct k; reflexivity); [|destruct Hw|congruence].
  destruct Hg as [H _]. cbn [els]. destruct t as [|d u]; [congruence|]. destruct (pieces_first d u) as [_ X]. destruct (pieces (d :: u)); [congruence|reflexivity].
Qed.
Lemma skipped_first l : Forall plainly l -> skip_breaks l = [] \/ line_break_first (flat_map (els E) (skip_breaks l)) = false.
Proof.
  intro H. apply skip_plainly in H. pose proof (skip_first l) as X. destruct (skip_breaks l) as [|x m]; [left; reflexivity|]. right. inversion H; subst. cbn [flat_map]. apply plainly_first; auto. intros ->. exact X.
Qed.
Lemma push_skips f l : Forall plainly l -> push_elements (PS [] f) (flat_map (els E) l) true = PS (flat_map (els E) (skip_breaks l)) f.
Proof.
  induction 1 as [|x l Hx Hl IH]; [reflexivity|]. destruct (skipped_first (x :: l)) as [X|X]; [constructor; assumption| |].
  - destruct x; try discriminate X. cbn [flat_map els app push_elements ps_current is_line_break]. exact IH.
  - assert (Hd : skip_breaks (x :: l) = x :: l \/ x = Break) by (destruct x; auto). destruct Hd as [Hd | ->]; [rewrite Hd in *; apply push_new; exact X|]. cbn [flat_map els app push_elements ps_current is_line_break skip_breaks]. exact IH.
Qed.
Lemma group_one g es : paragraph_safe (group_el g es) = Some false. Proof. destruct g; reflexivity. Qed.
Lemma group_break g es : is_line_break (group_el g es) = false. Proof. destruct g; reflexivity. Qed.
Lemma blocks_safe bs : exists b, all_paragraph_safe (flat_map block_els bs) = Some b.
Proof.
  induction bs as [|b bs IH]; [exists true; reflexivity|]. destruct b as [l|g o i c|[l|] o t c|n a items|a rows|rows|n|w n]; cbn [flat_map block_els app].
  - destruct (left_of l); [exact IH|]. exists false. reflexivity.
  - exists false. cbn [all_paragraph_safe]. rewrite group_one. reflexivity.
  - exists false. reflexivity.
  - exists false. reflexivity.
  - exists false. reflexivity.
  - exists false. reflexivity.
  - exists false. reflexivity.
  - exists false. reflexivity.
  - exists false. reflexivity.
Qed.
Lemma cons_eq {A} (a b : A) l m : a :: l = b :: m -> a = b /\ l = m. Proof. intro H. injection H as H1 H2. auto. Qed.
(** *** Blocks one after the other. *)
(** What is left of what follows: all of it, or all but a line break that was taken. *)
Definition leaves (sol : bool) (rest rest' : list piece) : Prop := rest' = rest \/ rest = line_piece :: rest' /\ sol = true.
Definition block_run (b : block) : Prop := good_block (en_entity E) b -> forall s n close p rest st first k, block_height b < n -> depth p + n <= MAX_RECURSION_DEPTH -> ends (block_pieces b ++ rest) -> line_end rest ->
  goes close -> ps_current st = [] -> length (block_pieces b ++ rest) < k ->
  exists k' st' sol' rest', into_elements st' = into_elements st ++ block_els b /\ leaves sol' rest rest' /\ length rest' < k' /\
    loop k (gather n close) (st, [], first) (on p true (block_pieces b ++ rest)) s = loop k' (gather n close) (st', [], false) (on p sol' rest') (blocks_add [b] s).
Lemma blocks_run bs : Forall block_run bs -> Forall (good_block (en_entity E)) bs -> forall s n close p rest st first k, bs <> [] -> Forall (fun b => block_height b < n) bs -> depth p + n <= MAX_RECURSION_DEPTH -> ends (join_pieces block_pieces bs ++ rest) ->
  line_end rest -> goes close -> ps_current st = [] -> length (join_pieces block_pieces bs ++ rest) < k ->
  exists k' st' sol' rest', into_elements st' = into_elements st ++ flat_map block_els bs /\ leaves sol' rest rest' /\ length rest' < k' /\
    loop k (gather n close) (st, [], first) (on p true (join_pieces block_pieces bs ++ rest)) s = loop k' (gather n close) (st', [], false) (on p sol' rest') (blocks_add bs s).
Proof.
  intros H. induction H as [|b bs Hb Hbs IH]; intros Hg s n close p rest st first k Hne Hh Hd He Ha Hgo Hc Hk; [congruence|].
  inversion Hg as [|? ? Hgb Hgbs]; subst. inversion Hh as [|? ? Hhb Hhbs]; subst. cbn [join_pieces] in *. rewrite <- app_assoc in *.
  destruct bs as [|b2 bs].
  - cbn [flat_map app] in *. rewrite app_nil_r. apply (Hb Hgb s n close p rest st first k); auto.
  - assert (Ej : flat_map (fun b => break_piece :: block_pieces b) (b2 :: bs) ++ rest = break_piece :: join_pieces block_pieces (b2 :: bs) ++ rest) by (cbn [flat_map join_pieces app]; rewrite <- ?app_assoc; reflexivity).
    rewrite Ej in *. destruct (Hb Hgb s n close p (break_piece :: join_pieces block_pieces (b2 :: bs) ++ rest) st first k) as (k1 & st1 & sol1 & rest1 & H1 & Hlv & H2 & H3); auto; [left; cbn; tauto|].
    destruct Hlv as [-> | [X _]]; [|exfalso; apply (f_equal (fun l => BlocksParse.first l)) in X; discriminate X].
    rewrite H3. destruct k1 as [|k1]; [lia|]. rewrite gather_pause.
    destruct (IH Hgbs (blocks_add [b] s) n close p rest (end_paragraph st1) false k1) as (k2 & st2 & sol2 & rest2 & H4 & Hlv & H5 & H6); auto; [discriminate|apply ends_app in He; apply ends_cons in He; exact He|apply end_current|cbn [length] in H2; lia|].
    exists k2, st2, sol2, rest2. split; [rewrite H4, into_end, H1, <- app_assoc; reflexivity|]. split; [exact Hlv|]. split; [exact H5|]. rewrite H6, <- add_cons. reflexivity.
Qed.
Lemma par_block l : block_run (Par l).
Proof.
  intros Hg s n close p rest st first k Hh Hd He Ha Hgo Hc Hk. rewrite add_par. apply good_par in Hg as [Hne Hg]. cbn [block_pieces block_els block_height] in *.
  assert (Hf : Forall (fun x => inline_height x < n) l) by (clear -Hh; unfold highest in Hh; induction l as [|x l IH]; constructor; cbn [fold_right] in Hh; [lia|apply IH; lia]).
  assert (Hov : over (BlocksParse.first rest)) by (unfold over; destruct Ha as [Ha|(q & -> & _)]; cbn in *; tauto).
  destruct (par_run E s l n p true rest Hg Hf Hd He Hov) as [sol' Hst].
  destruct (gather_steps n close s _ _ _ Hgo Hst) with (k := k) (st := st) (first := first) as (k' & Hk' & Hl).
  - left. intro X. apply (f_equal (fun q => length (rem q))) in X. rewrite !on_len, app_length in X. destruct (block_first (en_entity E) (Par l)) as (d & r & Y & _); [cbn [good_block]; destruct Hg; auto|].
    cbn [block_source] in Y. rewrite <- inlines_flat in Y. destruct (flat_map inline_pieces l); [discriminate|cbn [length] in X; lia].
  - rewrite on_len. exact Hk.
  - rewrite on_len in Hk'. destruct st as [cu fi]. cbn [ps_current] in Hc. subst cu. pose proof (kepts_plainly l (proj2 Hg)) as Hp. rewrite <- kepts_els, push_skips in Hl by exact Hp.
    exists k', (PS (flat_map (els E) (left_of l)) fi), sol', rest. split; [|split; [left; reflexivity|split; [exact Hk'|exact Hl]]].
    unfold left_of. destruct (skipped_first _ Hp) as [X|X].
    + rewrite X. cbn [flat_map]. rewrite app_nil_r. reflexivity.
    + unfold into_elements at 1. rewrite WritingParse.flush, X. destruct (skip_breaks (flat_map kept l)) as [|y m]; [discriminate|reflexivity].
Qed.
(** *** Groups. *)
Definition closes (br : block_rule) : bool -> M bool := fun first => let! r := verify_end_block E first br in ret match r with Some _ => true | None => false end.
Lemma closes_goes br : goes (Some (closes br)).
Proof. intros s p b Hq. unfold closes. rewrite (bind_ok _ _ _ _ _ _ _ (verify_quiet E b br p s Hq)). reflexivity. Qed.
Lemma gather_close n f s p sol cs st b k p' : (BlocksParse.first cs <> TInputEnd) -> BlocksParse.first cs <> TParagraphBreak -> f b (on p sol cs) s = ROk true p' s -> loop (S k) (gather n (Some f)) (st, [], b) (on p sol cs) s = ROk (st, []) p' s.
Proof.
  intros H1 H2 Hf. cbn [loop]. unfold bind at 1. unfold gather at 1. rewrite bind_gets, on_tok. unfold attempt.
  destruct (BlocksParse.first cs); try congruence; unfold bind; rewrite Hf; reflexivity.
Qed.
Definition inner_pieces (inside : list block) : list piece := match inside with [] => [] | _ => join_pieces block_pieces inside ++ [line_piece] end.
Lemma on_same p sol cs : with_rule (rule_ (on p sol cs)) (on p sol cs) = on p sol cs.
Proof. unfold BlocksParse.on. destruct (toks E cs) eqn:E1; [destruct (toks_ne _ _ E1)|reflexivity]. Qed.
Lemma group_body s n br inside c p rest : Forall block_run inside -> Forall (good_block (en_entity E)) inside -> Forall (fun b => block_height b < n) inside -> depth p + n <= MAX_RECURSION_DEPTH ->
  br_newlines br = true -> good_name c -> existsb (eq_nocase c) (br_names br) = true -> ends (inner_pieces inside ++ close_pieces c ++ rest) ->
  exists b, get_body_elements E (consume_n E n) br true (on p true (inner_pieces inside ++ close_pieces c ++ rest)) s = ROk (PSu (flat_map block_els inside) [] b) (on p false rest) (blocks_add inside s).
Proof.
  intros Hr Hg Hh Hd Hl Hc Hn He. destruct (blocks_safe inside) as [b Hb]. exists b. unfold get_body_elements, get_body_paragraphs. rewrite bind_gets. unfold gather_paragraphs. unfold set_rule, modify. unfold bind at 1. rewrite on_same.
  enough (X : exists st, into_elements st = flat_map block_els inside /\ looping (gather n (Some (closes br))) (ps_new, [], true) (on p true (inner_pieces inside ++ close_pieces c ++ rest)) s = ROk (st, []) (on p false rest) (blocks_add inside s)).
  { destruct X as (st & Hst & X). fold (closes br). unfold gather in X. rewrite (bind_ok _ _ _ _ _ _ _ X). cbv beta iota zeta. unfold into_result. rewrite Hst, Hb. reflexivity. }
  unfold looping. rewrite on_len. destruct inside as [|b0 bs].
  - cbn [inner_pieces app] in *. exists ps_new. split; [reflexivity|]. rewrite add_none. apply gather_close; [discriminate|discriminate|]. unfold closes. destruct (verify_close E true br p true c rest s Hc Hn He) as [t Ht]. rewrite (bind_ok _ _ _ _ _ _ _ Ht). reflexivity.
  - unfold inner_pieces in *. rewrite <- app_assoc in *. cbn [app] in *.
    destruct (blocks_run (b0 :: bs) Hr Hg s n (Some (closes br)) p (line_piece :: close_pieces c ++ rest) ps_new true (S (length (join_pieces block_pieces (b0 :: bs) ++ line_piece :: close_pieces c ++ rest)))) as (k' & st & sol' & rest' & H1 & Hlv & H2 & H3); auto;
      [discriminate|right; eexists; split; reflexivity|apply closes_goes|].
    exists st. split; [exact H1|]. rewrite H3. destruct k' as [|k']; [lia|]. destruct Hlv as [-> | [X ->]]; [|apply cons_eq in X as [_ <-]]; (apply gather_close; [discriminate|discriminate|]); unfold closes;
      [|destruct (verify_close E false br p true c rest (blocks_add (b0 :: bs) s) Hc Hn (ends_cons E _ _ (ends_app E _ _ He))) as [t Ht]; rewrite (bind_ok _ _ _ _ _ _ _ Ht); reflexivity].
    destruct (verify_line_close E br p sol' c rest (blocks_add (b0 :: bs) s) Hl Hc Hn (ends_app E _ _ He)) as [t Ht]. rewrite (bind_ok _ _ _ _ _ _ _ Ht). reflexivity.
Qed.
(** *** The rules of the groups. *)
Lemma group_rule con g o : named (group_names g) o -> exists br f, get_block_rule E con o = Some (br, f) /\ br_names br = group_names g /\ br_star br = false /\ br_newlines br = true /\
  forall name st h, f br name st false h = match g with
    | Div _ => container_block E con br CDiv true true same name h
    | Aligned w => blk_align E con (side w) br name st false h
    | Quoted _ => container_block E con br CBlockquote true true same name h
    | Collapsible _ _ => blk_collapsible E con br name st false h
    end.
Proof.
  intro H. rewrite rule_lower by (destruct (group_names_letters g o H) as [X|[X _]]; [left|right]; exact X). unfold named in H. remember (slower o) as n eqn:En. clear En.
  destruct g as [a|w|a|f a]; [|destruct w| |]; cbn [group_names map] in H; repeat (destruct H as [<-|H]; [eexists; eexists; split; [reflexivity|]; split; [reflexivity|]; split; [reflexivity|]; split; [reflexivity|]; intros; reflexivity|]); destruct H.
Qed.
Lemma group_lower g : map slower (group_names g) = group_names g. Proof. destruct g as [a|w|a|f a]; [|destruct w| |]; reflexivity. Qed.
Lemma group_in g o : named (group_names g) o -> existsb (eq_nocase o) (group_names g) = true. Proof. intro H. apply named_in. rewrite group_lower. exact H. Qed.
Lemma group_good g o : named (group_names g) o -> good_name o. Proof. intro H. destruct (group_names_letters g o H) as [X|[X _]]; [left|right]; exact X. Qed.
(** *** The arguments of foldable blocks. *)
Definition fold_keys : list str := map lit ["show"; "hide"; "folded"; "hidelocation"]%string.
Lemma fold_not_good k : good_key k -> ~ In (slower k) fold_keys.
Proof.
  intros [H|[(r & _ & Hl & H)|[H _]]] X.
  - assert (Y : forallb (fun k => negb (existsb (seqb k) common_attributes)) fold_keys = true) by reflexivity. rewrite forallb_forall in Y. specialize (Y _ X). rewrite negb_true_iff in Y.
    rewrite <- not_true_iff_false in Y. apply Y. apply existsb_exists. exists (slower k). split; auto. apply seqb_eq. reflexivity.
  - assert (Y : forallb (fun k => negb (starts_with (lit "data-") k || starts_with (lit "aria-") k)) fold_keys = true) by reflexivity. rewrite forallb_forall in Y. specialize (Y _ X).
    destruct H as [-> | ->]; unfold slower in Y; rewrite map_app in Y; discriminate.
  - unfold is_handler in H. remember (slower k) as z. clear Heqz k. unfold fold_keys in X. cbn [map] in X. repeat (destruct X as [<-|X]; [discriminate|]). destruct X.
Qed.
Lemma args_miss a k : ~ In (slower k) (map (fun kv : attribute => slower (fst kv)) a) -> args_get a k = (None, a).
Proof.
  induction a as [|[k' v] a IH]; intro H; [reflexivity|]. cbn [args_get]. cbn [map fst In] in H. unfold eq_nocase. destruct (seqb (slower k') (slower k)) eqn:E1; [apply seqb_eq in E1; tauto|]. rewrite IH by tauto. reflexivity.
Qed.
Lemma good_not_fold a : good_attributes a -> forall k, In k fold_keys -> ~ In k (map (fun kv : attribute => slower (fst kv)) a).
Proof. intros [_ H] k Hk X. apply in_map_iff in X as ([k' v] & <- & Hi). destruct (H k' v Hi) as [[X|[X _]] _]; [apply (fold_not_good k'); [exact X|exact Hk]|].
  assert (Y : forallb (fun n => negb (smem n fold_keys)) (map lit ["href"; "src"]%string) = true) by reflexivity. rewrite forallb_forall in Y. specialize (Y _ X). cbn [fst] in Hk, Y. apply smem_In in Hk. rewrite Hk in Y. discriminate. Qed.
Lemma args_take {A} (key : String.string) (f : A -> str) o rest : ~ In (slower (lit key)) (map (fun kv : attribute => slower (fst kv)) rest) -> args_get (optional key f o ++ rest) (lit key) = (option_map f o, rest).
Proof. intro H. destruct o as [v|]; cbn [optional app option_map]; [|apply args_miss; auto]. cbn [args_get]. unfold eq_nocase. replace (seqb (slower (lit key)) (slower (lit key))) with true by (symmetry; apply seqb_eq; reflexivity). reflexivity. Qed.
Definition of_keys (ks : list str) (a : list attribute) : Prop := forall x, In x (map (fun kv : attribute => slower (fst kv)) a) -> In x ks \/ ~ In x fold_keys.
Lemma of_good a : good_attributes a -> of_keys [] a. Proof. intros H x Hx. right. intro X. exact (good_not_fold a H x X Hx). Qed.
Lemma of_optional {A} (key : String.string) (f : A -> str) o ks a : of_keys ks a -> of_keys (slower (lit key) :: ks) (optional key f o ++ a).
Proof. intros H x Hx. destruct o as [v|]; cbn [optional app map fst In] in Hx; [destruct Hx as [<-|Hx]; [left; left; reflexivity|]|]; (destruct (H x Hx) as [X|X]; [left; right; exact X|right; exact X]). Qed.
Lemma of_miss ks a k : of_keys ks a -> ~ In k ks -> In k fold_keys -> ~ In k (map (fun kv : attribute => slower (fst kv)) a).
Proof. intros H Hk Hf X. destruct (H k X); tauto. Qed.
Lemma nodup_optional {A} (key : String.string) (f : A -> str) o a : NoDup (map (fun kv : attribute => slower (fst kv)) a) -> ~ In (slower (lit key)) (map (fun kv : attribute => slower (fst kv)) a) ->
  NoDup (map (fun kv : attribute => slower (fst kv)) (optional key f o ++ a)).
Proof. intros H Hn. destruct o as [v|]; cbn [optional app map fst]; auto. constructor; auto. Qed.
Lemma fold_arguments f a : good_attributes a -> NoDup (map (fun kv : attribute => slower (fst kv)) (folding_attributes f ++ a)) /\ exists a1 a2 a3,
  args_get (folding_attributes f ++ a) (lit "show") = (show_label f, a1) /\ args_get a1 (lit "hide") = (hide_label f, a2) /\
  (forall p s, get_bool a2 (lit "folded") p s = ROk (starts_folded f, a3) p s) /\
  exists loc, args_get a3 (lit "hideLocation") = (loc, a) /\ match loc with Some v => match parse_hide_location v with Some r => Some r | None => None end | None => Some (true, false) end = Some (match hide_at f with Some w => w | None => (true, false) end).
Proof.
  intro Ha. unfold folding_attributes. rewrite <- !app_assoc.
  pose proof (of_good a Ha) as H0.
  set (l4 := optional "hideLocation" _ _ ++ a). assert (H4 : of_keys [lit "hidelocation"] l4) by (apply (of_optional "hideLocation"); auto).
  set (l3 := optional "folded" _ _ ++ l4). assert (H3 : of_keys [lit "folded"; lit "hidelocation"] l3) by (apply (of_optional "folded"); auto).
  set (l2 := optional "hide" _ _ ++ l3). assert (H2 : of_keys [lit "hide"; lit "folded"; lit "hidelocation"] l2) by (apply (of_optional "hide"); auto).
  assert (M1 : ~ In (slower (lit "show")) (map (fun kv : attribute => slower (fst kv)) l2)) by (eapply of_miss; [exact H2|vm_compute; intuition discriminate|vm_compute; tauto]).
  assert (M2 : ~ In (slower (lit "hide")) (map (fun kv : attribute => slower (fst kv)) l3)) by (eapply of_miss; [exact H3|vm_compute; intuition discriminate|vm_compute; tauto]).
  assert (M3 : ~ In (slower (lit "folded")) (map (fun kv : attribute => slower (fst kv)) l4)) by (eapply of_miss; [exact H4|vm_compute; intuition discriminate|vm_compute; tauto]).
  assert (M4 : ~ In (slower (lit "hideLocation")) (map (fun kv : attribute => slower (fst kv)) a)) by (eapply of_miss; [exact H0|intros []|vm_compute; tauto]).
  split.
  - apply nodup_optional; auto. apply nodup_optional; auto. apply nodup_optional; auto. apply nodup_optional; auto. apply Ha.
  - exists l2, l3, l4. conj.
    + rewrite args_take by auto. destruct (show_label f); reflexivity.
    + unfold l2. rewrite args_take by auto. destruct (hide_label f); reflexivity.
    + intros p s. unfold get_bool, l3. rewrite args_take by auto. destruct (starts_folded f) as [[]|]; reflexivity.
    + eexists. unfold l4. split; [apply args_take; auto|]. destruct (hide_at f) as [[[] []]|]; reflexivity.
Qed.
(** *** Whole groups. *)
Lemma group_pieces g o inside c : block_pieces (Group g o inside c) = head_pieces false o (flat_map attribute_pieces (group_attributes g)) ++ line_piece :: inner_pieces inside ++ close_pieces c.
Proof. cbn [block_pieces]. destruct inside as [|b bs]; [reflexivity|]. unfold inner_pieces. cbn [join_pieces app]. rewrite <- !app_assoc. reflexivity. Qed.
Lemma group_derived g es p s : ok_derived [group_el g es] [] p s = ROk (PSu [group_el g es] [] false) p s.
Proof. unfold ok_derived. cbn [all_paragraph_safe]. rewrite group_one. reflexivity. Qed.
Lemma group_consume s n g o inside c p sol rest : Forall block_run inside -> good_block (en_entity E) (Group g o inside c) -> Forall (fun b => block_height b < n) inside -> depth p + S n <= MAX_RECURSION_DEPTH ->
  ends (block_pieces (Group g o inside c) ++ rest) ->
  consume_n E (S n) (on p sol (block_pieces (Group g o inside c) ++ rest)) s = ROk (PSu [group_el g (flat_map block_els inside)] [] false) (on p false rest) (blocks_add inside s).
Proof.
  intros Hr Hg Hh Hd He. apply good_group_ in Hg as (Ho & Hc & Hg & Hin). rewrite group_pieces in *. rewrite <- app_assoc in *. cbn [app] in *. rewrite <- app_assoc in *.
  destruct (group_rule (consume_n E n) g o Ho) as (br & f & Hru & Hnm & Hs & Hl & Hf).
  assert (Hn : NoDup (map (fun kv : attribute => slower (fst kv)) (group_attributes g))).
  { destruct g as [a|w|a|fo a]; cbn [group_attributes good_group] in *; [apply Hg|constructor|apply Hg|apply fold_arguments; apply Hg]. }
  pose proof (ends_app E _ _ (ends_cons E _ _ (ends_app E _ _ He))) as Hec. pose proof (ends_cons E _ _ (ends_app E _ _ He)) as Hei.
  assert (Hnc : existsb (eq_nocase c) (br_names br) = true) by (rewrite Hnm; apply group_in; auto).
  assert (Hno : existsb (eq_nocase o) (br_names br) = true) by (rewrite Hnm; apply group_in; auto).
  assert (Hd' : depth (with_rule (br_name br) (with_rule "block" (pushed p))) + n <= MAX_RECURSION_DEPTH) by (cbn; lia).
  destruct (group_body s n br inside c (with_rule (br_name br) (with_rule "block" (pushed p))) rest Hr Hin Hh Hd' Hl (group_good g c Hc) Hnc Hei) as [bb Hbody].
  assert (Hpart : forall q, check_partials [group_el g (flat_map block_els inside)] q = None) by (intro q; destruct g; reflexivity).
  apply head_consume with (r := br_name br); auto; [lia| |cbn [length]; rewrite !app_length; lia].
  destruct g as [a|w|a|fo a].
  - destruct (map_head E (consume_n E n) false (with_rule "block" (pushed p)) sol o a (line_piece :: inner_pieces inside ++ close_pieces c ++ rest) s br f) as (h & cs0 & Hp & Hm); auto; [eapply group_good; eauto|apply good_attributes_names; auto|rewrite andb_false_r; reflexivity|discriminate|].
    cbn [group_attributes]. rewrite Hp, Hf. unfold container_block. rewrite (bind_ok _ _ _ _ _ _ _ (assert_ok E br o _ s Hno)). rewrite (bind_ok _ _ _ _ _ _ _ (proj2 (Hm _) _ Hl eq_refl)). rewrite (bind_ok _ _ _ _ _ _ _ Hbody).
    cbn [su_item su_errors]. rewrite (bind_ok _ _ _ _ _ _ _ (attrs_read E a _ (blocks_add inside s) Hg)). exact (group_derived (Div a) _ _ _).
  - cbn [group_attributes flat_map]. unfold head_pieces in *. cbn [app group_attributes flat_map] in *. rewrite <- !app_assoc in *. cbn [app] in *.
    change (TLeftBlock, lit "[[") with (open_piece false).
    rewrite (parse_head E (consume_n E n) false (with_rule "block" (pushed p)) sol o right_piece (line_piece :: inner_pieces inside ++ close_pieces c ++ rest) s br f); auto; [|eapply group_good; eauto|cbn; tauto|eapply ends_cons; exact He|rewrite andb_false_r; reflexivity|discriminate].
    rewrite Hf. unfold blk_align. rewrite (bind_ok _ _ _ _ _ _ _ (assert_ok E br o _ s Hno)). unfold get_head_none. rewrite bind_assoc. unfold get_optional_space at 1. erewrite bind_ok; [|apply opt_no; discriminate].
    erewrite bind_ok; [|apply head_line_out; exact Hl]. rewrite (bind_ok _ _ _ _ _ _ _ Hbody). cbn [su_item su_errors]. exact (group_derived (Aligned w) _ _ _).
  - destruct (map_head E (consume_n E n) false (with_rule "block" (pushed p)) sol o a (line_piece :: inner_pieces inside ++ close_pieces c ++ rest) s br f) as (h & cs0 & Hp & Hm); auto; [eapply group_good; eauto|apply good_attributes_names; auto|rewrite andb_false_r; reflexivity|discriminate|].
    cbn [group_attributes]. rewrite Hp, Hf. unfold container_block. rewrite (bind_ok _ _ _ _ _ _ _ (assert_ok E br o _ s Hno)). rewrite (bind_ok _ _ _ _ _ _ _ (proj2 (Hm _) _ Hl eq_refl)). rewrite (bind_ok _ _ _ _ _ _ _ Hbody).
    cbn [su_item su_errors]. rewrite (bind_ok _ _ _ _ _ _ _ (attrs_read E a _ (blocks_add inside s) Hg)). exact (group_derived (Quoted a) _ _ _).
  - destruct (map_head E (consume_n E n) false (with_rule "block" (pushed p)) sol o (folding_attributes fo ++ a) (line_piece :: inner_pieces inside ++ close_pieces c ++ rest) s br f) as (h & cs0 & Hp & Hm); auto;
      [eapply group_good; eauto|exact (group_attributes_names _ Hg)|rewrite andb_false_r; reflexivity|discriminate|].
    destruct Hg as [Ha Hlab]. destruct (fold_arguments fo a Ha) as (_ & a1 & a2 & a3 & G1 & G2 & G3 & loc & G4 & G5).
    cbn [group_attributes]. rewrite Hp, Hf. unfold blk_collapsible. rewrite (bind_ok _ _ _ _ _ _ _ (assert_ok E br o _ s Hno)). rewrite (bind_ok _ _ _ _ _ _ _ (proj2 (Hm _) _ Hl eq_refl)).
    rewrite G1. rewrite G2. rewrite (bind_ok _ _ _ _ _ _ _ (G3 _ s)). cbv beta iota zeta. rewrite G4.
    assert (G6 : forall q, match loc with Some v => match parse_hide_location v with Some r => ret r | None => fail BlockMalformedArguments end | None => ret (true, false) end q s = ROk (match hide_at fo with Some w => w | None => (true, false) end) q s).
    { intro q. destruct loc as [v|]; [destruct (parse_hide_location v)|]; [injection G5 as <-; reflexivity|discriminate|injection G5 as <-; reflexivity]. }
    rewrite (bind_ok _ _ _ _ _ _ _ (G6 _)). pose proof (group_derived (Collapsible fo a) (flat_map block_els inside)) as D. cbn [group_el] in D |- *.
    destruct (match hide_at fo with Some w => w | None => (true, false) end) as [top bot]. cbn [fst snd] in *. rewrite (bind_ok _ _ _ _ _ _ _ Hbody).
    cbn [su_item su_errors]. rewrite (bind_ok _ _ _ _ _ _ _ (attrs_read E a _ (blocks_add inside s) Ha)). unfold unwrap_or. destruct (starts_folded fo) as [[]|]; exact (D _ _).
Qed.
Lemma most_block (l : list block) n : (fix most (l : list block) : nat := match l with [] => 0 | y :: l' => Nat.max (block_height y) (most l') end) l < n -> Forall (fun x => block_height x < n) l.
Proof. induction l as [|x l IH]; constructor; [|apply IH]; lia. Qed.
Lemma push_block st g es : ps_current st = [] -> into_elements (push_elements st [group_el g es] false) = into_elements st ++ [group_el g es].
Proof. destruct st as [cu fi]. cbn [ps_current]. intros ->. cbn [push_elements ps_current]. rewrite group_break. unfold into_elements. reflexivity. Qed.
Lemma group_block g o inside c : Forall block_run inside -> block_run (Group g o inside c).
Proof.
  intros Hr Hg s n close p rest st first k Hh Hd He Ha Hgo Hc Hk. rewrite add_group. destruct n as [|n]; [lia|].
  assert (Hh' : Forall (fun b => block_height b < n) inside) by (apply most_block; cbn [block_height] in Hh; lia).
  pose proof (group_consume s n g o inside c p true rest Hr Hg Hh' Hd He) as Hco. destruct k as [|k]; [lia|].
  exists k, (push_elements st [group_el g (flat_map block_els inside)] false), false, rest. conj.
  - apply push_block; auto.
  - left. reflexivity.
  - rewrite group_pieces in Hk. unfold head_pieces in Hk. cbn [app length] in Hk. rewrite !app_length in Hk. lia.
  - refine (gather_one (S n) close s _ _ st first _ _ k Hgo _ Hco eq_refl). left. rewrite on_tok. rewrite group_pieces. reflexivity.
Qed.
Lemma verbatim_block v o t c : block_run (Verbatim v o t c).
Proof.
  intros Hg s n close p rest st first k Hh Hd He Ha Hgo Hc Hk. rewrite add_verbatim. destruct n as [|n]; [lia|].
  pose proof (verbatim_consume E s n v o t c p true rest Hg Hd He) as Hco. destruct k as [|k]; [lia|]. exists k, (push_elements st [verbatim_el v t] false), false, rest. conj.
  - destruct st as [cu fi]. cbn [ps_current] in Hc. subst cu. destruct v; reflexivity.
  - left. reflexivity.
  - cbn [block_pieces] in Hk. unfold head_pieces in Hk. cbn [app length] in Hk. rewrite !app_length in Hk. lia.
  - refine (gather_one (S n) close s _ _ st first _ _ k Hgo _ Hco eq_refl). left. rewrite on_tok. reflexivity.
Qed.
Lemma items_block b a items : block_run (Items b a items).
Proof.
  intros Hg s n close p rest st first k Hh Hd He Ha Hgo Hc Hk. rewrite (add_none s : blocks_add [Items b a items] s = s). 
  pose proof (items_consume E n b a items p true rest s Hg Hh Hd He) as Hco. destruct k as [|k]; [lia|]. exists k, (push_elements st [items_el E b a items] false), false, rest. conj.
  - destruct st as [cu fi]. cbn [ps_current] in Hc. subst cu. reflexivity.
  - left. reflexivity.
  - cbn [block_pieces] in Hk. unfold tag_pieces, head_pieces in Hk. cbn [app length] in Hk. rewrite !app_length in Hk. lia.
  - refine (gather_one n close s _ _ st first _ _ k Hgo _ Hco eq_refl). left. rewrite on_tok. reflexivity.
Qed.
Lemma grid_block a rows : block_run (Grid a rows).
Proof.
  intros Hg s n close p rest st first k Hh Hd He Ha Hgo Hc Hk. rewrite (add_none s : blocks_add [Grid a rows] s = s). 
  pose proof (grid_consume E n a rows p true rest s Hg Hh Hd He) as Hco. destruct k as [|k]; [lia|]. exists k, (push_elements st [grid_el E a rows] false), false, rest. conj.
  - destruct st as [cu fi]. cbn [ps_current] in Hc. subst cu. reflexivity.
  - left. reflexivity.
  - cbn [block_pieces] in Hk. unfold tag_pieces, head_pieces in Hk. cbn [app length] in Hk. rewrite !app_length in Hk. lia.
  - refine (gather_one n close s _ _ st first _ _ k Hgo _ Hco eq_refl). left. rewrite on_tok. reflexivity.
Qed.
(** Lines that may take the line break after them. *)
Lemma leaves_line rest : line_end rest -> leaves (eaten rest) rest (uneaten rest).
Proof.
  unfold leaves, uneaten. intros [H|(r & -> & _)]; [left|right; split; reflexivity].
  replace (eaten rest) with false; [reflexivity|]. destruct rest as [|[k z] rest]; [reflexivity|]. cbn in H. destruct H as [<-|[<-|[]]]; reflexivity.
Qed.
Lemma line_block n close s p rest es st first b k : goes close -> ps_current st = [] -> block_els b = [es] -> blocks_add [b] s = s -> is_line_break es = false -> quiet (BlocksParse.first (block_pieces b ++ rest)) = true ->
  forall sol' rest', leaves sol' rest rest' -> consume_n E n (on p true (block_pieces b ++ rest)) s = ROk (PSu [es] [] false) (on p sol' rest') s -> length (block_pieces b ++ rest) < k -> length rest' < length (block_pieces b ++ rest) ->
  exists k' st' sol' rest', into_elements st' = into_elements st ++ block_els b /\ leaves sol' rest rest' /\ length rest' < k' /\
    loop k (gather n close) (st, [], first) (on p true (block_pieces b ++ rest)) s = loop k' (gather n close) (st', [], false) (on p sol' rest') (blocks_add [b] s).
Proof.
  intros Hgo Hc Hb Ha Hl Hq sol' rest' Hlv Hco Hk Hlen. rewrite Ha, Hb. destruct k as [|k]; [lia|]. exists k, (push_elements st [es] false), sol', rest'. split; [|split; [exact Hlv|split; [lia|]]].
  - destruct st as [cu fi]. cbn [ps_current] in Hc. subst cu. cbn [push_elements ps_current]. rewrite Hl. reflexivity.
  - refine (gather_one n close s _ _ st first _ _ k Hgo _ Hco eq_refl). left. rewrite on_tok. exact Hq.
Qed.
Lemma bars_block rows : block_run (Bars rows).
Proof.
  intros Hg s n close p rest st first k Hh Hd He Ha Hgo Hc Hk. destruct n as [|n]; [lia|].
  pose proof (table_consume E n rows p rest s Hg Hh Hd Ha He) as Hco.
  assert (Hb : In (BlocksParse.first (block_pieces (Bars rows) ++ rest)) [TTableColumn; TTableColumnTitle; TTableColumnLeft; TTableColumnCenter; TTableColumnRight] /\ length (uneaten rest) < length (block_pieces (Bars rows) ++ rest)).
  { destruct Hg as [Hne Hg]. destruct rows as [|r rows]; [congruence|]. inversion Hg as [|? ? [Hr _] _]; subst. cbn [block_pieces]. rewrite <- app_assoc. split; [apply bars_start; exact Hr|].
    pose proof (uneaten_len rest). unfold bars_pieces. rewrite !app_length. cbn [length]. lia. }
  destruct Hb as [Hb Hlen]. refine (line_block (S n) close s p rest (bars_el E rows) st first (Bars rows) k Hgo Hc eq_refl (add_none s) eq_refl _ _ _ (leaves_line rest Ha) Hco Hk Hlen).
  revert Hb. generalize (BlocksParse.first (block_pieces (Bars rows) ++ rest)). intros t0 Hb. cbn in Hb. destruct Hb as [<-|[<-|[<-|[<-|[<-|[]]]]]]; reflexivity.
Qed.
Lemma divider_block d : block_run (Divider d).
Proof.
  intros Hg s n close p rest st first k Hh Hd He Ha Hgo Hc Hk. destruct n as [|n]; [lia|]. pose proof (uneaten_len rest) as Hlen.
  refine (line_block (S n) close s p rest EHorizontalRule st first (Divider d) k Hgo Hc eq_refl (add_none s) eq_refl eq_refl _ _ (leaves_line rest Ha) (dashes_consume E n d p rest s Hd Ha) Hk _). cbn [block_pieces app length]. lia.
Qed.
Lemma clear_block w d : block_run (Clear w d).
Proof.
  intros Hg s n close p rest st first k Hh Hd He Ha Hgo Hc Hk. destruct n as [|n]; [lia|].
  refine (line_block (S n) close s p rest (EClearFloat (clear_of w)) st first (Clear w d) k Hgo Hc eq_refl (add_none s) eq_refl _ _ _ (or_introl eq_refl) (clear_consume E n w _ p rest s Hd) Hk _); [destruct w as [[]|]; reflexivity|cbn [block_pieces app length]; lia].
Qed.
Lemma block_runs b : block_run b. Proof. induction b using block_ind'; [apply par_block|apply group_block; auto|apply verbatim_block|apply items_block|apply grid_block|apply bars_block|apply divider_block|apply clear_block]. Qed.
(** *** Pages. *)
Lemma toks_place cs : ends cs -> toks E cs = place (pos_of E cs) cs ++ [XT TInputEnd [] (blen (en_text E)) (blen (en_text E))].
Proof.
  induction cs as [|[k z] cs IH]; intro He; [unfold toks, BlocksParse.total, place; reflexivity|]. cbn [toks place app]. rewrite IH by (eapply ends_cons; eauto).
  replace (pos_of E ((k, z) :: cs) + blen z) with (pos_of E cs); [reflexivity|]. destruct He as [pre He]. rewrite (pos_of_pre E pre _ He). rewrite (pos_of_pre E (pre ++ z) cs); [apply blen_app|].
  rewrite He. unfold flat. cbn [flat_map snd]. rewrite app_assoc. reflexivity.
Qed.
Lemma blocks_parse bs : good_page (en_entity E) bs -> en_text E = source bs -> exists toks, parsed E toks (TREE (flat_map block_els bs ++ [EFootnoteBlock None false]) [] (flat_map block_documents bs) (map (fun t => CB t None) (flat_map block_programs bs)) [] [] (blen (source bs)) []).
Proof.
  intros Hg He. assert (Hgb : Forall (good_block (en_entity E)) bs) by (apply Forall_forall; intros b Hb; apply Hg; auto).
  assert (Hh : Forall (fun b => block_height b < 100) bs) by (apply Forall_forall; intros b Hb; apply Hg; auto).
  pose proof (lex_all (page_pieces bs) (page_lx (en_entity E) bs (fun b Hb => proj1 (Hg b Hb)))) as Hlex. rewrite (page_flat _ _ Hgb), <- He in Hlex.
  assert (Hend : ends (page_pieces bs)) by (exists []; rewrite (page_flat _ _ Hgb); exact He).
  assert (H0 : pos_of E (page_pieces bs) = 0) by (rewrite (pos_of_pre E []); [reflexivity|rewrite (page_flat _ _ Hgb); exact He]).
  pose proof (toks_place _ Hend) as Ht. rewrite H0 in Ht. rewrite <- Ht in Hlex.
  set (st := XT TInputStart [] 0 0) in *. set (p := PST st (toks E (page_pieces bs)) "page" 0 APNone false false true).
  assert (Hstart : consume_n E 100 p shared_new = ROk (PSu [] [] true) (on p true (page_pieces bs)) shared_new).
  { destruct (toks E (page_pieces bs)) as [|u r] eqn:Eu; [destruct (toks_ne _ _ Eu)|]. unfold BlocksParse.on. rewrite Eu. apply (start_consume E 99 p shared_new u r); [cbn; unfold MAX_RECURSION_DEPTH; lia|reflexivity|reflexivity]. }
  enough (X : exists stk sol', into_elements stk = flat_map block_els bs /\ looping (gather 100 None) (ps_new, [], true) p shared_new = ROk (stk, []) (on p sol' []) (blocks_add bs shared_new)).
  { destruct X as (stk & sol' & Hst & X). destruct (blocks_safe bs) as [b Hb]. exists (st :: toks E (page_pieces bs)).
    assert (Hgp : gather_paragraphs (consume E) "page" None p shared_new = ROk (PSu (flat_map block_els bs) [] b) (on p sol' []) (blocks_add bs shared_new)).
    { unfold gather_paragraphs. unfold PState.bind at 1. unfold set_rule, modify. change (with_rule "page" p) with p. unfold PState.bind at 1.
      change (looping _ (ps_new, [], true) p shared_new) with (looping (gather 100 None) (ps_new, [], true) p shared_new). rewrite X. cbv beta iota zeta. unfold PState.bind, or_panic, into_result. rewrite Hst, Hb. reflexivity. }
    split; auto. unfold parse. cbn [parser_new]. fold p. rewrite Hgp. cbn. rewrite He. reflexivity. }
  unfold looping. change (length (rem p)) with (length (toks E (page_pieces bs))). rewrite toks_len.
  rewrite (gather_one 100 None shared_new shared_new p ps_new true _ _ _ I (or_introl eq_refl) Hstart eq_refl). cbn [su_item su_safe push_elements].
  destruct bs as [|b bs].
  - exists ps_new, true. rewrite add_none. split; reflexivity.
  - destruct (blocks_run (b :: bs) (proj2 (Forall_forall _ _) (fun b _ => block_runs b)) Hgb shared_new 100 None p [] ps_new false (S (length (page_pieces (b :: bs))))) as (k' & stk & sol' & rest' & H1 & Hlv & H2 & H3); auto;
      try discriminate; try exact I; try (rewrite app_nil_r; exact Hend); try (left; cbn; tauto); try (rewrite app_nil_r; unfold page_pieces; lia); try (change (depth p) with 0; unfold MAX_RECURSION_DEPTH; lia).
    destruct Hlv as [-> | [X _]]; [|discriminate X]. exists stk, sol'. split; [exact H1|]. rewrite app_nil_r in H3. fold (page_pieces (b :: bs)) in H3. rewrite H3. destruct k' as [|k']; [lia|]. reflexivity.
Qed.
End Group.
