(** WritingBlocks.v -- headings, rules, lists and quotes of SpecWriting.v, as the parser reads them. *)
From Verif Require Import Base BaseLemmas Strings Links Attr Lexer SpecLexer LexerLemmas Depth SpecDepth DepthLemmas DepthBuild Tree Text Toc PState Blocks Rules Parse
  SpecParse SpecPage ParseInv SpecWriting ProseLemmas WritingLex WritingParse.

(** *** The text of spans. *)
Section TextPage.
Variables (site : str) (df : date_item -> option str).
Notation tes := (t_elements site df).
Definition says (es : list element) (s : str) : Prop := forall out sc, tes es (TX out 0 sc) = Some (TX (out ++ s) 0 sc).
Lemma tes_fix es c : (fix go (es : list element) (c : tctx) : option tctx := match es with [] => Some c | x :: es' => match t_element site df x c with Some c => go es' c | None => None end end) es c = tes es c.
Proof. revert c. induction es as [|x es IH]; intro c; [reflexivity|]. cbn [t_elements]. destruct (t_element site df x c); auto. Qed.
Lemma tes_app a b c : tes (a ++ b) c = match tes a c with Some c => tes b c | None => None end.
Proof. revert c. induction a as [|x a IH]; intro c; [reflexivity|]. cbn [app t_elements]. destruct (t_element site df x c); auto. Qed.
Lemma says_app a b s t : says a s -> says b t -> says (a ++ b) (s ++ t).
Proof. intros Ha Hb out sc. rewrite tes_app, Ha, Hb, app_assoc. reflexivity. Qed.
Lemma says_nil : says [] []. Proof. intros out sc. cbn. rewrite app_nil_r. reflexivity. Qed.
Lemma says_one x s : (forall out sc, t_element site df x (TX out 0 sc) = Some (TX (out ++ s) 0 sc)) -> says [x] s.
Proof. intros H out sc. cbn [t_elements]. rewrite H. reflexivity. Qed.
Lemma says_reads l es : reads l es -> says es (flat_map text_of l).
Proof.
  induction 1 as [|s cs l es Hc Hr IH|l es Hr IH|m i es0 l es Hi IHi Hr IH]; cbn [flat_map text_of].
  - apply says_nil.
  - subst s. apply says_app; auto. clear. induction cs as [|x cs IH]; [apply says_nil|].
    cbn [map concat]. change (EText x :: map EText cs) with ([EText x] ++ map EText cs). apply says_app; auto. apply says_one. reflexivity.
  - change (ELineBreak :: es) with ([ELineBreak] ++ es). apply says_app; auto. apply says_one. reflexivity.
  - change (EContainer (ct_of m) [] es0 :: es) with ([EContainer (ct_of m) [] es0] ++ es). apply says_app; auto. apply says_one. intros out sc.
    destruct m; cbn [t_element ct_of]; rewrite tes_fix; apply IHi.
Qed.
Lemma drop_skip s : drop_newlines s = skip_newlines s.
Proof. induction s as [|c s IH]; [reflexivity|]. cbn [drop_newlines skip_newlines]. rewrite IH. reflexivity. Qed.
Lemma says_name l es : reads l es -> text_render site df es = Some (SpecWriting.strip_newlines (flat_map text_of l)).
Proof. intro H. unfold text_render. rewrite (says_reads _ _ H). cbn [tx_out app]. unfold SpecWriting.strip_newlines. rewrite !drop_skip. reflexivity. Qed.
End TextPage.

(** *** Breaks. *)
Definition brk (k : nat) : list item := match k with 0 => [] | _ => [IBreak k] end.
Lemma page_items_cons b k ps : page_items ((b, k) :: ps) = block_items b ++ brk k ++ page_items ps.
Proof. destruct k; reflexivity. Qed.
Fixpoint with_breaks {A} (k : nat) (l : list A) : list (A * nat) :=
  match l with [] => [] | [x] => [(x, k)] | x :: l' => (x, 1) :: with_breaks k l' end.
Lemma lines_breaks {A} (f : A -> list item) k l : l <> [] -> one_per_line (map f l) ++ brk k = flat_map (fun x => f (fst x) ++ brk (snd x)) (with_breaks k l).
Proof.
  induction l as [|x l IH]; intro Hne; [congruence|]. destruct l as [|y l]; [cbn; rewrite app_nil_r; reflexivity|].
  change (one_per_line (map f (x :: y :: l))) with (f x ++ IBreak 1 :: one_per_line (map f (y :: l))). change (with_breaks k (x :: y :: l)) with ((x, 1) :: with_breaks k (y :: l)).
  cbn [flat_map fst snd]. rewrite <- IH by discriminate. rewrite <- !app_assoc. reflexivity.
Qed.
Lemma with_breaks_fst {A} k (l : list A) : map fst (with_breaks k l) = l.
Proof. induction l as [|x [|y l] IH]; [reflexivity|reflexivity|]. cbn [with_breaks map fst]. cbn [with_breaks] in IH. rewrite IH. reflexivity. Qed.
(** Only the last thing may have no break after it. *)
Fixpoint broken {A} (l : list (A * nat)) (after : list item) : Prop :=
  match l with [] => True | (_, k) :: l' => (k = 0 -> l' = [] /\ after = []) /\ broken l' after end.
Lemma with_breaks_broken {A} k (l : list A) after : (k = 0 -> after = []) -> broken (with_breaks k l) after.
Proof. intro H. induction l as [|x [|y l] IH]; [exact I|split; [intro; auto|exact I]|]. split; [discriminate|exact IH]. Qed.

(** *** One line. *)
Definition line_over (k : token) : bool := match k with TLineBreak | TParagraphBreak | TInputEnd => true | _ => false end.
Lemma collect_line_steps E n s close p es p' : (forall q, evaluate_any close q = line_over (cur_tok q)) ->
  steps E n s (goes_on InLine) p es p' -> line_over (cur_tok p') = true ->
  collect_consume (consume_n E n) close [] None p s = 
    match (if tok_eqb (cur_tok p') TInputEnd then ret tt else step ;; ret tt) p' s with ROk _ q s' => ROk (PSu es [] true) q s' | RErr e q s' => RErr e q s' | RPanic w => RPanic w | RFuel => RFuel end.
Proof.
  intros Hcl H Hc. unfold collect_consume, collect_consume_keep, collect, looping. unfold bind at 1.
  match goal with |- match loop _ ?b _ _ _ with _ => _ end = _ => set (body := b) end.
  assert (X : forall k acc, length (rem p) < k -> loop k body (acc, [], true) p s =
     match (if tok_eqb (cur_tok p') TInputEnd then ret tt else step ;; ret tt) p' s with ROk _ q s' => ROk (PSu (acc ++ es, cur p') [] true) q s' | RErr e q s' => RErr e q s' | RPanic w => RPanic w | RFuel => RFuel end).
  { induction H as [p|p es p1 es' p2 Hg Hco Hlt H IH]; intros k acc Hk.
    - destruct k as [|k]; [lia|]. cbn [loop]. unfold bind at 1. unfold body at 1, bind at 1. unfold gets at 1. rewrite Hcl, Hc. unfold bind at 1. unfold gets at 1. unfold bind at 1. unfold cur_tok.
      destruct ((if tok_eqb (t_token (cur p)) TInputEnd then ret tt else step ;; ret tt) p s) as [? q s'| | |]; try reflexivity. unfold ret. rewrite app_nil_r. reflexivity.
    - destruct k as [|k]; [lia|]. specialize (IH Hc k (acc ++ es) ltac:(lia)). rewrite app_assoc, <- IH. cbn [loop]. unfold bind at 1. unfold body at 1, bind at 1. unfold gets at 1. rewrite Hcl.
      destruct Hg as (Hg1 & Hg2 & Hg3). assert (Y : line_over (cur_tok p) = false) by (destruct (cur_tok p); auto; congruence). rewrite Y.
      unfold bind at 1. unfold gets at 1. cbn [evaluate_any existsb]. unfold bind at 1. unfold gets at 1. unfold is_tok at 1. destruct (tok_eqb (cur_tok p) TInputEnd) eqn:Z; [apply tok_eqb_true in Z; contradiction|].
      unfold bind at 1. unfold gets at 1. unfold bind at 1 2. rewrite Hco. unfold ret at 1. cbn [su_item su_errors su_safe].
      unfold step_if_same, bind at 1, gets, same_pointer. unfold bind at 1. destruct (length (rem p1) =? length (rem p)) eqn:W; [apply Nat.eqb_eq in W; lia|]. unfold ret. cbn [app andb]. reflexivity. }
  rewrite (X (S (length (rem p))) [] ltac:(lia)). destruct ((if tok_eqb (cur_tok p') TInputEnd then ret tt else step ;; ret tt) p' s); reflexivity.
Qed.
Lemma line_nests l : good_line l -> all_nests l /\ heights l < 99.
Proof.
  intros (_ & _ & H). induction l as [|x l IH]; [cbn; split; auto; lia|]. destruct (H x (or_introl eq_refl)) as [H1 H2]. destruct IH as [H3 H4]; [intros y Hy; apply H; right; auto|].
  cbn [all_nests heights]. split; auto. lia.
Qed.
Definition opener (i : item) : Prop := match i with IHead _ _ | IBullet _ _ | IQuote _ => True | _ => False end.
Lemma collect_line E s close p i l k after t1 tb tss e : (forall q, evaluate_any close q = line_over (cur_tok q)) -> opener i ->
  Forall2 lexed (flat_map items l) t1 -> Forall2 lexed (brk k) tb -> Forall2 lexed after tss -> t_token e = TInputEnd -> (k = 0 -> after = []) ->
  all_beside (Some i) (flat_map items l ++ brk k ++ after) None -> good_line l -> depth p + 99 <= MAX_RECURSION_DEPTH ->
  exists es sol, reads l es /\ (k <> 0 -> sol = true) /\
    collect_consume (consume_n E 99) close [] None (at_ p false (concat t1 ++ concat tb ++ concat tss ++ [e])) s = ROk (PSu es [] true) (at_ p sol (concat tss ++ [e])) s.
Proof.
  intros Hcl Hop H1 Hb H2 He Hk Hbs Hg Hd. destruct (line_nests l Hg) as [Hn Hh]. destruct Hg as (_ & Hnl & _).
  destruct (spans_steps E s _ l (le_n _) InLine 99 p (Some i) (brk k ++ after) t1 (tb ++ tss) e H1 (Forall2_app Hb H2) He Hbs Hn Hh Hd Hnl) as (es & Hr & Hst).
  assert (Hs : sol_of (Some i) = false) by (destruct i; auto; contradiction). rewrite Hs, concat_app, <- app_assoc in Hst.
  exists es. set (sol' := sol_of _) in Hst.
  destruct k as [|k].
  - cbn [brk] in Hb. inversion Hb; subst tb. rewrite (Hk eq_refl) in H2. inversion H2; subst tss. cbn [concat app] in Hst |- *.
    exists sol'. conj; auto. rewrite (collect_line_steps E 99 s close _ es _ Hcl Hst).
    + unfold cur_tok. cbn [at_ cur]. rewrite He. reflexivity.
    + unfold cur_tok. cbn [at_ cur]. rewrite He. reflexivity.
  - cbn [brk] in Hb. inversion Hb as [|? tk ? ? Htk Hnil]; subst. inversion Hnil; subst. apply lexed_break in Htk as (b & -> & Hbk). cbn [concat app] in Hst |- *.
    exists true. conj; auto. rewrite (collect_line_steps E 99 s close _ es _ Hcl Hst); unfold cur_tok; cbn [at_ cur]; rewrite Hbk.
    + destruct (head_ex tss e) as (u & r & Eu). rewrite Eu. destruct (S k =? 1).
      * change (tok_eqb TLineBreak TInputEnd) with false. cbn iota. unfold bind. rewrite (run_step _ _ u r) by reflexivity. unfold ret. f_equal. unfold adv, cur_tok. cbn [at_ cur]. rewrite Hbk. reflexivity.
      * change (tok_eqb TParagraphBreak TInputEnd) with false. cbn iota. unfold bind. rewrite (run_step _ _ u r) by reflexivity. unfold ret. f_equal. unfold adv, cur_tok. cbn [at_ cur]. rewrite Hbk. reflexivity.
    + destruct (S k =? 1); reflexivity.
Qed.

(** *** One rule. *)
Definition within_rule (name : rule_name) (p : pstate) : pstate := with_rule name (pushed p).
Lemma rule_consume E n p0 sol T out q s s' r rs sol' T' :
  rules_for E (consume_n E n) (cur_tok (at_ p0 sol T)) = r :: rs -> T <> [] -> T' <> [] -> (rd_position r = StartOfLine -> sol = true) -> depth p0 < MAX_RECURSION_DEPTH ->
  q = at_ (within_rule (rd_name r) p0) sol' T' -> rd_fn r (at_ (within_rule (rd_name r) p0) sol T) s = ROk out q s' -> (forall p, check_partials (su_item out) p = None) ->
  length T' < length T -> consume_n E (S n) (at_ p0 sol T) s = ROk out (at_ p0 sol' T') s'.
Proof.
  intros Hr HT HT' Hpos Hd -> Hf Hcp Hlen. destruct T as [|c T]; [congruence|]. destruct T' as [|c' T']; [congruence|].
  rewrite consume_S by exact Hd. rewrite Hr. cbn [consume_rules]. unfold bind at 1. unfold gets at 1. unfold bind at 1. unfold attempt, try_consume.
  assert (Hp : (match rd_position r with AnyPosition => false | StartOfLine => negb (start_of_line (with_depth (S (depth (at_ p0 sol (c :: T)))) (at_ p0 sol (c :: T)))) end) = false).
  { destruct (rd_position r); auto. cbn [at_ with_depth start_of_line]. rewrite Hpos; auto. }
  rewrite Hp. change (with_rule (rd_name r) (with_depth (S (depth (at_ p0 sol (c :: T)))) (at_ p0 sol (c :: T)))) with (at_ (within_rule (rd_name r) p0) sol (c :: T)).
  rewrite Hf, Hcp. unfold bind at 1. unfold step_if_same, bind at 1. unfold gets at 1, update, same_pointer. cbn [rem at_ with_depth].
  destruct (length T' =? length T) eqn:Y; [apply Nat.eqb_eq in Y; cbn in Hlen; lia|]. unfold ret, depth_decrement, modify, bind. f_equal.
  unfold with_depth, within_rule, pushed, with_rule. cbn. rewrite ?Nat.sub_0_r. reflexivity.
Qed.
Lemma check_ones es : forallb (fun e => match e with EPartial _ => false | _ => true end) es = true -> forall p, check_partials es p = None.
Proof. induction es as [|e es IH]; intros H p; [reflexivity|]. cbn [forallb] in H. apply andb_true_iff in H as [H1 H2]. destruct e; try discriminate; apply IH; auto. Qed.
(** A line break before something that starts a block. *)
Lemma skip_consume E n p0 sol c t r s : depth p0 < MAX_RECURSION_DEPTH -> t_token c = TLineBreak ->
  starter (t_token t) = true -> consume_n E (S n) (at_ p0 sol (c :: t :: r)) s = ROk (PSu [] [] true) (at_ p0 true (t :: r)) s.
Proof.
  intros Hd Hc Hs. rewrite consume_S by exact Hd. unfold cur_tok. cbn [at_ cur]. rewrite Hc. cbn [rules_for].
  destruct p0 as [c0 rm0 ru d a f h sol0]. unfold with_depth. cbn [at_ cur rem rule_ depth accepts_partial in_footnote has_footnote_block start_of_line].
  set (p := PST c (t :: r) ru (S d) a f h sol).
  assert (F1 : forall con, fails (RULE "block-skip" AnyPosition (block_skip E con)) p s).
  { intro con. apply rule_fails. cbn [rd_fn rd_name]. unfold block_skip, bind, p, step, with_rule, evaluate_fn. cbn [rem cur rule_ depth accepts_partial in_footnote has_footnote_block start_of_line].
    destruct (t_token t); try discriminate Hs; eexists; eexists; reflexivity. }
  assert (F2 : fails (RULE "definition-list-skip-newline" AnyPosition rule_def_skip) p s).
  { apply rule_fails. cbn [rd_fn rd_name]. unfold rule_def_skip, bind, p, gets, is_tok, next_is, look_ahead, cur_tok, with_rule. cbn [cur rem nth_error]. rewrite Hc.
    destruct (t_token t); try discriminate Hs; eexists; eexists; reflexivity. }
  match goal with |- context [consume_rules (?a :: ?b :: ?l) [] p s] => destruct (skip_rule a (b :: l) [] p s (F1 _)) as [e1 ->]; destruct (skip_rule b l e1 p s F2) as [e2 ->] end.
  assert (Hev : evaluate_fn (step ;; get_optional_space ;;
    gets (is_any [TQuote; TBulletItem; TNumberedItem; THeading; TEquals; TTripleDash; TClearFloatLeft;
                  TClearFloatRight; TClearFloatBoth; TTableColumn; TTableColumnLeft; TTableColumnRight;
                  TTableColumnCenter; TTableColumnTitle])) (with_rule "line-break" p) s = ROk true (with_rule "line-break" p) s).
  { unfold evaluate_fn, bind, p, with_rule, step. cbn [cur rem rule_ depth accepts_partial in_footnote has_footnote_block start_of_line].
    unfold get_optional_space, get_optional_token, bind, gets, is_tok, cur_tok. cbn [cur].
    destruct (t_token t) eqn:Et; try discriminate Hs; unfold ret, is_any, cur_tok; cbn; rewrite ?Et; reflexivity. }
  cbn [consume_rules]. unfold bind at 1 2. unfold gets at 1, attempt, try_consume. cbn [rd_position rd_fn rd_name]. unfold rule_line_break. unfold bind at 1.
  rewrite Hev. unfold ok_derived, or_panic, bind, ret. cbn [all_paragraph_safe paragraph_safe check_partials su_item].
  unfold update, step_if_same, bind, gets, same_pointer, p. cbn. rewrite Nat.eqb_refl. cbn. rewrite Nat.sub_0_r. unfold cur_tok. cbn. rewrite Hc. reflexivity.
Qed.
(** Running monadic code step by step. *)
Lemma bind_ok {A B} (m : M A) (k : A -> M B) p s a p' s' : m p s = ROk a p' s' -> bind m k p s = k a p' s'.
Proof. unfold bind. intros ->. reflexivity. Qed.
Lemma bind_gets {A B} (f : pstate -> A) (k : A -> M B) p s : bind (gets f) k p s = k (f p) p s. Proof. reflexivity. Qed.
Lemma bind_assoc {A B C} (m : M A) (k : A -> M B) (h : B -> M C) p s : bind (bind m k) h p s = bind m (fun a => bind (k a) h) p s.
Proof. unfold bind. destruct (m p s); reflexivity. Qed.
Lemma step_at p sol c t r s : step (at_ p sol (c :: t :: r)) s = ROk t (at_ p (line_start_token (t_token c)) (t :: r)) s. Proof. reflexivity. Qed.
Lemma tok_refl k : tok_eqb k k = true. Proof. apply tok_eqb_true. auto. Qed.
Lemma check_step_at k p sol c t r s : t_token c = k -> check_step k (at_ p sol (c :: t :: r)) s = ROk c (at_ p (line_start_token k) (t :: r)) s.
Proof. intros <-. unfold check_step. rewrite bind_gets. cbn [at_ cur]. rewrite tok_refl. reflexivity. Qed.
Lemma header_step_at k p sol c t r s : t_token c = k -> header_step k (at_ p sol (c :: t :: r)) s = ROk c (at_ p (line_start_token k) (t :: r)) s.
Proof. intros <-. unfold header_step. rewrite bind_gets. cbn [at_ cur]. rewrite tok_refl. reflexivity. Qed.
Lemma optional_yes k p sol c t r s : t_token c = k -> get_optional_token k (at_ p sol (c :: t :: r)) s = ROk tt (at_ p (line_start_token k) (t :: r)) s.
Proof. intros <-. unfold get_optional_token. rewrite bind_gets. unfold is_tok, cur_tok. cbn [at_ cur]. rewrite tok_refl. reflexivity. Qed.
Lemma optional_no k p sol c r s : t_token c <> k -> get_optional_token k (at_ p sol (c :: r)) s = ROk tt (at_ p sol (c :: r)) s.
Proof. intro H. unfold get_optional_token. rewrite bind_gets. unfold is_tok, cur_tok. cbn [at_ cur]. destruct (tok_eqb (t_token c) k) eqn:E; [apply tok_eqb_true in E; contradiction|reflexivity]. Qed.
(** A rule. *)
Lemma hr_consume E n p0 s c T : depth p0 < MAX_RECURSION_DEPTH -> t_token c = TTripleDash ->
  (match T with t :: r => t_token t = TLineBreak /\ r <> [] \/ t_token t <> TLineBreak | [] => False end) ->
  consume_n E (S n) (at_ p0 true (c :: T)) s = ROk (PSu [EHorizontalRule] [] false)
    (match T with t :: r => if tok_eqb (t_token t) TLineBreak then at_ p0 true r else at_ p0 false T | [] => p0 end) s.
Proof.
  intros Hd Hc Hn. destruct T as [|t r]; [contradiction|]. destruct (tok_eqb (t_token t) TLineBreak) eqn:E1.
  - apply tok_eqb_true in E1. destruct Hn as [[_ Hn]|Hn]; [|congruence]. destruct r as [|u r]; [congruence|].
    eapply rule_consume with (sol' := true) (T' := u :: r); [unfold cur_tok; cbn [at_ cur]; rewrite Hc; reflexivity|discriminate|discriminate|auto|auto|reflexivity| |apply check_ones; reflexivity|cbn; lia].
    cbn [rd_fn rd_name]. unfold rule_horizontal_rule. erewrite bind_ok by (apply check_step_at; exact Hc). erewrite bind_ok by (apply optional_yes; exact E1). reflexivity.
  - eapply rule_consume with (sol' := false) (T' := t :: r); [unfold cur_tok; cbn [at_ cur]; rewrite Hc; reflexivity|discriminate|discriminate|auto|auto|reflexivity| |apply check_ones; reflexivity|cbn; lia].
    cbn [rd_fn rd_name]. unfold rule_horizontal_rule. erewrite bind_ok by (apply check_step_at; exact Hc). erewrite bind_ok by (apply optional_no; intro X; rewrite X, tok_refl in E1; discriminate). reflexivity.
Qed.
(** Headings. *)
Lemma heading_level n (b : bool) : 1 <= n <= 6 -> heading_try_from (repeat 43%N n ++ (if b then [] else [42%N])) = Some (HD n b).
Proof. intro H. destruct n as [|[|[|[|[|[|[|n]]]]]]]; try lia; destruct b; reflexivity. Qed.
Definition add_toc (s : shared) (l : list (nat * str)) : shared := SH (sh_toc s ++ l) (sh_html s) (sh_code s) (sh_footnotes s) (sh_bibs s).
Lemma add_toc_nil s : add_toc s [] = s. Proof. destruct s. unfold add_toc. cbn. rewrite app_nil_r. reflexivity. Qed.
Lemma add_toc_app s a b : add_toc (add_toc s a) b = add_toc s (a ++ b). Proof. unfold add_toc. cbn. rewrite app_assoc. reflexivity. Qed.
Definition heading_entry (n : nat) (b : bool) (l : list span) : list (nat * str) := if b then [(n - 1, SpecWriting.strip_newlines (flat_map text_of l))] else [].
Definition lb_pb_end (close : list condition_) : Prop := forall q, evaluate_any close q = line_over (cur_tok q).
Lemma close_any close : In close [[tok_end; tok_lb; tok_pb]; [tok_lb; tok_end; tok_pb]; [tok_lb; tok_pb; tok_end]] -> lb_pb_end close.
Proof. intros H q. unfold evaluate_any. destruct H as [<-|[<-|[<-|[]]]]; cbn; unfold is_tok; destruct (cur_tok q); reflexivity. Qed.
Lemma all_beside_in a l r z : all_beside a (l ++ r) z -> match l with [] => True | x :: l' => all_beside (Some x) (l' ++ r) z end.
Proof. destruct l; auto. intros [_ H]. exact H. Qed.
Lemma header_one E p s n (b : bool) l k after t1 tss e f : 
  Forall2 lexed (IHead n b :: flat_map items l ++ brk k) t1 -> Forall2 lexed after tss -> t_token e = TInputEnd -> (k = 0 -> after = []) ->
  (exists a, all_beside a ((IHead n b :: flat_map items l ++ brk k) ++ after) None) -> 1 <= n <= 6 -> good_line l -> depth p + 99 <= MAX_RECURSION_DEPTH ->
  exists es sol, reads l es /\ (k <> 0 -> sol = true) /\ 2 <= length (concat t1) /\ forall sol0,
    header_n E (consume_n E 99) (S f) (at_ p sol0 (concat t1 ++ concat tss ++ [e])) s =
    (let! r := attempt (header_n E (consume_n E 99) f) in
      match r with
      | inl more => ok_flag false ([EContainer (CHeader (HD n b)) [] es] ++ su_item more) (su_errors more)
      | inr _ => ok_flag false [EContainer (CHeader (HD n b)) [] es] []
      end) (at_ p sol (concat tss ++ [e])) (add_toc s (heading_entry n b l)).
Proof.
  intros H1 H2 He Hk (a & Hb) Hn Hg Hd. inversion H1 as [|? th ? tl Hth Htl]; subst. apply lexed_head in Hth as (c & w & -> & Hc & Hsl & Hw). apply Forall2_app_split in Htl as (tl1 & tb & -> & Hl1 & Htb).
  cbn [app all_beside] in Hb. destruct Hb as [_ Hb]. rewrite <- app_assoc in Hb.
  destruct (collect_line E s [tok_end; tok_lb; tok_pb] p (IHead n b) l k after tl1 tb tss e) as (es & sol & Hr & Hs & Hcol); auto.
  { apply close_any. cbn. auto. } { exact I. }
  exists es, sol. conj; auto; [cbn; lia|]. intro sol0. cbn [concat app]. rewrite concat_app, <- !app_assoc.
  assert (exists u r, concat tl1 ++ concat tb ++ concat tss ++ [e] = u :: r) as (u & r & Eu).
  { destruct (concat tl1); [|cbn; eauto]. destruct (concat tb); [|cbn; eauto]. destruct (head_ex tss e) as (u & r & ->). cbn. eauto. }
  rewrite Eu in Hcol |- *. cbn [header_n]. erewrite bind_ok by (apply header_step_at; exact Hc). rewrite Hsl, (heading_level n b Hn). unfold or_panic. erewrite bind_ok by reflexivity.
  erewrite bind_ok by (apply header_step_at; exact Hw). change (line_start_token TWhitespace) with false.
  erewrite bind_ok by (unfold collect_container; erewrite bind_ok by exact Hcol; reflexivity). cbn [su_item su_safe su_errors hd_has_toc hd_level].
  assert (Ht : (if b then push_toc E n es else ret tt) (at_ p sol (concat tss ++ [e])) s = ROk tt (at_ p sol (concat tss ++ [e])) (add_toc s (heading_entry n b l))).
  { destruct b; [|unfold ret, heading_entry; rewrite add_toc_nil; reflexivity]. unfold push_toc. rewrite (says_name _ _ _ _ Hr). reflexivity. }
  erewrite bind_ok by (destruct b; exact Ht). unfold bind. destruct (attempt _ _ _) as [[more|x]| | |]; reflexivity.
Qed.

(** *** What follows on a page. *)
Definition fine (a : option item) (ps : page) : Prop :=
  all_beside a (page_items ps) None /\ spaced ps /\ (forall b k, In (b, k) ps -> good_block b) /\ (ps <> [] -> sol_of a = true).
Lemma fine_good a b k ps : fine a ((b, k) :: ps) -> good_block b. Proof. intros (_ & _ & H & _). apply (H b k). left. auto. Qed.
Lemma fine_last a b ps : fine a ((b, 0) :: ps) -> ps = [].
Proof. intros (_ & [H _] & _). destruct ps as [|[b' k'] ps]; auto. destruct H as [H _]. lia. Qed.
Lemma fine_tail a b k ps : fine a ((b, k) :: ps) -> exists a', fine a' ps.
Proof.
  intro H. destruct k as [|k]; [rewrite (fine_last _ _ _ H); exists None; split; [exact I|split; [exact I|split; [intros ? ? []|congruence]]]|].
  destruct H as (H1 & [_ H2] & H3 & H4). exists (Some (IBreak (S k))). split; [|split; [exact H2|split; [|auto]]].
  - rewrite page_items_cons, app_assoc in H1. apply all_beside_last in H1. cbn [brk] in H1. unfold last_item in H1. destruct (block_items b ++ [IBreak (S k)]) eqn:X; [destruct (block_items b); discriminate|]. rewrite <- X, last_last in H1. exact H1.
  - intros b' k' Hi. apply (H3 b' k'). right. auto.
Qed.
Lemma fine_sep a b k b' k' ps : fine a ((b, k) :: (b', k') :: ps) -> separate b k b'. Proof. intros (_ & [H _] & _). exact H. Qed.
Lemma lists_first ls : good_block (Lists ls) -> exists b l rows, list_lines ls = (0, b, l) :: rows.
Proof.
  intros (Hne & _ & Hw & _). destruct ls as [|[b xs] ls]; [congruence|]. destruct (Hw (b, xs) (or_introl eq_refl)) as ((l & xs' & Hx) & _). cbn [fst snd] in Hx. subst xs. exists b, l. eexists. reflexivity.
Qed.
Lemma quote_first xs : good_block (Quote xs) -> exists l rows, flat_map (lines 1 tt) xs = (1, tt, l) :: rows.
Proof. intros [((l & xs' & ->) & _) _]. exists l. eexists. reflexivity. Qed.
Definition first_kind (ps : page) (k : token) : Prop :=
  match ps with
  | [] => k = TInputEnd
  | (Heading _ _ _, _) :: _ => k = THeading
  | (Rule _, _) :: _ => k = TTripleDash
  | (Lists _, _) :: _ => k = TBulletItem \/ k = TNumberedItem
  | (Quote _, _) :: _ => k = TQuote
  | (Paragraph p, _) :: _ => k <> THeading /\ k <> TQuote /\ k <> TBulletItem /\ k <> TNumberedItem /\ k <> TInputEnd /\ k <> TLineBreak /\
      (match p with Words s :: _ => forall c r, s = c :: r -> ~ blank c | _ => True end -> k <> TWhitespace)
  end.
Lemma one_per_line_first (x : list item) ls : exists r, one_per_line (x :: ls) = x ++ r.
Proof. destruct ls; [exists []; cbn; rewrite app_nil_r; auto|]. eexists. reflexivity. Qed.
Lemma page_first a ps tss e : fine a ps -> Forall2 lexed (page_items ps) tss -> t_token e = TInputEnd -> exists u r, concat tss ++ [e] = u :: r /\ first_kind ps (t_token u).
Proof.
  intros Hf Hl He. destruct ps as [|[b k] ps]; [inversion Hl; subst; exists e, []; auto|]. pose proof (fine_good _ _ _ _ Hf) as Hg. destruct Hf as (Hb & _ & _ & Hs). specialize (Hs ltac:(discriminate)).
  rewrite page_items_cons in Hl, Hb. destruct b as [p|n b l|d|ls|xs]; cbn [block_items] in Hl, Hb.
  - destruct (good_first p Hg) as (x & p' & -> & Hx & Hn). cbn [flat_map] in Hl, Hb. destruct x as [s| |m i]; [|congruence|].
    + cbn [items app] in Hl, Hb. inversion Hl as [|? ts ? tl Hts Htl]; subst. apply lexed_words in Hts as (Hsl & Hne & Hw). destruct Hb as [Hb _].
      assert (Hst : starts_line s) by (destruct a as [[| | | | | | |]|]; try discriminate Hs; exact Hb).
      pose proof (words_starter ts s Hne Hw Hsl Hst) as X. destruct ts as [|u r]; [congruence|]. destruct X as (X1 & X2 & _). cbn [concat app]. eexists; eexists; split; [reflexivity|].
      assert (Hbl : (forall c r, s = c :: r -> ~ blank c) -> t_token u <> TWhitespace).
      { intros Hc Hu. inversion Hw as [|? ? (Hsh & _) _]; subst. rewrite Hu in Hsh. apply ws_blank in Hsh as [Hn1 Hn2]. unfold slices in Hc. cbn [map concat] in Hc. destruct (t_slice u) as [|c z]; [congruence|]. inversion Hn2; subst. apply (Hc c _ eq_refl). auto. }
      cbn [first_kind]. conj; auto; intro Y; rewrite Y in X1, X2; discriminate.
    + cbn [items app] in Hl. inversion Hl as [|? ts ? tl Hts Htl]; subst. apply lexed_mark in Hts as (u & -> & Hu). cbn [concat app]. eexists; eexists; split; [reflexivity|]. cbn [first_kind]. rewrite Hu. conj; destruct m; discriminate.
  - cbn [app] in Hl. inversion Hl as [|? ts ? tl Hts Htl]; subst. apply lexed_head in Hts as (u & w & -> & Hu & _). cbn [concat app]. eexists; eexists; split; [reflexivity|]. exact Hu.
  - cbn [app] in Hl. inversion Hl as [|? ts ? tl Hts Htl]; subst. apply lexed_rule in Hts as (u & -> & Hu). cbn [concat app]. eexists; eexists; split; [reflexivity|]. exact Hu.
  - destruct (lists_first ls Hg) as (b & l & rows & E). rewrite E in Hl. cbn [map] in Hl. match type of Hl with context [one_per_line (?x :: ?y)] => destruct (one_per_line_first x y) as [r Er]; rewrite Er in Hl end.
    cbn [app fst snd] in Hl. inversion Hl as [|? ts ? tl Hts Htl]; subst. apply lexed_bullet in Hts as (v & u & w & -> & -> & Hu & _). cbn [concat app]. eexists; eexists; split; [reflexivity|]. cbn [first_kind]. destruct b; auto.
  - destruct (quote_first xs Hg) as (l & rows & E). rewrite E in Hl. cbn [map] in Hl. match type of Hl with context [one_per_line (?x :: ?y)] => destruct (one_per_line_first x y) as [r Er]; rewrite Er in Hl end.
    cbn [app fst snd] in Hl. inversion Hl as [|? ts ? tl Hts Htl]; subst. apply lexed_quote in Hts as (u & w & -> & Hu & _). cbn [concat app]. eexists; eexists; split; [reflexivity|]. exact Hu.
Qed.
(** *** Lines inside each other. *)
Lemma Forall2_len {A B} (R : A -> B -> Prop) l m : Forall2 R l m -> length l = length m. Proof. induction 1; cbn; congruence. Qed.
Section Trees.
Context {K L P : Type}.
Variables (g : K -> L) (f : elements -> P).
Inductive tree_rel : nested K -> depth_item L P -> Prop :=
| tr_line l es : reads l es -> tree_rel (Line l) (DItem (f es))
| tr_inner k xs ts : Forall2 tree_rel xs ts -> tree_rel (Inner k xs) (DList (g k) ts).
Fixpoint nested_all (Q : nested K -> Prop) (HL : forall l, Q (Line l)) (HI : forall k xs, Forall Q xs -> Q (Inner k xs)) (x : nested K) : Q x :=
  match x with
  | Line l => HL l
  | Inner k xs => HI k xs ((fix go (xs : list (nested K)) : Forall Q xs := match xs with [] => Forall_nil Q | y :: xs' => Forall_cons y (nested_all Q HL HI y) (go xs') end) xs)
  end.
Definition row_of (x : nat * K * list span * elements) : nat * L * P := (fst (fst (fst x)), g (snd (fst (fst x))), f (snd x)).
Definition row_reads (x : nat * K * list span) (es : elements) : Prop := reads (snd x) es.
Lemma combine_app {A B} (a1 a2 : list A) (b1 b2 : list B) : length a1 = length b1 -> combine (a1 ++ a2) (b1 ++ b2) = combine a1 b1 ++ combine a2 b2.
Proof. revert b1. induction a1 as [|x a1 IH]; intros [|y b1] H; try discriminate; [reflexivity|]. cbn. rewrite IH by (cbn in H; lia). reflexivity. Qed.
Lemma lines_tree x : forall d k ess, Forall2 row_reads (lines d k x) ess -> exists t, tree_rel x t /\ reading d (g k) t = map row_of (combine (lines d k x) ess).
Proof.
  induction x as [l|k' xs IH] using nested_all; intros d k ess H.
  - cbn [lines] in H. inversion H as [|? es ? ? Hr Hn]; subst. inversion Hn; subst. exists (DItem (f es)). split; [constructor; exact Hr|reflexivity].
  - assert (exists ts, Forall2 tree_rel xs ts /\ flat_map (reading (S d) (g k')) ts = map row_of (combine (flat_map (lines (S d) k') xs) ess)) as (ts & H1 & H2).
    { cbn [lines] in H. clear k. revert ess H. induction IH as [|y xs Hy _ IH]; intros ess H.
      - inversion H; subst. exists []. split; [constructor|reflexivity].
      - cbn [flat_map] in H. apply Forall2_app_split in H as (e1 & e2 & -> & H1 & H2). destruct (Hy _ _ _ H1) as (t & Ht & Et). destruct (IH _ H2) as (ts & Hts & Ets).
        exists (t :: ts). split; [constructor; auto|]. cbn [flat_map]. rewrite combine_app by (eapply Forall2_len; eauto). rewrite map_app, Et, Ets. reflexivity. }
    exists (DList (g k') ts). split; [constructor; auto|]. exact H2.
Qed.
Lemma lines_forest xs : forall d k ess, Forall2 row_reads (flat_map (lines d k) xs) ess ->
  exists ts, Forall2 tree_rel xs ts /\ flat_map (reading d (g k)) ts = map row_of (combine (flat_map (lines d k) xs) ess).
Proof.
  intros d k. induction xs as [|y xs IH]; intros ess H.
  - inversion H; subst. exists []. split; [constructor|reflexivity].
  - cbn [flat_map] in H. apply Forall2_app_split in H as (e1 & e2 & -> & H1 & H2). destruct (lines_tree _ _ _ _ H1) as (t & Ht & Et). destruct (IH _ H2) as (ts & Hts & Ets).
    exists (t :: ts). split; [constructor; auto|]. cbn [flat_map]. rewrite combine_app by (eapply Forall2_len; eauto). rewrite map_app, Et, Ets. reflexivity.
Qed.
Definition list_rel (l : K * list (nested K)) (t : L * list (depth_item L P)) : Prop := fst t = g (fst l) /\ Forall2 tree_rel (snd l) (snd t).
Lemma rows_trees (ls : list (K * list (nested K))) : forall ess, Forall2 row_reads (flat_map (fun l => flat_map (lines 0 (fst l)) (snd l)) ls) ess ->
  exists ts, Forall2 list_rel ls ts /\ reading_trees ts = map row_of (combine (flat_map (fun l => flat_map (lines 0 (fst l)) (snd l)) ls) ess).
Proof.
  induction ls as [|[k xs] ls IH]; intros ess H; [inversion H; subst; exists []; split; [constructor|reflexivity]|].
  cbn [flat_map fst snd] in H. apply Forall2_app_split in H as (e1 & e2 & -> & H1 & H2). destruct (IH _ H2) as (ts & Hts & Ets). destruct (lines_forest _ _ _ _ H1) as (t & Ht & Et).
  exists ((g k, t) :: ts). split; [constructor; auto; split; auto|]. unfold reading_trees. cbn [flat_map fst snd]. fold (reading_trees ts). rewrite combine_app by (eapply Forall2_len; eauto). rewrite map_app, Et, Ets. reflexivity.
Qed.
Hypothesis g_inj : forall a b, g a = g b -> a = b.
Lemma rel_writable x : well_nested x -> forall t, tree_rel x t -> writable t.
Proof.
  induction x as [l|k xs IH] using nested_all; intros Hw t Ht; inversion Ht as [|? ? ts Hts]; subst; [constructor|].
  destruct Hw as ((l & xs' & ->) & Hd & Hall). constructor.
  - inversion Hts as [|? ? ? ? Hl _]; subst. inversion Hl; subst. exact I.
  - clear -Hd Hts g_inj. induction Hts as [|x t xs ts Hx Hts IHts]; [exact I|]. assert (Hd' : different xs inner_kind) by (intros b x' y a k1 k2 -> ; apply (Hd (x :: b) x' y a k1 k2); reflexivity).
    destruct Hx as [? ? ?|k1 xs1 ts1 H1]; [apply IHts; auto|]. cbn [no_adjacent]. destruct Hts as [|y u xs ts Hy Hts]; [exact I|]. destruct Hy as [? ? ?|k2 xs2 ts2 H2]; [apply IHts; auto|].
    split; [|apply IHts; auto]. intro X. apply g_inj in X. apply (Hd [] (Inner k1 xs1) (Inner k2 xs2) xs k1 k2); auto; eexists; reflexivity.
  - clear -IH Hts Hall. change ((fix all (xs : list (nested K)) : Prop := match xs with [] => True | y :: xs' => well_nested y /\ all xs' end) (Line l :: xs')) with (well_nested (K:=K) (Line l) /\ (fix all (xs : list (nested K)) : Prop := match xs with [] => True | y :: xs' => well_nested y /\ all xs' end) xs') in Hall.
    revert ts Hts IH Hall. generalize (Line (K:=K) l). intros y. revert y. induction xs' as [|z xs' IHx]; intros y ts Hts IH [H1 H2]; inversion Hts as [|? t ? ts' Ht Hts']; subst; inversion IH as [|? ? Iy Is]; subst.
    + inversion Hts'; subst. constructor; [apply Iy; auto|constructor].
    + constructor; [apply Iy; auto|]. apply (IHx z); auto.
Qed.
End Trees.
Lemma rel_ok {K L P} (g : K -> L) (f : elements -> P) (Hi : forall a b, g a = g b -> a = b) k xs t : well_nested (Inner k xs) -> list_rel g f (k, xs) t -> tree_ok t.
Proof.
  intros Hw [H1 H2]. cbn [fst snd] in H1, H2. assert (X := rel_writable g f Hi (Inner k xs) Hw (DList (g k) (snd t)) (tr_inner g f k xs (snd t) H2)). inversion X; subst. split; [|split]; auto.
Qed.

(** *** Lists. *)
Definition ltype (b : bool) : list_type := if b then LNumbered else LBullet.
Definition bullet_row (x : nat * bool * list span) : list item := IBullet (fst (fst x)) (snd (fst x)) :: flat_map items (snd x).
Definition list_body (con : M (success elements)) : list (nat * list_type * elements) * list perr -> M ((list (nat * list_type * elements) * list perr) + (list (nat * list_type * elements) * list perr)) :=
  fun '(depths, errs) =>
    let! c := gets cur in
    let! depth := match t_token c with
                  | TWhitespace => step ;; ret (Some (blen (t_slice c)))
                  | TBulletItem | TNumberedItem => ret (Some 0)
                  | _ => ret None
                  end in
    match depth with
    | None => ret (inr (depths, errs))
    | Some depth =>
        if MAX_LIST_DEPTH <? depth then fail ListDepthExceeded else
        let! t := gets cur_tok in
        match get_list_type t with
        | None => ret (inr (depths, errs))
        | Some lt =>
            step ;;
            let! ws := gets (is_tok TWhitespace) in
            if negb ws then ret (inr (depths, errs)) else
            step ;;
            let! out := collect_consume con [tok_lb; tok_end; tok_pb] [] None in
            ret (inl (depths ++ [(depth, lt, su_item out)], errs ++ su_errors out))
        end
    end.
Lemma blen_repeat c n : utf8_len c = 1 -> blen (repeat c n) = n.
Proof. intro H. induction n as [|n IH]; [reflexivity|]. cbn [repeat blen]. rewrite H, IH. reflexivity. Qed.
Lemma tokens_ne (a b : list xtoken) (tss : list (list xtoken)) e : exists u r, a ++ b ++ concat tss ++ [e] = u :: r.
Proof. destruct a; [|cbn; eauto]. destruct b; [|cbn; eauto]. destruct (head_ex tss e) as (u & r & ->). cbn. eauto. Qed.
Definition no_list (k : token) : Prop := k <> TWhitespace /\ k <> TBulletItem /\ k <> TNumberedItem.
Lemma list_loop E p s after tss e : Forall2 lexed after tss -> t_token e = TInputEnd -> depth p + 99 <= MAX_RECURSION_DEPTH ->
  (forall u r, concat tss ++ [e] = u :: r -> no_list (t_token u)) ->
  forall rows t1 sol k acc, Forall2 lexed (flat_map (fun x => bullet_row (fst x) ++ brk (snd x)) rows) t1 -> broken rows after ->
  (exists a, all_beside a (flat_map (fun x => bullet_row (fst x) ++ brk (snd x)) rows ++ after) None) ->
  (forall x, In x rows -> good_line (snd (fst x)) /\ fst (fst (fst x)) <= 20) -> length (concat t1 ++ concat tss ++ [e]) <= k ->
  exists ess sol', Forall2 row_reads (map fst rows) ess /\ (rows <> [] -> after <> [] -> sol' = true) /\
    loop k (list_body (consume_n E 99)) (acc, []) (at_ p sol (concat t1 ++ concat tss ++ [e])) s =
    ROk (acc ++ map (row_of ltype (fun es => es)) (combine (map fst rows) ess), []) (at_ p sol' (concat tss ++ [e])) s.
Proof.
  intros Hl2 He Hd Hno rows. induction rows as [|[[[d b] l] j] rows IH]; intros t1 sol k acc Hl1 Hbr (a & Hb) Hg Hk.
  - cbn [flat_map] in Hl1. inversion Hl1; subst. exists [], sol. conj; [constructor|congruence|]. cbn [concat app map combine]. rewrite app_nil_r.
    destruct (head_ex tss e) as (u & r & Eu). destruct (Hno u r Eu) as (N1 & N2 & N3). cbn [concat app] in Hk. rewrite Eu in Hk |- *. destruct k as [|k]; [cbn in Hk; lia|].
    cbn [loop]. unfold bind at 1, list_body at 1. rewrite bind_gets. cbn [at_ cur]. destruct (t_token u); try congruence; reflexivity.
  - cbn [flat_map fst snd] in Hl1, Hb. apply Forall2_app_split in Hl1 as (tr & tl & -> & Hr & Hl). apply Forall2_app_split in Hr as (tr1 & tb & -> & Hr & Htb). unfold bullet_row in Hr. cbn [fst snd] in Hr. inversion Hr as [|? tbu ? ti Hbu Hti]; subst.
    apply lexed_bullet in Hbu as (v & c & w & -> & Hv & Hc & Hw). destruct Hbr as [Hj Hbr]. destruct (Hg _ (or_introl eq_refl)) as [Hgl Hgd]. cbn [fst snd] in Hgl, Hgd.
    unfold bullet_row in Hb. cbn [fst snd app all_beside] in Hb. destruct Hb as [_ Hb]. rewrite <- !app_assoc in Hb.
    set (after' := flat_map (fun x => bullet_row (fst x) ++ brk (snd x)) rows ++ after) in *.
    destruct (collect_line E s [tok_lb; tok_end; tok_pb] p (IBullet d b) l j after' ti tb (tl ++ tss) e) as (es & sol1 & Hre & Hs1 & Hcol); auto.
    { apply close_any. cbn. auto. } { exact I. } { apply Forall2_app; auto. } { intro X. destruct (Hj X) as [-> ->]. reflexivity. }
    assert (Hb' : exists a', all_beside a' after' None) by (rewrite app_assoc in Hb; eapply ex_intro; eapply all_beside_last; exact Hb).
    rewrite !concat_app in *. rewrite <- !app_assoc in *. cbn [concat app] in *. rewrite <- !app_assoc in *. cbn [app] in *.
    destruct k as [|k]; [destruct v; cbn in Hk; lia|].
    destruct (IH tl sol1 k (acc ++ [(d, ltype b, es)]) Hl Hbr Hb') as (ess & sol' & Hes & Hs' & Hlo).
    { intros x Hx. apply Hg. right. auto. } { repeat (rewrite ?app_length in *; cbn [length] in * ). lia. }
    exists (es :: ess), sol'. conj.
    + cbn [map fst]. constructor; auto.
    + intros _ Hne. destruct rows as [|r0 rows]; [|apply Hs'; auto; discriminate]. cbn [map] in Hes. inversion Hes; subst. destruct j as [|j]; [destruct (Hj eq_refl); congruence|].
      inversion Hl; subst. cbn [concat app] in Hlo. clear -Hlo Hs1 Hno.
      destruct (head_ex tss e) as (u & r & Eu). destruct (Hno u r Eu) as (N1 & N2 & N3). rewrite Eu in Hlo. destruct k as [|k]; [discriminate|]. cbn [loop] in Hlo. unfold bind at 1, list_body at 1 in Hlo. rewrite bind_gets in Hlo. cbn [at_ cur] in Hlo.
      destruct (t_token u); try congruence; unfold bind, ret in Hlo; injection Hlo; intros; rewrite <- H; apply Hs1; discriminate.
    + cbn [map fst combine]. replace (acc ++ row_of ltype (fun x => x) (d, b, l, es) :: map (row_of ltype (fun x => x)) (combine (map fst rows) ess)) with ((acc ++ [(d, ltype b, es)]) ++ map (row_of ltype (fun x => x)) (combine (map fst rows) ess)) by (rewrite <- app_assoc; reflexivity).
      rewrite <- Hlo. cbn [loop]. unfold bind at 1.
      assert (Hdep : (match t_token (hd c v) with TWhitespace => step ;; ret (Some (blen (t_slice (hd c v)))) | TBulletItem | TNumberedItem => ret (Some 0) | _ => ret None end)
         (at_ p sol (v ++ c :: w :: concat ti ++ concat tb ++ concat tl ++ concat tss ++ [e])) s = ROk (Some d) (at_ p (match v with [] => sol | _ => false end) (c :: w :: concat ti ++ concat tb ++ concat tl ++ concat tss ++ [e])) s).
      { destruct d as [|d]; [subst v; cbn [hd app]; rewrite Hc; destruct b; reflexivity|]. destruct Hv as (x & -> & Hx & Hxs). cbn [hd app]. rewrite Hx. erewrite bind_ok by apply step_at. rewrite Hxs, Hx, blen_repeat by reflexivity. reflexivity. }
      unfold list_body at 1. rewrite bind_gets. replace (cur (at_ p sol (v ++ c :: w :: concat ti ++ concat tb ++ concat tl ++ concat tss ++ [e]))) with (hd c v) by (destruct v; reflexivity).
      erewrite bind_ok by exact Hdep. cbn iota beta. assert (Hm : MAX_LIST_DEPTH <? d = false) by (apply Nat.ltb_ge; exact Hgd). rewrite Hm.
      rewrite bind_gets. unfold cur_tok. cbn [at_ cur]. rewrite Hc. replace (get_list_type (if b then TNumberedItem else TBulletItem)) with (Some (ltype b)) by (destruct b; reflexivity).
      fold (at_ p (match v with [] => sol | _ => false end) (c :: w :: concat ti ++ concat tb ++ concat tl ++ concat tss ++ [e])).
      erewrite bind_ok by apply step_at. rewrite bind_gets. unfold is_tok, cur_tok at 1. cbn [at_ cur]. rewrite Hw. change (negb (tok_eqb TWhitespace TWhitespace)) with false. cbn iota.
      destruct (tokens_ne (concat ti) (concat tb) (tl ++ tss) e) as (u & r & Eu). rewrite concat_app, <- app_assoc in Eu. rewrite Eu in Hcol |- *.
      erewrite bind_ok by reflexivity. erewrite bind_ok by (unfold adv, cur_tok; cbn [cur at_]; rewrite ?Hw; exact Hcol). unfold ret. cbn [su_item su_errors app]. reflexivity.
Qed.
Lemma list_type_eqb_eq a b : list_type_eqb a b = true <-> a = b. Proof. destruct a, b; cbn; split; congruence. Qed.
Lemma lists_alternate (ls : list (bool * list (nested bool))) ts : Forall2 (list_rel ltype (fun es : elements => es)) ls ts -> different ls (fun l k => k = fst l) -> match ts with (l, _) :: ts' => alternate l ts' | [] => True end.
Proof.
  intros H Hd. destruct H as [|[b xs] [l is] ls ts [H1 _] H]; [exact I|]. cbn [fst] in H1. subst l.
  revert b xs Hd. induction H as [|[b2 xs2] [l2 is2] ls ts [H2 _] H IH]; intros b xs Hd; [exact I|]. cbn [fst] in H2. subst l2. cbn [alternate fst]. split.
  - intro X. apply (Hd [] (b, xs) (b2, xs2) ls b b2); auto. destruct b, b2; cbn in X; congruence.
  - apply (IH b2 xs2). intros bf x y af k k' E. apply (Hd ((b, xs) :: bf) x y af k k'). rewrite E. reflexivity.
Qed.
Lemma list_consume E p s ls k after t1 tss e a : good_block (Lists ls) -> Forall2 lexed (block_items (Lists ls) ++ brk k) t1 -> Forall2 lexed after tss -> t_token e = TInputEnd -> (k = 0 -> after = []) ->
  all_beside a ((block_items (Lists ls) ++ brk k) ++ after) None -> depth p + 100 <= MAX_RECURSION_DEPTH -> (forall u r, concat tss ++ [e] = u :: r -> no_list (t_token u)) ->
  exists ts sol, Forall2 (list_rel ltype (fun es => es)) ls ts /\ (after <> [] -> sol = true) /\ concat t1 <> [] /\
    consume_n E 100 (at_ p true (concat t1 ++ concat tss ++ [e])) s = ROk (PSu (map build_list ts) [] false) (at_ p sol (concat tss ++ [e])) s.
Proof.
  intros Hg Hl1 Hl2 He Hk Hb Hd Hno. destruct (lists_first ls Hg) as (b0 & l0 & rows0 & E0). destruct Hg as (Hne & Hdi & Hw & Hdep). cbn [block_items] in Hl1, Hb.
  change (fun x : nat * bool * list span => IBullet (fst (fst x)) (snd (fst x)) :: flat_map items (snd x)) with bullet_row in Hl1, Hb.
  rewrite (lines_breaks bullet_row k (list_lines ls)) in Hl1, Hb by (rewrite E0; discriminate).
  assert (Hgl : forall x, In x (list_lines ls) -> good_line (snd x)).
  { intros x Hx. unfold list_lines in Hx. apply in_flat_map in Hx as (l & Hl & Hx). specialize (Hw l Hl). apply in_flat_map in Hx as (y & Hy & Hx). assert (Hwy : well_nested y) by (destruct Hw as (_ & _ & Hall); clear -Hall Hy; induction (snd l) as [|z zs IH]; [destruct Hy|]; destruct Hall as [H1 H2], Hy as [->|Hy]; auto).
    clear -Hwy Hx. revert x Hx Hwy. generalize 0 at 1. generalize (fst l). induction y as [z|kk ys IH] using nested_all; intros k0 d x Hx Hwy; cbn [lines] in Hx; [destruct Hx as [<-|[]]; exact Hwy|].
    apply in_flat_map in Hx as (z & Hz & Hx). rewrite Forall_forall in IH. apply (IH z Hz _ _ _ Hx). destruct Hwy as (_ & _ & Hall). clear -Hall Hz. induction ys as [|w ws IH]; [destruct Hz|]; destruct Hall as [H1 H2], Hz as [->|Hz]; auto. }
  set (rows := with_breaks k (list_lines ls)) in *. assert (Hf : map fst rows = list_lines ls) by apply with_breaks_fst.
  destruct (list_loop E (within_rule "list" p) s after tss e Hl2 He ltac:(cbn; lia) Hno rows t1 true (length (concat t1 ++ concat tss ++ [e])) [] Hl1) as (ess & sol & Hes & Hs & Hlo).
  - apply with_breaks_broken. exact Hk.
  - exists a. exact Hb.
  - intros x Hx. assert (In (fst x) (list_lines ls)) by (rewrite <- Hf; apply in_map; exact Hx). split; [apply Hgl|apply Hdep]; auto.
  - auto.
  - rewrite Hf in Hes, Hlo. destruct (rows_trees ltype (fun es => es) ls ess Hes) as (ts & Hts & Ets). exists ts, sol.
    assert (Hr0 : rows <> []) by (intro X; rewrite X in Hf; cbn in Hf; rewrite E0 in Hf; discriminate).
    assert (Htk : exists u r, concat t1 = u :: r /\ (t_token u = TBulletItem \/ t_token u = TNumberedItem)).
    { unfold rows in Hl1. rewrite E0 in Hl1. assert (exists j x, with_breaks k ((0, b0, l0) :: rows0) = ((0, b0, l0), j) :: x) as (j & x & Ex) by (destruct rows0; cbn; eauto). rewrite Ex in Hl1.
      cbn [flat_map fst snd app bullet_row] in Hl1. inversion Hl1 as [|? ts0 ? ? Hb0 _]; subst. apply lexed_bullet in Hb0 as (v & u & w & -> & -> & Hu & _). cbn [concat app]. exists u. eexists. split; [reflexivity|]. rewrite Hu. destruct b0; auto. }
    destruct Htk as (u & r & Eu & Hu). conj; auto; [rewrite Eu; discriminate|].
    eapply rule_consume with (sol' := sol) (T' := concat tss ++ [e]) (r := R_list (consume_n E 99)); auto.
    + rewrite Eu. unfold cur_tok. cbn [at_ cur app]. destruct Hu as [-> | ->]; reflexivity.
    + rewrite Eu. discriminate.
    + destruct (concat tss); discriminate.
    + lia.
    + cbn [rd_fn rd_name R_list]. unfold rule_list. fold (list_body (consume_n E 99)). erewrite bind_ok.
      2:{ unfold looping. rewrite Eu in Hlo |- *. cbn [at_ rem app length]. cbn [app length] in Hlo. exact Hlo. }
      cbn [app]. fold (list_lines ls) in Ets. rewrite <- Ets. rewrite (builds list_type_eqb list_type_eqb_eq LGeneric ts).
      * destruct (reading_trees ts) eqn:X; [|reflexivity]. rewrite E0 in Ets, Hes. inversion Hes; subst. discriminate.
      * intros ->. inversion Hts. subst. congruence.
      * eapply lists_alternate; eauto.
      * clear -Hts Hw. induction Hts as [|[kk xs] t ls ts H1 H IH]; constructor; [|apply IH; intros l Hl; apply Hw; right; auto].
        eapply (rel_ok ltype (fun es => es)); [|apply (Hw (kk, xs)); left; auto|exact H1]. intros [] []; cbn; congruence.
    + apply check_ones. rewrite forallb_forall. intros x Hx. apply in_map_iff in Hx as (y & <- & _). reflexivity.
    + rewrite Eu, !app_length. cbn. lia.
Qed.

(** *** Quotes. *)
Definition quote_row (x : nat * unit * list span) : list item := IQuote (S (fst (fst x))) :: flat_map items (snd x).
Definition quote_body (con : M (success elements)) : list (nat * unit * (elements * bool)) * list perr -> M ((list (nat * unit * (elements * bool)) * list perr) + (list (nat * unit * (elements * bool)) * list perr)) :=
  fun '(depths, errs) =>
    let! c := gets cur in
    if tok_eqb (t_token c) TQuote then
      let depth := blen (t_slice c) in
      step ;;
      get_optional_space ;;
      if MAX_BLOCKQUOTE_DEPTH <? depth then fail BlockquoteDepthExceeded else
      let! out := collect_consume con [tok_lb; tok_pb; tok_end] [] None in
      ret (inl (depths ++ [(depth - 1, tt, (su_item out ++ [ELineBreak], su_safe out))], errs ++ su_errors out))
    else ret (inr (depths, errs)).
Definition quoted_line (es : elements) : elements * bool := (es ++ [ELineBreak], true).
Lemma quote_loop E p s after tss e : Forall2 lexed after tss -> t_token e = TInputEnd -> depth p + 99 <= MAX_RECURSION_DEPTH ->
  (forall u r, concat tss ++ [e] = u :: r -> t_token u <> TQuote) ->
  forall rows t1 sol k acc, Forall2 lexed (flat_map (fun x => quote_row (fst x) ++ brk (snd x)) rows) t1 -> broken rows after ->
  (exists a, all_beside a (flat_map (fun x => quote_row (fst x) ++ brk (snd x)) rows ++ after) None) ->
  (forall x, In x rows -> good_line (snd (fst x)) /\ S (fst (fst (fst x))) <= 30) -> length (concat t1 ++ concat tss ++ [e]) <= k ->
  exists ess sol', Forall2 row_reads (map fst rows) ess /\ (rows <> [] -> after <> [] -> sol' = true) /\
    loop k (quote_body (consume_n E 99)) (acc, []) (at_ p sol (concat t1 ++ concat tss ++ [e])) s =
    ROk (acc ++ map (row_of (fun t => t) quoted_line) (combine (map fst rows) ess), []) (at_ p sol' (concat tss ++ [e])) s.
Proof.
  intros Hl2 He Hd Hno rows. induction rows as [|[[[d b] l] j] rows IH]; intros t1 sol k acc Hl1 Hbr (a & Hb) Hg Hk.
  - cbn [flat_map] in Hl1. inversion Hl1; subst. exists [], sol. conj; [constructor|congruence|]. cbn [concat app map combine]. rewrite app_nil_r.
    destruct (head_ex tss e) as (u & r & Eu). pose proof (Hno u r Eu) as N1. cbn [concat app] in Hk. rewrite Eu in Hk |- *. destruct k as [|k]; [cbn in Hk; lia|].
    cbn [loop]. unfold bind at 1, quote_body at 1. rewrite bind_gets. cbn [at_ cur]. destruct (t_token u); try congruence; reflexivity.
  - cbn [flat_map fst snd] in Hl1, Hb. apply Forall2_app_split in Hl1 as (tr & tl & -> & Hr & Hl). apply Forall2_app_split in Hr as (tr1 & tb & -> & Hr & Htb). unfold quote_row in Hr. cbn [fst snd] in Hr. inversion Hr as [|? tbu ? ti Hbu Hti]; subst.
    apply lexed_quote in Hbu as (c & w & -> & Hc & Hcs & Hw). destruct Hbr as [Hj Hbr]. destruct (Hg _ (or_introl eq_refl)) as [Hgl Hgd]. cbn [fst snd] in Hgl, Hgd. destruct b.
    unfold quote_row in Hb. cbn [fst snd app all_beside] in Hb. destruct Hb as [_ Hb]. rewrite <- !app_assoc in Hb.
    set (after' := flat_map (fun x => quote_row (fst x) ++ brk (snd x)) rows ++ after) in *.
    destruct (collect_line E s [tok_lb; tok_pb; tok_end] p (IQuote (S d)) l j after' ti tb (tl ++ tss) e) as (es & sol1 & Hre & Hs1 & Hcol); auto.
    { apply close_any. cbn. auto. } { exact I. } { apply Forall2_app; auto. } { intro X. destruct (Hj X) as [-> ->]. reflexivity. }
    assert (Hb' : exists a', all_beside a' after' None) by (rewrite app_assoc in Hb; eapply ex_intro; eapply all_beside_last; exact Hb).
    rewrite !concat_app in *. rewrite <- !app_assoc in *. cbn [concat app] in *.
    destruct k as [|k]; [cbn in Hk; lia|].
    destruct (IH tl sol1 k (acc ++ [(d, tt, quoted_line es)]) Hl Hbr Hb') as (ess & sol' & Hes & Hs' & Hlo).
    { intros x Hx. apply Hg. right. auto. } { repeat (rewrite ?app_length in *; cbn [length] in * ). lia. }
    exists (es :: ess), sol'. conj.
    + cbn [map fst]. constructor; auto.
    + intros _ Hne. destruct rows as [|r0 rows]; [|apply Hs'; auto; discriminate]. cbn [map] in Hes. inversion Hes; subst. destruct j as [|j]; [destruct (Hj eq_refl); congruence|].
      inversion Hl; subst. cbn [concat app] in Hlo. clear -Hlo Hs1 Hno.
      destruct (head_ex tss e) as (u & r & Eu). pose proof (Hno u r Eu) as N1. rewrite Eu in Hlo. destruct k as [|k]; [discriminate|]. cbn [loop] in Hlo. unfold bind at 1, quote_body at 1 in Hlo. rewrite bind_gets in Hlo. cbn [at_ cur] in Hlo.
      destruct (t_token u); try congruence; unfold bind, ret in Hlo; injection Hlo; intros; rewrite <- H; apply Hs1; discriminate.
    + cbn [map fst combine]. replace (acc ++ row_of (fun t => t) quoted_line (d, tt, l, es) :: map (row_of (fun t => t) quoted_line) (combine (map fst rows) ess)) with ((acc ++ [(d, tt, quoted_line es)]) ++ map (row_of (fun t => t) quoted_line) (combine (map fst rows) ess)) by (rewrite <- app_assoc; reflexivity).
      rewrite <- Hlo. cbn [loop]. unfold bind at 1.
      unfold quote_body at 1. rewrite bind_gets. cbn [at_ cur]. rewrite Hc. change (tok_eqb TQuote TQuote) with true. cbn iota. rewrite Hcs, blen_repeat by reflexivity.
      fold (at_ p sol (c :: w :: concat ti ++ concat tb ++ concat tl ++ concat tss ++ [e])).
      erewrite bind_ok by apply step_at.
      destruct (tokens_ne (concat ti) (concat tb) (tl ++ tss) e) as (u & r & Eu). rewrite concat_app, <- app_assoc in Eu. rewrite Eu in Hcol |- *.
      erewrite bind_ok by (apply optional_yes; exact Hw). assert (Hm : MAX_BLOCKQUOTE_DEPTH <? S d = false) by (apply Nat.ltb_ge; exact Hgd). rewrite Hm.
      erewrite bind_ok by exact Hcol. unfold ret. cbn [su_item su_errors su_safe app]. replace (S d - 1) with d by lia. reflexivity.
Qed.
Lemma lines_S {K} (x : nested K) : forall d k, lines (S d) k x = map (fun r => (S (fst (fst r)), snd (fst r), snd r)) (lines d k x).
Proof.
  induction x as [l|k' xs IH] using nested_all; intros d k; [reflexivity|]. cbn [lines]. induction IH as [|y xs Hy _ IH]; [reflexivity|]. cbn [flat_map]. rewrite map_app, Hy, IH. reflexivity.
Qed.
Lemma forest_S {K} (xs : list (nested K)) d k : flat_map (lines (S d) k) xs = map (fun r => (S (fst (fst r)), snd (fst r), snd r)) (flat_map (lines d k) xs).
Proof. induction xs as [|y xs IH]; [reflexivity|]. cbn [flat_map]. rewrite map_app, lines_S, IH. reflexivity. Qed.
Lemma nested_lines {K} (y : nested K) : well_nested y -> forall d k x, In x (lines d k y) -> good_line (snd x).
Proof.
  induction y as [z|kk ys IH] using nested_all; intros Hwy d k x Hx; cbn [lines] in Hx; [destruct Hx as [<-|[]]; exact Hwy|].
  apply in_flat_map in Hx as (z & Hz & Hx). rewrite Forall_forall in IH. eapply (IH z Hz); [|exact Hx]. destruct Hwy as (_ & _ & Hall). clear -Hall Hz. induction ys as [|w ws IH]; [destruct Hz|]; destruct Hall as [H1 H2], Hz as [->|Hz]; auto.
Qed.
Lemma quote_consume E p s xs k after t1 tss e a : good_block (Quote xs) -> Forall2 lexed (block_items (Quote xs) ++ brk k) t1 -> Forall2 lexed after tss -> t_token e = TInputEnd -> (k = 0 -> after = []) ->
  all_beside a ((block_items (Quote xs) ++ brk k) ++ after) None -> depth p + 100 <= MAX_RECURSION_DEPTH -> (forall u r, concat tss ++ [e] = u :: r -> t_token u <> TQuote) ->
  exists ts sol, Forall2 (tree_rel (fun t : unit => t) quoted_line) xs ts /\ (after <> [] -> sol = true) /\ concat t1 <> [] /\
    consume_n E 100 (at_ p true (concat t1 ++ concat tss ++ [e])) s = ROk (PSu [build_blockquote ts] [] false) (at_ p sol (concat tss ++ [e])) s.
Proof.
  intros Hg Hl1 Hl2 He Hk Hb Hd Hno. destruct (quote_first xs Hg) as (l0 & rows0 & E0). destruct Hg as (Hw & Hdep). cbn [block_items] in Hl1, Hb.
  rewrite forest_S in E0, Hdep, Hl1, Hb. rewrite map_map in Hl1, Hb.
  change (fun x : nat * unit * list span => IQuote (fst (fst (S (fst (fst x)), snd (fst x), snd x))) :: flat_map items (snd (S (fst (fst x)), snd (fst x), snd x))) with quote_row in Hl1, Hb.
  set (qs := flat_map (lines 0 tt) xs) in *. destruct qs as [|[[d0 []] l0'] qs0] eqn:Eq; [discriminate|]. cbn [map fst snd] in E0.
  assert (Hd0 : d0 = 0) by (exact (f_equal (fun z => match z with (d, _, _) :: _ => Nat.pred d | [] => 0 end) E0)). subst d0. clear E0.
  rewrite <- Eq in *.
  rewrite (lines_breaks quote_row k qs) in Hl1, Hb by (rewrite Eq; discriminate).
  assert (Hgl : forall x, In x qs -> good_line (snd x)).
  { intros x Hx. unfold qs in Hx. apply in_flat_map in Hx as (y & Hy & Hx). eapply nested_lines; [|exact Hx]. destruct Hw as (_ & _ & Hall). clear -Hall Hy. induction xs as [|w ws IH]; [destruct Hy|]; destruct Hall as [H1 H2], Hy as [->|Hy]; auto. }
  set (rows := with_breaks k qs) in *. assert (Hf : map fst rows = qs) by apply with_breaks_fst.
  destruct (quote_loop E (within_rule "blockquote" p) s after tss e Hl2 He ltac:(cbn; lia) Hno rows t1 true (length (concat t1 ++ concat tss ++ [e])) [] Hl1) as (ess & sol & Hes & Hs & Hlo).
  - apply with_breaks_broken. exact Hk.
  - exists a. exact Hb.
  - intros x Hx. assert (In (fst x) qs) by (rewrite <- Hf; apply in_map; exact Hx). split; [apply Hgl; auto|]. apply (Hdep (S (fst (fst (fst x))), snd (fst (fst x)), snd (fst x))). apply in_map_iff. exists (fst x). auto.
  - auto.
  - rewrite Hf in Hes, Hlo. assert (Hes' : Forall2 row_reads (flat_map (fun l => flat_map (lines 0 (fst l)) (snd l)) [(tt, xs)]) ess) by (cbn [flat_map fst snd]; rewrite app_nil_r; exact Hes).
    destruct (rows_trees (fun t => t) quoted_line [(tt, xs)] ess Hes') as (tts & Htts & Ets). inversion Htts as [|? [[] ts] ? ? [_ Hts] Hnil]; subst. inversion Hnil; subst. cbn [fst snd] in Hts. exists ts, sol.
    cbn [flat_map fst snd] in Ets. rewrite app_nil_r in Ets. fold qs in Ets.
    assert (Hr0 : rows <> []) by (intro X; rewrite X in Hf; cbn in Hf; rewrite Eq in Hf; discriminate).
    assert (Htk : exists u r, concat t1 = u :: r /\ t_token u = TQuote).
    { unfold rows in Hl1. rewrite Eq in Hl1. assert (exists j x, with_breaks k ((0, tt, l0') :: qs0) = ((0, tt, l0'), j) :: x) as (j & x & Ex) by (destruct qs0; cbn; eauto). rewrite Ex in Hl1.
      cbn [flat_map fst snd app quote_row] in Hl1. inversion Hl1 as [|? ts0 ? ? Hb0 _]; subst. apply lexed_quote in Hb0 as (u & w & -> & Hu & _). cbn [concat app]. exists u. eexists. split; [reflexivity|]. exact Hu. }
    destruct Htk as (u & r & Eu & Hu). conj; auto; [rewrite Eu; discriminate|].
    eapply rule_consume with (sol' := sol) (T' := concat tss ++ [e]) (r := RULE "blockquote" StartOfLine (rule_blockquote (consume_n E 99))); auto.
    + rewrite Eu. unfold cur_tok. cbn [at_ cur app]. rewrite Hu. reflexivity.
    + rewrite Eu. discriminate.
    + destruct (concat tss); discriminate.
    + lia.
    + cbn [rd_fn rd_name]. unfold rule_blockquote. fold (quote_body (consume_n E 99)). erewrite bind_ok.
      2:{ unfold looping. rewrite Eu in Hlo |- *. cbn [at_ rem app length]. cbn [app length] in Hlo. exact Hlo. }
      cbn [app]. rewrite <- Ets. rewrite (builds (fun _ _ => true) (fun a b => conj (fun _ => match a, b with tt, tt => eq_refl end) (fun _ => eq_refl)) tt [(tt, ts)]).
      * destruct (reading_trees [(tt, ts)]) eqn:X; [|reflexivity]. rewrite Eq in Ets, Hes. inversion Hes; subst. discriminate.
      * discriminate.
      * exact I.
      * constructor; [|constructor]. eapply (rel_ok (fun t : unit => t) quoted_line); [intros [] []; auto|exact Hw|]. split; auto.
    + rewrite Eu, !app_length. cbn. lia.
Qed.

(** *** A whole page. *)
Inductive block_reads : block -> elements -> Prop :=
| br_par p es : reads p es -> block_reads (Paragraph p) [paragraph es]
| br_head n b l es : reads l es -> block_reads (Heading n b l) [EContainer (CHeader (HD n b)) [] es]
| br_rule k : block_reads (Rule k) [EHorizontalRule]
| br_lists ls ts : Forall2 (list_rel ltype (fun es => es)) ls ts -> ls <> [] -> block_reads (Lists ls) (map build_list ts)
| br_quote xs ts : Forall2 (tree_rel (fun t : unit => t) quoted_line) xs ts -> block_reads (Quote xs) [build_blockquote ts].
Lemma block_items_ne b : good_block b -> block_items b <> [].
Proof.
  intro Hg. destruct b as [p|n b l|d|ls|xs]; cbn [block_items]; try discriminate; [apply page_items_ne; exact Hg| |].
  - destruct (lists_first ls Hg) as (b & l & rows & ->). cbn [map]. match goal with |- one_per_line (?x :: ?y) <> _ => destruct (one_per_line_first x y) as [r ->] end. discriminate.
  - destruct (quote_first xs Hg) as (l & rows & ->). cbn [map]. match goal with |- one_per_line (?x :: ?y) <> _ => destruct (one_per_line_first x y) as [r ->] end. discriminate.
Qed.
Lemma fine_ne a ps : fine a ps -> ps <> [] -> page_items ps <> [].
Proof.
  intros Hf Hne. destruct ps as [|[b k] ps]; [congruence|]. pose proof (block_items_ne b (fine_good _ _ _ _ Hf)) as X. rewrite page_items_cons. destruct (block_items b); [congruence|discriminate].
Qed.
Lemma fine_split a b k ps tss : fine a ((b, k) :: ps) -> Forall2 lexed (page_items ((b, k) :: ps)) tss -> exists t1 t2, tss = t1 ++ t2 /\
  Forall2 lexed (block_items b ++ brk k) t1 /\ Forall2 lexed (page_items ps) t2 /\ (k = 0 -> page_items ps = []) /\ all_beside a ((block_items b ++ brk k) ++ page_items ps) None.
Proof.
  intros Hf Hl. rewrite page_items_cons, app_assoc in Hl. apply Forall2_app_split in Hl as (t1 & t2 & -> & H1 & H2). exists t1, t2. conj; auto.
  - intros ->. rewrite (fine_last _ _ _ Hf). reflexivity.
  - destruct Hf as (Hb & _). rewrite page_items_cons, app_assoc in Hb. exact Hb.
Qed.
Definition heads (ps : page) : bool := match ps with (Heading _ _ _, _) :: _ => true | _ => false end.
Lemma page_headings_cons b k ps : page_headings ((b, k) :: ps) = match b with Heading n c l => heading_entry n c l | _ => [] end ++ page_headings ps.
Proof. unfold page_headings. cbn [flat_map fst]. destruct b as [|n [] l| | |]; reflexivity. Qed.
Lemma header_run E e : t_token e = TInputEnd -> forall ps f p s a tss sol0, fine a ps -> heads ps = true -> Forall2 lexed (page_items ps) tss -> depth p + 99 <= MAX_RECURSION_DEPTH -> length (concat tss ++ [e]) <= f ->
  exists hs rest ess sol tss' a', ps = hs ++ rest /\ hs <> [] /\ fine a' rest /\ Forall2 lexed (page_items rest) tss' /\ (rest <> [] -> sol = true) /\ Forall2 block_reads (map fst hs) ess /\ length (concat tss') < length (concat tss) /\
    forallb (fun x => match x with EContainer (CHeader _) _ _ => true | _ => false end) (concat ess) = true /\ concat ess <> [] /\
    header_n E (consume_n E 99) f (at_ p sol0 (concat tss ++ [e])) s = ROk (PSu (concat ess) [] false) (at_ p sol (concat tss' ++ [e])) (add_toc s (page_headings hs)).
Proof.
  intros He ps. induction ps as [|[b k] ps IH]; intros f p s a tss sol0 Hf Hh Hl Hd Hlen; [discriminate|]. destruct b as [|n c l| | |]; try discriminate Hh. 
  destruct (fine_split _ _ _ _ _ Hf Hl) as (t1 & t2 & -> & Hl1 & Hl2 & Hk & Hb). destruct (fine_tail _ _ _ _ Hf) as (a' & Hf'). destruct (fine_good _ _ _ _ Hf) as [Hn Hg].
  rewrite concat_app in Hlen |- *. rewrite <- app_assoc in Hlen |- *. destruct f as [|f]; [exfalso; rewrite !app_length in Hlen; cbn in Hlen; lia|].
  destruct (header_one E p s n c l k (page_items ps) t1 t2 e f Hl1 Hl2 He Hk (ex_intro _ a Hb) Hn Hg Hd) as (es & sol & Hr & Hs & H2 & Hrun).
  assert (Hs' : ps <> [] -> sol = true) by (intro X; apply Hs; intros ->; apply X; apply (fine_last _ _ _ Hf)).
  assert (Hlen' : length (concat t2 ++ [e]) <= f) by (rewrite app_length in Hlen; lia).
  destruct (heads ps) eqn:Hh'.
  - destruct (IH f p (add_toc s (heading_entry n c l)) a' t2 sol Hf' eq_refl Hl2 Hd Hlen') as (hs & rest & ess & sol' & tss' & a2 & -> & Hhs & Hfr & Hlr & Hsr & Hbr & Hlt & Hall & Hne & Hrun').
    exists ((Heading n c l, k) :: hs), rest, ([EContainer (CHeader (HD n c)) [] es] :: ess), sol', tss', a2. conj; auto; [discriminate| | |discriminate|].
    + cbn [map fst]. constructor; auto. constructor. exact Hr.
    + rewrite app_length. lia.
    + rewrite Hrun. unfold bind, attempt. rewrite Hrun'. cbn [su_item su_errors]. rewrite add_toc_app, page_headings_cons. reflexivity.
  - exists [(Heading n c l, k)], ps, [[EContainer (CHeader (HD n c)) [] es]], sol, t2, a'. conj; auto; [discriminate| | |discriminate|].
    + cbn [map fst]. constructor; constructor. exact Hr.
    + rewrite app_length. lia.
    + rewrite Hrun. destruct (page_first _ _ _ _ Hf' Hl2 He) as (u & r & Eu & Hu). unfold bind, attempt. rewrite Eu in Hlen' |- *. destruct f as [|f]; [cbn in Hlen'; lia|].
      assert (Hnh : tok_eqb (t_token u) THeading = false).
      { destruct (tok_eqb (t_token u) THeading) eqn:X; auto. apply tok_eqb_true in X. rewrite X in Hu. destruct ps as [|[[q| | | |] j] ps]; cbn in Hu, Hh'; try discriminate; [tauto|destruct Hu; discriminate]. }
      cbn [header_n]. unfold header_step at 1. unfold bind, gets. cbn [at_ cur]. rewrite Hnh. unfold fail. rewrite page_headings_cons. cbn [app page_headings flat_map]. rewrite app_nil_r. reflexivity.
Qed.
Lemma push_unsafe es : forall st, forallb (fun x => negb (is_line_break x)) es = true -> es <> [] -> push_elements st es false = PS [] (into_elements st ++ es).
Proof.
  intros [cu fi]. revert cu fi. induction es as [|x es IH]; intros cu fi H Hne; [congruence|]. cbn [forallb] in H. apply andb_true_iff in H as [Hx H]. cbn [push_elements ps_current].
  assert (X : match cu with [] => is_line_break x | _ => false end = false) by (destruct cu; auto; destruct (is_line_break x); auto; discriminate). rewrite X.
  assert (Y : push_element (PS cu fi) x false = PS [] (into_elements (PS cu fi) ++ [x])) by (unfold push_element, into_elements; destruct cu; reflexivity). rewrite Y.
  destruct es as [|y es]; [reflexivity|]. rewrite IH by (auto; discriminate). unfold into_elements at 1. cbn [end_paragraph build_paragraph ps_current ps_finished]. rewrite <- app_assoc. reflexivity.
Qed.
Lemma gather_end E n k st first p s : cur_tok p = TInputEnd -> loop (S k) (gather_body E n) (st, [], first) p s = ROk (st, []) p s.
Proof. intro H. cbn [loop]. unfold bind at 1, gather_body at 1. rewrite bind_gets, H. reflexivity. Qed.
Lemma gather_break E n k st first p sol c u r s : t_token c = TParagraphBreak -> loop (S k) (gather_body E n) (st, [], first) (at_ p sol (c :: u :: r)) s = loop k (gather_body E n) (end_paragraph st, [], first) (at_ p true (u :: r)) s.
Proof. intro H. cbn [loop]. unfold bind at 1, gather_body at 1. rewrite bind_gets. assert (X : cur_tok (at_ p sol (c :: u :: r)) = TParagraphBreak) by exact H. rewrite X. rewrite (bind_ok _ _ _ _ _ _ _ (step_at p sol c u r s)), H. reflexivity. Qed.
Lemma gather_consume E n k st first p s es safe p' s' : cur_tok p <> TInputEnd -> cur_tok p <> TParagraphBreak -> consume_n E n p s = ROk (PSu es [] safe) p' s' ->
  loop (S k) (gather_body E n) (st, [], first) p s = loop k (gather_body E n) (push_elements st es safe, [], false) p' s'.
Proof. intros H1 H2 Hc. cbn [loop]. unfold bind at 1, gather_body at 1. rewrite bind_gets. destruct (cur_tok p); try congruence; unfold bind, ret; rewrite Hc; reflexivity. Qed.

Definition par_first (ps : page) : bool := match ps with (Paragraph _, _) :: _ => true | _ => false end.
Lemma page_run E e : t_token e = TInputEnd -> forall m ps, length ps <= m -> forall p a tss st k first s sol, Forall2 lexed (page_items ps) tss -> fine a ps -> (ps <> [] -> sol = true) -> depth p + 100 <= MAX_RECURSION_DEPTH ->
  (par_first ps = true -> ps_current st = []) -> length (concat tss ++ [e]) <= k ->
  exists ess st' q, Forall2 block_reads (map fst ps) ess /\ into_elements st' = into_elements st ++ concat ess /\ has_footnote_block q = has_footnote_block p /\
    loop k (gather_body E 100) (st, [], first) (at_ p sol (concat tss ++ [e])) s = ROk (st', []) q (add_toc s (page_headings ps)).
Proof.
  intros He m. induction m as [|m IH]; intros ps Hm p a tss st k first s sol Hl Hf Hs Hd Hcu Hk.
  all: assert (Hk0 : exists k', k = S k') by (destruct k; [rewrite app_length in Hk; cbn in Hk; lia|eauto]); destruct Hk0 as [k0 ->].
  all: destruct ps as [|[b j] ps]; [inversion Hl; subst; exists [], st, (at_ p sol [e]); conj; [constructor|cbn; rewrite app_nil_r; auto|reflexivity|cbn [concat app]; rewrite gather_end by exact He; cbn; rewrite add_toc_nil; reflexivity]|].
  { cbn in Hm. lia. }
  assert (Hm' : length ps <= m) by (cbn in Hm; lia). specialize (Hs ltac:(discriminate)). subst sol.
  destruct (fine_split _ _ _ _ _ Hf Hl) as (t1 & t2 & -> & Hl1 & Hl2 & Hj & Hb). destruct (fine_tail _ _ _ _ Hf) as (a' & Hf'). pose proof (fine_good _ _ _ _ Hf) as Hg.
  destruct (page_first _ _ _ _ Hf' Hl2 He) as (v & w & Ev & Hv).
  assert (Hjs : ps <> [] -> j <> 0) by (intros X ->; apply X; apply (fine_last _ _ _ Hf)).
  destruct b as [par|n c l|d|ls|xs].
  - (* a paragraph *)
    assert (Hst : exists f, st = PS [] f) by (destruct st as [cu f]; exists f; f_equal; apply Hcu; reflexivity). destruct Hst as [f ->]. clear Hcu.
    rewrite concat_app in Hk |- *. rewrite <- app_assoc in Hk |- *. cbn [block_items] in Hl1, Hb. apply Forall2_app_split in Hl1 as (tp & tb & -> & Hp & Htb). rewrite concat_app in Hk |- *. rewrite <- app_assoc in Hk, Hb |- *.
    destruct (all_nests_in par (proj2 Hg)) as [Hn Hh].
    destruct (spans_steps E s (length (flat_map items par)) par (le_n _) OnPage 100 p a (brk j ++ page_items ps) tp (tb ++ t2) e Hp (Forall2_app Htb Hl2) He Hb Hn Hh Hd I) as (es & Hr & Hsteps).
    rewrite concat_app, <- app_assoc in Hsteps. destruct Hf as (_ & Hsp & _ & Hsol). rewrite (Hsol ltac:(discriminate)) in Hsteps.
    pose proof (reads_first par es (good_first _ Hg) Hr) as Hlb.
    destruct (gather_go E 100 s _ _ _ Hsteps (S k0) (PS [] f) first) as (k' & f' & Hk' & Hlo).
    { destruct (tokens_ne (concat tp) (concat tb) t2 e) as (u & r & Eu). rewrite Eu in Hk |- *. cbn in Hk |- *. lia. }
    rewrite push_new in Hlo by auto. rewrite Hlo. clear Hlo Hsteps. remember (sol_of (last_item a (flat_map items par))) as sol' eqn:Xsol. clear Xsol.
    assert (Hin : into_elements (PS es f) = f ++ [paragraph es]) by (unfold into_elements; rewrite flush, Hlb; reflexivity).
    destruct k' as [|k']; [lia|]. assert (Hpar : block_reads (Paragraph par) [paragraph es]) by (constructor; exact Hr).
    destruct j as [|[|j]].
    + assert (ps = []) by (destruct ps; auto; exfalso; apply (Hjs ltac:(discriminate)); reflexivity). subst ps. inversion Htb; subst tb. inversion Hl2; subst t2. cbn [concat app].
      exists [[paragraph es]], (PS es f), (at_ p sol' [e]). conj; auto; [constructor; auto; constructor|]. rewrite gather_end by exact He. rewrite page_headings_cons. cbn. rewrite add_toc_nil. reflexivity.
    + cbn [brk] in Htb. inversion Htb as [|? tk ? ? Htk Hnil]; subst. inversion Hnil; subst. apply lexed_break in Htk as (br & -> & Hbr). cbn [concat app] in *. change (1 =? 1) with true in Hbr. cbn iota in Hbr.
      assert (Hnp : ps <> [] /\ par_first ps = false). { destruct Hsp as [Hsp _]. destruct ps as [|[[q| | | |] jj] ps]; [congruence|destruct Hsp as [_ Hsp]; lia|split; [discriminate|reflexivity]..]. } destruct Hnp as [Hne Hnp].
      assert (Hsta : starter (t_token v) = true) by (destruct ps as [|[[q| | | |] jj] ps]; [congruence|discriminate|..]; cbn in Hv; [rewrite Hv; reflexivity|rewrite Hv; reflexivity|destruct Hv as [-> | ->]; reflexivity|rewrite Hv; reflexivity]).
      destruct (IH ps Hm' p a' t2 (PS es f) k' false s true Hl2 Hf' (fun _ => eq_refl) Hd ltac:(intro X; congruence)) as (ess & st' & q & H1 & H2 & H3 & H4).
      { cbn [at_ rem] in Hk'. lia. }
      exists ([paragraph es] :: ess), st', q. conj; auto; [cbn [map fst]; constructor; auto|rewrite H2, Hin; cbn; rewrite <- app_assoc; reflexivity|]. rewrite page_headings_cons. cbn [app]. rewrite <- H4. rewrite Ev.
      apply (gather_consume E 100 k' (PS es f) f' _ s [] true).
      * unfold cur_tok. cbn [at_ cur]. rewrite Hbr. discriminate.
      * unfold cur_tok. cbn [at_ cur]. rewrite Hbr. discriminate.
      * apply skip_consume; auto. unfold MAX_RECURSION_DEPTH in *. lia.
    + cbn [brk] in Htb. inversion Htb as [|? tk ? ? Htk Hnil]; subst. inversion Hnil; subst. apply lexed_break in Htk as (br & -> & Hbr). cbn [concat app] in *. change (S (S j) =? 1) with false in Hbr. cbn iota in Hbr.
      destruct (IH ps Hm' p a' t2 (PS [] (f ++ [paragraph es])) k' f' s true Hl2 Hf' (fun _ => eq_refl) Hd (fun _ => eq_refl)) as (ess & st' & q & H1 & H2 & H3 & H4).
      { cbn [at_ rem] in Hk'. lia. }
      exists ([paragraph es] :: ess), st', q. conj; auto; [cbn [map fst]; constructor; auto|rewrite H2; cbn; rewrite <- app_assoc; reflexivity|]. rewrite page_headings_cons. cbn [app]. rewrite <- H4. rewrite Ev. rewrite gather_break by exact Hbr.
      f_equal. destruct es as [|x es]; [discriminate|reflexivity].
  - (* headings *)
    destruct (header_run E e He ((Heading n c l, j) :: ps) (length (concat (t1 ++ t2) ++ [e])) (within_rule "header" p) s a (t1 ++ t2) true Hf eq_refl Hl ltac:(cbn; unfold MAX_RECURSION_DEPTH in *; lia) (le_n _))
      as (hs & rest & ess & sol & tss' & a2 & Eps & Hhs & Hfr & Hlr & Hsr & Hbr & Hlt & Hall & Hne & Hrun).
    assert (Hmr : length rest <= m) by (destruct hs; [congruence|]; apply (f_equal (@length _)) in Eps; cbn in Eps, Hm; rewrite app_length in Eps; lia).
    destruct (IH rest Hmr p a2 tss' (PS [] (into_elements st ++ concat ess)) k0 false (add_toc s (page_headings hs)) sol Hlr Hfr Hsr Hd (fun _ => eq_refl)) as (ess' & st' & q & H1 & H2 & H3 & H4).
    { rewrite app_length in *. cbn in *. lia. }
    exists (ess ++ ess'), st', q. rewrite Eps. conj; auto.
    + rewrite map_app. apply Forall2_app; auto.
    + rewrite H2, concat_app. cbn. rewrite app_assoc. reflexivity.
    + unfold page_headings. rewrite flat_map_app. fold (page_headings hs) (page_headings rest). rewrite <- add_toc_app, <- H4, <- (push_unsafe (concat ess)); auto.
      2:{ rewrite forallb_forall in *. intros x Hx. specialize (Hall x Hx). destruct x; auto; discriminate. }
      destruct (page_first _ _ _ _ Hf Hl He) as (u & r & Eu & Hu). cbn [first_kind] in Hu. rewrite Eu in Hrun, Hk |- *.
      apply gather_consume; [unfold cur_tok; cbn [at_ cur]; rewrite Hu; discriminate..|].
      eapply rule_consume with (r := RULE "header" StartOfLine (rule_header E (consume_n E 99))) (sol' := sol) (T' := concat tss' ++ [e]).
      * unfold cur_tok. cbn [at_ cur]. rewrite Hu. reflexivity.
      * discriminate.
      * destruct (concat tss'); discriminate.
      * auto.
      * unfold MAX_RECURSION_DEPTH in *. lia.
      * reflexivity.
      * cbn [rd_fn rd_name]. unfold rule_header. cbn [at_ rem]. cbn [length] in Hrun. exact Hrun.
      * cbn [su_item]. apply check_ones. rewrite forallb_forall in *. intros x Hx. specialize (Hall x Hx). destruct x; auto; discriminate.
      * rewrite <- Eu, !app_length. cbn. lia.
  - (* a rule *)
    rewrite concat_app in Hk |- *. rewrite <- app_assoc in Hk |- *. cbn [block_items app] in Hl1, Hb. inversion Hl1 as [|? tr ? tb Htr Htb]; subst. apply lexed_rule in Htr as (c & -> & Hc). cbn [concat app] in Hk |- *.
    assert (Hd' : depth p < MAX_RECURSION_DEPTH) by (unfold MAX_RECURSION_DEPTH in *; lia).
    assert (Hpu : push_elements st [EHorizontalRule] false = PS [] (into_elements st ++ [EHorizontalRule])) by (apply push_unsafe; auto; discriminate).
    assert (Hgo : forall k sol f, (ps <> [] -> sol = true) -> length (concat t2 ++ [e]) <= k -> exists ess st' q, Forall2 block_reads (map fst ((Rule d, j) :: ps)) ess /\ into_elements st' = into_elements st ++ concat ess /\ has_footnote_block q = has_footnote_block p /\
       loop k (gather_body E 100) (PS [] (into_elements st ++ [EHorizontalRule]), [], f) (at_ p sol (concat t2 ++ [e])) s = ROk (st', []) q (add_toc s (page_headings ((Rule d, j) :: ps)))).
    { intros k sol f Hsol Hk'. destruct (IH ps Hm' p a' t2 (PS [] (into_elements st ++ [EHorizontalRule])) k f s sol Hl2 Hf' Hsol Hd (fun _ => eq_refl) Hk') as (ess & st' & q & H1 & H2 & H3 & H4).
      exists ([EHorizontalRule] :: ess), st', q. conj; auto; [cbn [map fst]; constructor; auto; constructor|rewrite H2; cbn; rewrite <- app_assoc; reflexivity]. }
    assert (Hcc : forall T, T <> [] -> cur_tok (at_ p true (c :: T)) <> TInputEnd /\ cur_tok (at_ p true (c :: T)) <> TParagraphBreak) by (intros T _; unfold cur_tok; cbn [at_ cur]; rewrite Hc; split; discriminate).
    destruct j as [|[|j]].
    + assert (ps = []) by (destruct ps; auto; exfalso; apply (Hjs ltac:(discriminate)); reflexivity). subst ps. inversion Htb; subst tb. inversion Hl2; subst t2. cbn [concat app] in Hgo, Hk |- *.
      erewrite gather_consume; [|apply Hcc; discriminate|apply Hcc; discriminate|apply (hr_consume E 99 p s c [e] Hd' Hc); right; rewrite He; discriminate].
      rewrite He, Hpu. change (tok_eqb TInputEnd TLineBreak) with false. cbn iota. apply Hgo; [congruence|cbn in Hk |- *; lia].
    + cbn [brk] in Htb. inversion Htb as [|? tk ? ? Htk Hnil]; subst. inversion Hnil; subst. apply lexed_break in Htk as (br & -> & Hbr). cbn [concat app] in *. change (1 =? 1) with true in Hbr. cbn iota in Hbr.
      erewrite gather_consume; [|apply Hcc; discriminate|apply Hcc; discriminate|apply (hr_consume E 99 p s c (br :: concat t2 ++ [e]) Hd' Hc); left; split; [exact Hbr|destruct (concat t2); discriminate]].
      rewrite Hbr, Hpu. change (tok_eqb TLineBreak TLineBreak) with true. cbn iota. apply Hgo; [auto|cbn in Hk |- *; lia].
    + cbn [brk] in Htb. inversion Htb as [|? tk ? ? Htk Hnil]; subst. inversion Hnil; subst. apply lexed_break in Htk as (br & -> & Hbr). cbn [concat app] in *. change (S (S j) =? 1) with false in Hbr. cbn iota in Hbr.
      erewrite gather_consume; [|apply Hcc; discriminate|apply Hcc; discriminate|apply (hr_consume E 99 p s c (br :: concat t2 ++ [e]) Hd' Hc); right; rewrite Hbr; discriminate].
      rewrite Hbr, Hpu. change (tok_eqb TParagraphBreak TLineBreak) with false. cbn iota. destruct k0 as [|k0]; [cbn in Hk; lia|]. rewrite Ev. rewrite gather_break by exact Hbr. rewrite <- Ev. cbn [end_paragraph build_paragraph ps_current]. apply Hgo; [auto|cbn in Hk |- *; lia].
  - (* lists *)
    rewrite concat_app in Hk |- *. rewrite <- app_assoc in Hk |- *.
    destruct (list_consume E p s ls j (page_items ps) t1 t2 e a Hg Hl1 Hl2 He Hj Hb Hd) as (ts & sol & Hts & Hsol & Hne & Hco).
    { intros u r Eu. rewrite Ev in Eu. assert (u = v) by (injection Eu; auto). subst u. destruct ps as [|[b' j'] ps]; [cbn in Hv; rewrite Hv; repeat split; discriminate|]. pose proof (fine_sep _ _ _ _ _ _ Hf) as [_ Hse].
      destruct b' as [q| | | |]; cbn in Hv; [|rewrite Hv; repeat split; discriminate|rewrite Hv; repeat split; discriminate|destruct Hse|rewrite Hv; repeat split; discriminate].
      destruct Hv as (V1 & V2 & V3 & V4 & V5 & V6 & V7). split; [|split; auto]. apply V7. destruct q as [|[]]; auto. }
    assert (Hls : ls <> []) by (destruct Hg; auto).
    assert (Htn : map build_list ts <> []) by (destruct Hts; [congruence|discriminate]).
    destruct (IH ps Hm' p a' t2 (PS [] (into_elements st ++ map build_list ts)) k0 false s sol Hl2 Hf' ltac:(intro X; apply Hsol; eapply fine_ne; eauto) Hd (fun _ => eq_refl)) as (ess & st' & q & H1 & H2 & H3 & H4).
    { rewrite app_length in Hk. destruct (concat t1); [congruence|]. cbn in Hk. lia. }
    exists (map build_list ts :: ess), st', q. conj; auto; [cbn [map fst]; constructor; auto; constructor; auto|rewrite H2; cbn; rewrite <- app_assoc; reflexivity|].
    rewrite page_headings_cons. cbn [app]. rewrite <- H4, <- push_unsafe; auto.
    2:{ rewrite forallb_forall. intros x Hx. apply in_map_iff in Hx as (y & <- & _). reflexivity. }
    assert (Hcc : cur_tok (at_ p true (concat t1 ++ concat t2 ++ [e])) = TBulletItem \/ cur_tok (at_ p true (concat t1 ++ concat t2 ++ [e])) = TNumberedItem).
    { destruct (page_first _ _ _ _ Hf Hl He) as (u & r & Eu & Hu). rewrite concat_app, <- app_assoc in Eu. rewrite Eu. exact Hu. }
    apply gather_consume; [destruct Hcc as [-> | ->]; discriminate..|exact Hco].
  - (* quotes *)
    rewrite concat_app in Hk |- *. rewrite <- app_assoc in Hk |- *.
    destruct (quote_consume E p s xs j (page_items ps) t1 t2 e a Hg Hl1 Hl2 He Hj Hb Hd) as (ts & sol & Hts & Hsol & Hne & Hco).
    { intros u r Eu. rewrite Ev in Eu. assert (u = v) by (injection Eu; auto). subst u. destruct ps as [|[b' j'] ps]; [cbn in Hv; rewrite Hv; discriminate|]. pose proof (fine_sep _ _ _ _ _ _ Hf) as [_ Hse].
      destruct b' as [q| | | |]; cbn in Hv; [tauto|rewrite Hv; discriminate|rewrite Hv; discriminate|destruct Hv as [-> | ->]; discriminate|destruct Hse]. }
    destruct (IH ps Hm' p a' t2 (PS [] (into_elements st ++ [build_blockquote ts])) k0 false s sol Hl2 Hf' ltac:(intro X; apply Hsol; eapply fine_ne; eauto) Hd (fun _ => eq_refl)) as (ess & st' & q & H1 & H2 & H3 & H4).
    { rewrite app_length in Hk. destruct (concat t1); [congruence|]. cbn in Hk. lia. }
    exists ([build_blockquote ts] :: ess), st', q. conj; auto; [cbn [map fst]; constructor; auto; constructor; auto|rewrite H2; cbn; rewrite <- app_assoc; reflexivity|].
    rewrite page_headings_cons. cbn [app]. rewrite <- H4, <- push_unsafe; [|reflexivity|discriminate].
    assert (Hcc : cur_tok (at_ p true (concat t1 ++ concat t2 ++ [e])) = TQuote).
    { destruct (page_first _ _ _ _ Hf Hl He) as (u & r & Eu & Hu). rewrite concat_app, <- app_assoc in Eu. rewrite Eu. exact Hu. }
    apply gather_consume; [rewrite Hcc; discriminate..|exact Hco].
Qed.
