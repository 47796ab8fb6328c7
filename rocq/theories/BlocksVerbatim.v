(** BlocksVerbatim.v -- the parser run on text that is not wikitext. *)
From Verif Require Import Base BaseLemmas Strings StringsLemmas SpecStrings Links Attr Lexer SpecLexer LexerLemmas Depth Tree Text Toc PState Blocks Rules Parse SpecParse SpecPage ParseInv
  ProseLemmas WritingParse WritingBlocks VerbatimLex BlocksLex BlocksParse BlocksRun.
From Verif Require Import SpecBlocks.

Section Verbatim.
Variable E : env.
Notation on := (on E). Notation ends := (ends E).
(** *** Where a name in a closing tag ends. *)
Definition closers : list token := [TWhitespace; TLineBreak; TParagraphBreak; TRightBlock].
Lemma closer_head k z : shape k z -> In k closers -> exists c r, z = c :: r /\ is_alnum c = false.
Proof.
  intros Hs Hk. assert (X : forallb (fun kz => negb (existsb (tok_eqb (fst kz)) closers) || match snd kz with c :: _ => negb (is_alnum c) | [] => false end) symbols = true) by (vm_compute; reflexivity).
  assert (N : forall n s, 1 <= n -> newlines n s -> exists c r, s = c :: r /\ is_alnum c = false).
  { intros n s Hn H. destruct H; [lia|..]; eexists _, _; (split; [reflexivity|reflexivity]). }
  destruct Hs as [t s Hi| | | | | | | | | | | | s H|n s Hn H|s H1 H2|]; try (unfold closers in Hk; cbn in Hk; intuition discriminate).
  - rewrite forallb_forall in X. specialize (X _ Hi). cbn [fst snd] in X. apply orb_true_iff in X as [X|X].
    + apply negb_true_iff in X. rewrite <- not_true_iff_false in X. destruct X. apply existsb_exists. exists t. split; auto. apply tok_refl.
    + destruct s as [|c r]; [discriminate|]. exists c, r. split; auto. apply negb_true_iff in X. auto.
  - apply (N 1); auto.
  - apply (N n); auto. lia.
  - destruct s as [|c s]; [congruence|]. inversion H2 as [|? ? H3 _]; subst. exists c, s. split; auto. cbn in H3. destruct H3 as [<-|[<-|[]]]; reflexivity.
Qed.
Lemma shape_not_end k z : shape k z -> k <> TInputEnd.
Proof.
  intros Hs ->. assert (X : forallb (fun kz => negb (tok_eqb (fst kz) TInputEnd)) symbols = true) by (vm_compute; reflexivity).
  inversion Hs as [t s Hi| | | | | | | | | | | | | | |]; subst. rewrite forallb_forall in X. specialize (X _ Hi). discriminate.
Qed.
Definition part : list piece -> Prop := Forall (fun x => shape (fst x) (snd x)).
Lemma find_closer cs tail : part cs -> exists ws k z cs' post, cs ++ line_piece :: tail = ws ++ (k, z) :: cs' /\ In k closers /\ Forall (fun x => ~ In (fst x) closers /\ fst x <> TInputEnd) ws /\
  flat cs = flat ws ++ post /\ (forall c r, post = c :: r -> is_alnum c = false).
Proof.
  induction 1 as [|[k z] cs Hx Hc (ws & k0 & z0 & cs' & post & E1 & H1 & H2 & H3 & H4)].
  - exists [], TLineBreak, [10%N], tail, []. split; [reflexivity|]. split; [cbn; tauto|]. split; [constructor|]. split; [reflexivity|]. intros c r X. discriminate.
  - cbn [fst snd] in Hx. destruct (in_dec (fun a b => ltac:(destruct (tok_eqb a b) eqn:Y; [left; apply tok_eqb_true; exact Y|right; intros ->; rewrite tok_refl in Y; discriminate])) k closers) as [Hk|Hk].
    + exists [], k, z, (cs ++ line_piece :: tail), (flat ((k, z) :: cs)). split; [reflexivity|]. split; [exact Hk|]. split; [constructor|]. split; [reflexivity|]. destruct (closer_head k z Hx Hk) as (d & y & -> & Hd).
      intros c r X. rewrite flat_cons in X. injection X as <- _. exact Hd.
    + exists ((k, z) :: ws), k0, z0, cs', post. split; [cbn [app]; rewrite E1; reflexivity|]. split; [exact H1|]. split; [constructor; auto; split; auto; cbn [fst]; eapply shape_not_end; eauto|]. split; [|exact H4].
      rewrite !flat_cons, H3, app_assoc. reflexivity.
Qed.
(** *** The name of another block. *)
Definition other (names : list str) (back : str) : Prop :=
  exists name rest, back = name ++ rest /\ letters name /\ (forall c r, rest = c :: r -> is_alnum c = false) /\ ~ named names name.
Lemma prefix_one (a b x y : str) : a ++ x = b ++ y -> (forall c, In c a -> is_alnum c = true) -> (forall c, In c b -> is_alnum c = true) ->
  (forall c r, x = c :: r -> is_alnum c = false) -> (forall c r, y = c :: r -> is_alnum c = false) -> a = b.
Proof.
  revert b. induction a as [|c a IH]; intros [|d b] H Ha Hb Hx Hy; auto.
  - cbn [app] in H. specialize (Hx d (b ++ y) H). rewrite Hb in Hx by (left; auto). discriminate.
  - cbn [app] in H. symmetry in H. specialize (Hy c (a ++ x) H). rewrite Ha in Hy by (left; auto). discriminate.
  - cbn [app] in H. injection H as -> H. f_equal. apply IH; auto; intros e He; [apply Ha|apply Hb]; right; auto.
Qed.
Lemma trim_front s c r : s = c :: r -> is_ws c = false -> exists post, s = trim s ++ post /\ (forall d q, post = d :: q -> is_ws d = true).
Proof.
  intros -> Hc. unfold trim, trim_start. cbn [drop_while]. rewrite Hc. unfold trim_end.
  assert (X : forall u, exists pre, u = pre ++ drop_while is_ws u /\ forall d, In d pre -> is_ws d = true).
  { induction u as [|e u (pre & E1 & H1)]; [exists []; split; auto; intros d []|]. cbn [drop_while]. destruct (is_ws e) eqn:Y; [|exists []; split; auto; intros d []]. exists (e :: pre). split; [cbn [app]; congruence|]. intros d [<-|Hd]; auto. }
  destruct (X (rev (c :: r))) as (pre & E1 & H1). exists (rev pre). split.
  - apply (f_equal (@rev _)) in E1. rewrite rev_involutive, rev_app_distr in E1. exact E1.
  - intros d q Y. apply H1. apply in_rev. rewrite Y. left. auto.
Qed.
Lemma ws_alnum c : is_ws c = true -> is_alnum c = false. Proof. intro H. destruct (is_alnum c) eqn:X; auto. rewrite (alnum_ws c X) in H. discriminate. Qed.
Lemma other_name names ws post : (forall n, In n names -> letters n /\ slower n = n) -> other names (ws ++ post) -> (forall c r, post = c :: r -> is_alnum c = false) -> existsb (eq_nocase (fst (strip_score (trim ws)))) names = false.
Proof.
  intros Hn (w & rest & E1 & [Hw1 Hw2] & Hr & Hno) Hp. destruct (existsb _ _) eqn:X; auto. exfalso. apply existsb_exists in X as (n & Hi & X). unfold eq_nocase in X. apply seqb_eq in X. destruct (Hn n Hi) as [[Hn1 Hn2] Hn3]. rewrite Hn3 in X.
  set (u := fst (strip_score (trim ws))) in *. assert (Hu : letters u). { apply slower_letters. rewrite X. split; auto. }
  destruct w as [|c w]; [congruence|]. destruct ws as [|c' ws]; [cbn [app] in E1; specialize (Hp c (w ++ rest) E1); rewrite Hw2 in Hp by (left; auto); discriminate|]. assert (c' = c) as -> by (cbn [app] in E1; congruence).
  destruct (trim_front (c :: ws) c ws eq_refl) as (q & Et & Hq); [apply alnum_ws, Hw2; left; auto|].
  assert (Hs : exists z, trim (c :: ws) = u ++ z /\ (z = [] \/ z = [95%N])).
  { unfold u, strip_score. destruct (rev (trim (c :: ws))) as [|d r] eqn:Er; [exists []; split; [rewrite app_nil_r; reflexivity|auto]|]. destruct (ceqb d 95) eqn:Y; [|exists []; split; [rewrite app_nil_r; reflexivity|auto]].
    apply ceqb_eq in Y. subst d. exists [95%N]. split; auto. apply (f_equal (@rev _)) in Er. rewrite rev_involutive in Er. exact Er. }
  destruct Hs as (z & Es & Hz). apply Hno. unfold named. replace (c :: w) with u; [rewrite X; exact Hi|].
  apply (prefix_one u (c :: w) (z ++ q ++ post) rest); auto; [|apply Hu|].
  - rewrite <- E1. rewrite Et, Es, <- !app_assoc. reflexivity.
  - intros d r Y. destruct Hz as [-> | ->]; [|cbn [app] in Y; injection Y as <- _; reflexivity]. cbn [app] in Y. destruct q as [|e q]; [apply (Hp d r Y)|]. cbn [app] in Y. injection Y as <- _. apply ws_alnum. apply (Hq e q eq_refl).
Qed.
(** *** A closing tag of another block does not end the text. *)
Definition goes_on (br : block_rule) (r : res str) (s : shared) : Prop :=
  match r with ROk n _ s' => s' = s /\ existsb (eq_nocase (fst (strip_score n))) (br_names br) = false | RErr _ _ s' => s' = s | _ => False end.
Lemma other_end br p sol z cs tail s : part cs -> (forall n, In n (br_names br) -> letters n /\ slower n = n) -> other (br_names br) (flat cs) -> ends (cs ++ line_piece :: tail) ->
  goes_on br (get_end_block E (on p sol ((TLeftBlockEnd, z) :: cs ++ line_piece :: tail)) s) s.
Proof.
  intros Hp Hn Ho He. unfold get_end_block. erewrite bind_ok; [|apply get_yes].
  destruct (find_closer cs tail Hp) as (ws & k & y & cs' & post & E1 & Hk & Hw & E2 & Hpo). rewrite E1 in *. rewrite E2 in Ho.
  assert (Hf : ~ In (first (ws ++ (k, y) :: cs')) [TWhitespace; TLeftBlock]).
  { pose proof Ho as (w & rest & E3 & [Hw1 Hw2] & _). destruct w as [|c w]; [congruence|]. specialize (Hw2 c (or_introl eq_refl)).
    destruct ws as [|[k0 z0] ws]; [cbn [flat flat_map app] in E3; rewrite (Hpo c _ E3) in Hw2; discriminate|]. cbn [app first]. inversion Hw as [|? ? [H1 _] _]; subst. cbn [fst] in H1.
    destruct cs as [|[k1 z1] cs]; [cbn [app] in E1; injection E1 as <- _; destruct H1; cbn; tauto|]. cbn [app] in E1. assert (k1 = k0 /\ z1 = z0) as [-> ->] by (split; congruence). inversion Hp as [|? ? Hs _]; subst. cbn [fst snd] in Hs.
    intros [X|[X|[]]]; [apply H1; rewrite <- X; cbn; tauto|]. subst k0. rewrite flat_cons in E3.
    assert (Z : forallb (fun kz => negb (tok_eqb (fst kz) TLeftBlock) || seqb (snd kz) (lit "[[")) symbols = true) by (vm_compute; reflexivity).
    inversion Hs as [t s0 Hi| | | | | | | | | | | | | | |]; subst. rewrite forallb_forall in Z. specialize (Z _ Hi). cbn [fst snd] in Z. rewrite tok_refl in Z. cbn [negb orb] in Z. apply seqb_eq in Z. subst z0. cbn [app] in E3. injection E3 as <- _. discriminate. }
  unfold get_optional_space. erewrite bind_ok; [|apply opt_no; intro X; apply Hf; rewrite X; cbn; tauto].
  unfold get_block_name. rewrite bind_assoc. erewrite bind_ok; [|apply opt_no; intro X; apply Hf; rewrite X; cbn; tauto].
  rewrite bind_assoc. unfold get_optional_space. erewrite bind_ok; [|apply opt_no; intro X; apply Hf; rewrite X; cbn; tauto].
  destruct (collect_to E (map IsToken closers) [] (Some BlockMissingName) p (line_start_token TLeftBlockEnd) s ws k y cs') as (t & Et & Hr); auto.
  - apply stops_tokens. exact Hk.
  - intros ->. unfold closers in Hk. cbn in Hk. intuition discriminate.
  - eapply Forall_impl; [|exact Hw]. intros x [H1 H2]. split; [apply passes_tokens; exact H1|]. split; [intros q sl r; reflexivity|exact H2].
  - unfold get_block_name_internal. rewrite bind_assoc. change [IsToken TWhitespace; IsToken TLineBreak; IsToken TParagraphBreak; IsToken TRightBlock] with (map IsToken closers).
    pose proof (other_name (br_names br) (flat ws) post Hn Ho Hpo) as Hname.
    rewrite (bind_ok _ _ _ _ _ _ _ Hr). cbv beta iota zeta. rewrite Et. 
    assert (Hin : forall q, goes_on br (PState.bind (PState.bind get_optional_space (fun _ => PState.bind (get_token TRightBlock BlockExpectedEnd) (fun _ => PState.ret tt))) (fun _ => PState.ret (trim (flat ws))) (on p q cs') s) s).
    { intro q. assert (Y : exists q' cs2, get_optional_space (on p q cs') s = ROk tt (on p q' cs2) s).
      { unfold get_optional_space. destruct cs' as [|[k1 z1] cs1]; [eexists _, _; apply opt_no; discriminate|]. destruct (tok_eqb k1 TWhitespace) eqn:Y; [apply tok_eqb_true in Y; subst k1; eexists _, _; apply opt_yes; reflexivity|].
        eexists _, _. apply opt_no. cbn [first]. intros ->. rewrite tok_refl in Y. discriminate. }
      destruct Y as (q' & cs2 & Y). rewrite bind_assoc, (bind_ok _ _ _ _ _ _ _ Y), bind_assoc. destruct cs2 as [|[k1 z1] cs1]; [unfold bind; rewrite get_no by discriminate; reflexivity|].
      destruct (tok_eqb k1 TRightBlock) eqn:Z; [apply tok_eqb_true in Z; subst k1; erewrite bind_ok by apply get_yes; split; [reflexivity|exact Hname]|].
      unfold bind. rewrite get_no; [reflexivity|]. cbn [first]. intros ->. rewrite tok_refl in Z. discriminate. }
    unfold closers in Hk. cbn in Hk. destruct Hk as [<-|[<-|[<-|[<-|[]]]]]; (erewrite bind_ok by reflexivity); cbv beta iota; try apply Hin. split; [reflexivity|exact Hname].
Qed.
(** *** Text up to the closing tag. *)
Definition clean (names : list str) (cs : list piece) : Prop := forall front z back, cs = front ++ (TLeftBlockEnd, z) :: back -> other names (flat back).
Lemma clean_cons names x cs : clean names (x :: cs) -> clean names cs. Proof. intros H f z b ->. apply (H (x :: f) z b). reflexivity. Qed.
Lemma text_clean names t : good_text names t -> clean names (text_pieces t).
Proof.
  intros Ht f z b X. destruct (good_pieces _ _ Ht) as (Hf & Hs & _). destruct Ht as (_ & _ & Ht). apply (Ht (flat f)). rewrite <- Hf. rewrite X, flat_app, flat_cons.
  rewrite X in Hs. apply Forall_app in Hs as [_ Hs]. inversion Hs as [|? ? H1 _]; subst. cbn [fst snd] in H1.
  assert (Z : forallb (fun kz => negb (tok_eqb (fst kz) TLeftBlockEnd) || seqb (snd kz) (lit "[[/")) symbols = true) by (vm_compute; reflexivity).
  inversion H1 as [t0 s0 Hi| | | | | | | | | | | | | | |]; subst. rewrite forallb_forall in Z. specialize (Z _ Hi). cbn [fst snd] in Z. rewrite tok_refl in Z. cbn [negb orb] in Z. apply seqb_eq in Z. rewrite Z. reflexivity.
Qed.
Lemma end_no br p sol cs tail s : part cs -> (forall n, In n (br_names br) -> letters n /\ slower n = n) -> clean (br_names br) cs -> ends (cs ++ line_piece :: tail) -> goes_on br (get_end_block E (on p sol (cs ++ line_piece :: tail)) s) s.
Proof.
  intros Hp Hn Hc He. destruct cs as [|[k z] cs]; [unfold get_end_block, bind; cbn [app]; rewrite get_no by discriminate; reflexivity|]. cbn [app] in *.
  destruct (tok_eqb k TLeftBlockEnd) eqn:X.
  - apply tok_eqb_true in X. subst k. inversion Hp; subst. apply other_end; auto; [apply (Hc [] z cs eq_refl)|eapply ends_cons; eauto].
  - unfold get_end_block, bind. rewrite get_no; [reflexivity|]. cbn [first]. intros ->. rewrite tok_refl in X. discriminate.
Qed.
Lemma verify_on b br p sol x cs tail s : part (x :: cs) -> (forall n, In n (br_names br) -> letters n /\ slower n = n) -> clean (br_names br) (x :: cs) -> ends ((x :: cs) ++ line_piece :: tail) ->
  verify_end_block E b br (on p sol ((x :: cs) ++ line_piece :: tail)) s = ROk None (on p sol ((x :: cs) ++ line_piece :: tail)) s.
Proof.
  intros Hp Hn Hc He. unfold verify_end_block, save_evaluate_fn. inversion Hp as [|? ? _ Hp']; subst.
  assert (K : forall r, goes_on br r s -> forall m, m (on p sol ((x :: cs) ++ line_piece :: tail)) s = r -> match (let! name := m in ret (existsb (eq_nocase (fst (strip_score name))) (br_names br))) (on p sol ((x :: cs) ++ line_piece :: tail)) s with
    | ROk true q s' => ROk (Some (cur (on p sol ((x :: cs) ++ line_piece :: tail)))) (update (on p sol ((x :: cs) ++ line_piece :: tail)) q) s' | ROk false _ s' | RErr _ _ s' => ROk None (on p sol ((x :: cs) ++ line_piece :: tail)) s' | RPanic w => RPanic w | RFuel => RFuel end =
    ROk None (on p sol ((x :: cs) ++ line_piece :: tail)) s).
  { intros r Hr m Hm. unfold bind. rewrite Hm. destruct r as [a q s'|e q s'| |]; cbn [goes_on] in Hr; try contradiction; [destruct Hr as [-> Hr]; rewrite Hr|rewrite Hr]; reflexivity. }
  destruct (br_newlines br && negb b) eqn:Eb.
  - destruct (tok_eqb (fst x) TLineBreak) eqn:Y.
    + apply tok_eqb_true in Y. rewrite <- bind_assoc. apply (K (get_end_block E (on p (line_start_token TLineBreak) (cs ++ line_piece :: tail)) s)).
      * apply end_no; auto; [eapply clean_cons; eauto|eapply ends_cons; exact He].
      * unfold get_optional_line_break. cbn [app]. rewrite (bind_ok _ _ _ _ _ _ _ (opt_yes E TLineBreak p sol x (cs ++ line_piece :: tail) s Y)). reflexivity.
    + rewrite <- bind_assoc. apply (K (get_end_block E (on p sol ((x :: cs) ++ line_piece :: tail)) s)); [apply end_no; auto|].
      unfold get_optional_line_break. erewrite bind_ok; [reflexivity|]. apply opt_no. destruct x as [k z]. cbn [app first fst] in *. intros ->. rewrite tok_refl in Y. discriminate.
  - rewrite <- bind_assoc. apply (K (get_end_block E (on p sol ((x :: cs) ++ line_piece :: tail)) s)); [apply end_no; auto|]. reflexivity.
Qed.
Lemma text_loop br p c cs rest s : (forall n, In n (br_names br) -> letters n /\ slower n = n) -> br_newlines br = true -> good_name c -> existsb (eq_nocase c) (br_names br) = true ->
  part cs -> clean (br_names br) cs -> ends (cs ++ line_piece :: close_pieces c ++ rest) -> forall k b sol, length cs < k -> (b = true -> cs <> []) ->
  loop k (fun first => let! at_end := verify_end_block E first br in match at_end with Some fin => ret (inr fin) | None => step ;; ret (inl false) end) b (on p sol (cs ++ line_piece :: close_pieces c ++ rest)) s =
  ROk (XT TLineBreak [10%N] (pos_of E (line_piece :: close_pieces c ++ rest)) (pos_of E (close_pieces c ++ rest))) (on p false rest) s.
Proof.
  intros Hn Hl Ho Hc. induction cs as [|x cs IH]; intros Hp Hcl He k b sol Hk Hb; (destruct k as [|k]; [cbn [length] in Hk; lia|]); cbn [loop].
  - destruct b; [specialize (Hb eq_refl); congruence|]. cbn [app] in *. unfold bind at 1.
    assert (X : verify_end_block E false br (on p sol (line_piece :: close_pieces c ++ rest)) s = ROk (Some (XT TLineBreak [10%N] (pos_of E (line_piece :: close_pieces c ++ rest)) (pos_of E (close_pieces c ++ rest)))) (on p false rest) s).
    { unfold verify_end_block, save_evaluate_fn. rewrite Hl. cbn [negb andb]. unfold get_optional_line_break. erewrite bind_ok; [|apply opt_yes; reflexivity].
      rewrite (bind_ok _ _ _ _ _ _ _ (end_read E p _ c rest s Ho (ends_cons _ _ _ He))). rewrite name_score by auto. cbn [fst]. rewrite Hc. unfold ret. rewrite on_update by reflexivity. reflexivity. }
    rewrite (bind_ok _ _ _ _ _ _ _ X). reflexivity.
  - unfold bind at 1. rewrite (bind_ok _ _ _ _ _ _ _ (verify_on b br p sol x cs (close_pieces c ++ rest) s Hp Hn Hcl He)). cbn [app]. rewrite stepu. unfold ret at 1.
    inversion Hp; subst. apply IH; auto; [eapply clean_cons; eauto|eapply ends_cons; exact He|cbn [length] in Hk; lia|discriminate].
Qed.
Lemma text_body br p t c rest s : (forall n, In n (br_names br) -> letters n /\ slower n = n) -> br_newlines br = true -> good_name c -> existsb (eq_nocase c) (br_names br) = true -> good_text (br_names br) t ->
  ends (text_pieces t ++ line_piece :: close_pieces c ++ rest) -> get_body_text E br (on p true (text_pieces t ++ line_piece :: close_pieces c ++ rest)) s = ROk t (on p false rest) s.
Proof.
  intros Hn Hl Ho Hc Ht He. destruct (good_pieces _ _ Ht) as (Hf & Hs & _). pose proof (text_clean _ _ Ht) as Hcl. assert (Hne : text_pieces t <> []) by (intro X; rewrite X in Hf; destruct Ht as ((d & r & -> & _) & _); discriminate).
  unfold get_body_text. rewrite bind_gets. unfold looping. unfold bind at 1. rewrite text_loop; auto; [|rewrite on_len, app_length; lia].
  pose proof (slice_of E _ _ He) as Hsl. rewrite Hf in Hsl. destruct (text_pieces t) as [|[k z] cs]; [congruence|]. cbn [app]. rewrite on_cur. unfold partial_slice. cbn [t_start]. cbn [app] in Hsl. rewrite Hsl. reflexivity.
Qed.
(** *** Programs and documents. *)
Definition verbatim_el (v : verbatim) (t : str) : Tree.element := match v with Program l => ECode t (option_map slower l) | Document => EHtml t end.
Definition verbatim_add (v : verbatim) (t : str) (s : shared) : shared :=
  match v with
  | Program _ => SH (sh_toc s) (sh_html s) (sh_code s ++ [CB t None]) (sh_footnotes s) (sh_bibs s)
  | Document => SH (sh_toc s) (sh_html s ++ [t]) (sh_code s) (sh_footnotes s) (sh_bibs s)
  end.
Lemma verbatim_rule con v o : named (verbatim_names v) o -> exists br f, get_block_rule E con o = Some (br, f) /\ br_names br = verbatim_names v /\ br_star br = false /\ br_newlines br = true /\
  forall name st h, f br name st false h = match v with Program _ => blk_code E br name st false h | Document => blk_html E br name st false h end.
Proof.
  intro H. rewrite rule_lower by (left; eapply verbatim_names_letters; eauto). unfold named in H. remember (slower o) as n eqn:En. clear En.
  destruct v; cbn [verbatim_names map] in H; (destruct H as [<-|[]]; eexists; eexists; split; [reflexivity|]; split; [reflexivity|]; split; [reflexivity|]; split; [reflexivity|]; intros; reflexivity).
Qed.
Lemma verbatim_lower v : map slower (verbatim_names v) = verbatim_names v. Proof. destruct v; reflexivity. Qed.
Lemma verbatim_in v o : named (verbatim_names v) o -> existsb (eq_nocase o) (verbatim_names v) = true. Proof. intro H. apply named_in. rewrite verbatim_lower. exact H. Qed.
Lemma verbatim_consume s n v o t c p sol rest : good_block (en_entity E) (Verbatim v o t c) -> depth p + S n <= MAX_RECURSION_DEPTH -> ends (block_pieces (Verbatim v o t c) ++ rest) ->
  consume_n E (S n) (on p sol (block_pieces (Verbatim v o t c) ++ rest)) s = ROk (PSu [verbatim_el v t] [] false) (on p false rest) (verbatim_add v t s).
Proof.
  intros (Ho & Hc & Hv & Ht) Hd He. cbn [block_pieces] in *. rewrite <- app_assoc in *. cbn [app] in *. rewrite <- app_assoc in *. cbn [app] in *.
  destruct (verbatim_rule (consume_n E n) v o Ho) as (br & f & Hru & Hnm & Hs & Hl & Hf).
  pose proof (ends_cons E _ _ (ends_app E _ _ He)) as Hei. assert (Hgo : good_name o) by (left; eapply verbatim_names_letters; eauto). assert (Hgc : good_name c) by (left; eapply verbatim_names_letters; eauto).
  assert (Hnc : existsb (eq_nocase c) (br_names br) = true) by (rewrite Hnm; apply verbatim_in; auto).
  assert (Hno : existsb (eq_nocase o) (br_names br) = true) by (rewrite Hnm; apply verbatim_in; auto).
  assert (Hln : forall m, In m (br_names br) -> letters m /\ slower m = m).
  { intros m Hm. rewrite Hnm in Hm. destruct v; (destruct Hm as [<-|[]]; split; [split; [discriminate|apply forallb_forall; reflexivity]|reflexivity]). }
  assert (Hbody : forall q, get_body_text E br (on q true (text_pieces t ++ line_piece :: close_pieces c ++ rest)) s = ROk t (on q false rest) s).
  { intro q. apply text_body; auto. rewrite Hnm. exact Ht. }
  assert (Hpart : forall q, check_partials [verbatim_el v t] q = None) by (intro q; destruct v; reflexivity).
  apply head_consume with (r := br_name br); auto; [lia| |cbn [length]; rewrite !app_length; cbn [length]; rewrite !app_length; lia].
  destruct v as [l|]; cbn [verbatim_attributes verbatim_el verbatim_add] in *.
  - destruct (map_head E (consume_n E n) false (with_rule "block" (pushed p)) sol o (optional "type" (fun s => s) l) (line_piece :: text_pieces t ++ line_piece :: close_pieces c ++ rest) s br f) as (h & cs0 & Hp & Hm); auto.
    + exact (verbatim_attributes_names (Program l) Hv).
    + destruct l; cbn [optional map]; constructor; [intros []|constructor].
    + rewrite andb_false_r; reflexivity.
    + discriminate.
    + rewrite Hp, Hf. unfold blk_code. rewrite (bind_ok _ _ _ _ _ _ _ (assert_ok E br o _ s Hno)). rewrite (bind_ok _ _ _ _ _ _ _ (proj2 (Hm _) _ Hl eq_refl)).
      assert (G : args_get (optional "type" (fun s => s) l) (lit "type") = (l, [])) by (destruct l; reflexivity). rewrite G. cbn [args_get option_map]. rewrite (bind_ok _ _ _ _ _ _ _ (Hbody _)). reflexivity.
  - cbn [flat_map]. unfold head_pieces in *. cbn [app flat_map] in *. rewrite <- !app_assoc in *. cbn [app] in *.
    change (TLeftBlock, lit "[[") with (open_piece false).
    rewrite (parse_head E (consume_n E n) false (with_rule "block" (pushed p)) sol o right_piece (line_piece :: text_pieces t ++ line_piece :: close_pieces c ++ rest) s br f); auto; [|cbn; tauto|eapply ends_cons; exact He|rewrite andb_false_r; reflexivity|discriminate].
    rewrite Hf. unfold blk_html. rewrite (bind_ok _ _ _ _ _ _ _ (assert_ok E br o _ s Hno)). unfold get_head_none. rewrite bind_assoc. unfold get_optional_space at 1. erewrite bind_ok; [|apply opt_no; discriminate].
    erewrite bind_ok; [|apply head_line_out; exact Hl]. rewrite (bind_ok _ _ _ _ _ _ _ (Hbody _)). reflexivity.
Qed.
End Verbatim.
