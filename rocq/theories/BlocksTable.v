(** BlocksTable.v -- the parser run on the lists and the tables in double brackets of SpecBlocks.v. *)
From Coq Require Import DecimalString Decimal DecimalNat.
From Verif Require Import Base BaseLemmas Strings StringsLemmas SpecStrings Links Attr Lexer SpecLexer LexerLemmas Depth Tree TreeLemmas Text Toc PState Blocks Rules Parse SpecParse SpecPage ParseInv
  ProseLemmas WritingParse WritingBlocks VerbatimLex BlocksLex BlocksParse BlocksRun.
From Verif Require Import SpecBlocks.

(** *** Numbers. *)
Fixpoint decimal (u : Decimal.uint) (acc : N) : N :=
  match u with
  | Decimal.Nil => acc
  | Decimal.D0 u => decimal u (acc * 10 + 0) | Decimal.D1 u => decimal u (acc * 10 + 1) | Decimal.D2 u => decimal u (acc * 10 + 2) | Decimal.D3 u => decimal u (acc * 10 + 3)
  | Decimal.D4 u => decimal u (acc * 10 + 4) | Decimal.D5 u => decimal u (acc * 10 + 5) | Decimal.D6 u => decimal u (acc * 10 + 6) | Decimal.D7 u => decimal u (acc * 10 + 7)
  | Decimal.D8 u => decimal u (acc * 10 + 8) | Decimal.D9 u => decimal u (acc * 10 + 9)
  end%N.
Lemma decimal_up u : forall acc, (acc <= decimal u acc)%N.
Proof. induction u as [|u IH|u IH|u IH|u IH|u IH|u IH|u IH|u IH|u IH|u IH]; intro acc; cbn [decimal]; [lia|..]; (eapply N.le_trans; [|apply IH]; lia). Qed.
Lemma decimal_nat u : forall n, N.of_nat (Nat.of_uint_acc u n) = decimal u (N.of_nat n).
Proof.
  induction u as [|u IH|u IH|u IH|u IH|u IH|u IH|u IH|u IH|u IH|u IH]; intro n; cbn [decimal Nat.of_uint_acc]; [reflexivity|..]; rewrite IH; f_equal; rewrite Nat.tail_mul_spec; lia.
Qed.
Lemma digit_step d s acc : (d < 10)%N -> (acc * 10 + d < 4294967296)%N -> radix_loop 10 acc ((48 + d)%N :: s) = radix_loop 10 (acc * 10 + d) s.
Proof.
  intros Hd Ha. cbn [radix_loop]. unfold digit_value, is_digit. replace ((48 <=? 48 + d)%N) with true by (symmetry; apply N.leb_le; lia). replace ((48 + d <=? 57)%N) with true by (symmetry; apply N.leb_le; lia). cbn [andb].
  replace (48 + d - 48)%N with d by lia. replace (d <? 10)%N with true by (symmetry; apply N.ltb_lt; auto). cbv zeta. replace (acc * 10 + d <? 4294967296)%N with true by (symmetry; apply N.ltb_lt; auto). reflexivity.
Qed.
Lemma digits_loop u : forall acc, (decimal u acc < 4294967296)%N -> radix_loop 10 acc (lit (NilEmpty.string_of_uint u)) = Some (decimal u acc).
Proof.
  induction u as [|u IH|u IH|u IH|u IH|u IH|u IH|u IH|u IH|u IH|u IH]; intros acc H; [reflexivity|..]; cbn [decimal] in H |- *;
    match type of H with (decimal _ (_ * 10 + ?d) < _)%N => change (lit (NilEmpty.string_of_uint _)) with ((48 + d)%N :: lit (NilEmpty.string_of_uint u)); pose proof (decimal_up u (acc * 10 + d)) end;
    rewrite digit_step by lia; apply IH; exact H.
Qed.
Lemma to_uint_some n : Nat.to_uint n <> Decimal.Nil.
Proof. intro H. pose proof (DecimalNat.Unsigned.of_to n) as X. rewrite H in X. cbn in X. subst n. discriminate. Qed.
Lemma digits_read n : 1 <= n -> (N.of_nat n < 4294967296)%N -> parse_nonzero_u32 (digits n) = Some (N.of_nat n).
Proof.
  intros H1 H2. unfold parse_nonzero_u32, digits.
  assert (X : NilZero.string_of_uint (Nat.to_uint n) = NilEmpty.string_of_uint (Nat.to_uint n)) by (pose proof (to_uint_some n) as X; destruct (Nat.to_uint n); [congruence|reflexivity..]). rewrite X. clear X.
  assert (Hv : decimal (Nat.to_uint n) 0 = N.of_nat n).
  { change 0%N with (N.of_nat 0). rewrite <- decimal_nat. change (Nat.of_uint_acc (Nat.to_uint n) 0) with (Nat.of_uint (Nat.to_uint n)). rewrite DecimalNat.Unsigned.of_to. reflexivity. }
  assert (Hr : u32_from_str_radix 10 (lit (NilEmpty.string_of_uint (Nat.to_uint n))) = Some (N.of_nat n)).
  { pose proof (digits_loop (Nat.to_uint n) 0) as X. rewrite Hv in X. specialize (X H2). pose proof (to_uint_some n) as Y. destruct (Nat.to_uint n); [congruence|exact X..]. }
  rewrite Hr. destruct (N.of_nat n) eqn:E; [lia|reflexivity].
Qed.
(** *** Blanks at the ends. *)
Lemma front_same f (es : list Tree.element) : (forall e r, es = e :: r -> f e = false) -> strip_front f es = es.
Proof. destruct es as [|e es]; intro H; [reflexivity|]. cbn [strip_front]. rewrite (H e es eq_refl). reflexivity. Qed.
Lemma strip_same es : (forall e r, es = e :: r -> is_whitespace e = false) -> (forall e r, es = r ++ [e] -> is_whitespace e = false) -> strip_whitespace es = es.
Proof.
  intros H1 H2. unfold strip_whitespace, strip_back. rewrite (front_same _ es H1). rewrite front_same; [apply rev_involutive|]. intros e r X. apply (f_equal (@rev _)) in X. rewrite rev_involutive in X. cbn [rev] in X. eauto.
Qed.
Lemma visible_ws c : visible c -> is_ws c = false.
Proof.
  unfold visible. intro H. unfold is_ws. repeat (apply orb_false_iff; split); try (apply N.eqb_neq; lia); apply andb_false_iff; first [left; apply N.leb_gt; lia|right; apply N.leb_gt; lia].
Qed.
Lemma piece_some x : word_piece x -> snd x <> [].
Proof. destruct x as [k z]. unfold word_piece. cbn [fst snd]. destruct k; try contradiction; [intros (H & _); exact H|intros [H _]; exact H|intros (c & -> & _); discriminate]. Qed.
Section Blanks.
Variable E : env.
Lemma text_ends t : (t <> []) -> exists e1 e2, (forall c u, t = c :: u -> visible c -> is_whitespace e1 = false) /\ (forall c u, t = u ++ [c] -> visible c -> is_whitespace e2 = false) /\ (exists r, els E (Text t) = e1 :: r) /\ exists r, els E (Text t) = r ++ [e2].
Proof.
  intro Hn. pose proof (flat_pieces t) as Hf. pose proof (pieces_word t) as Hw. cbn [els]. assert (Hp : pieces t <> []) by (intro X; rewrite X in Hf; cbn in Hf; congruence).
  destruct (pieces t) as [|[k1 z1] ws] eqn:X; [congruence|]. destruct (exists_last Hp) as (ws2 & [k2 z2] & Y). exists (EText z1), (EText z2). conj.
  - intros c u -> Hc. inversion Hw as [|? ? Hz _]; subst. apply piece_some in Hz. cbn [snd] in Hz. destruct z1 as [|d z1]; [congruence|]. unfold flat in Hf. cbn [flat_map snd app] in Hf. injection Hf as -> _.
    cbn [is_whitespace forallb]. rewrite visible_ws by auto. reflexivity.
  - intros c u -> Hc. rewrite Y in Hf, Hw. apply Forall_app in Hw as [_ Hw]. inversion Hw as [|? ? Hz _]; subst. apply piece_some in Hz. cbn [snd] in Hz. destruct (exists_last Hz) as (z3 & d & ->).
    rewrite flat_app in Hf. unfold flat at 2 in Hf. cbn [flat_map snd app] in Hf. rewrite app_nil_r, app_assoc in Hf. apply app_inj_tail in Hf as [_ ->].
    cbn [is_whitespace]. rewrite forallb_app. cbn [forallb]. rewrite visible_ws by auto. cbn [andb]. apply andb_false_r.
  - eexists. reflexivity.
  - rewrite Y, map_app. eexists. reflexivity.
Qed.
Definition sure (x : inline) : Prop := match x with Text _ | Character _ | When _ _ _ | Break => False | _ => True end.
Lemma sure_one x : sure x -> exists e, els E x = [e] /\ is_whitespace e = false. Proof. destruct x; intros []; eexists; (split; [reflexivity|try (match goal with k : box |- _ => destruct k end); reflexivity]). Qed.
Lemma firm_strip ents l : Forall (good_inline ents) l -> firm l -> strip_whitespace (flat_map (els E) l) = flat_map (els E) l.
Proof.
  intros Hg [H1 H2]. apply strip_same.
  - intros e r X. destruct l as [|x l]; [discriminate|]. inversion Hg as [|? ? Hx _]; subst. cbn [flat_map] in X. specialize (H1 x l eq_refl).
    destruct x as [t| | | | | | | | | | | | |]; try contradiction; try (match type of X with els E ?y ++ _ = _ => destruct (sure_one y I) as (e' & Y & Z) end; rewrite Y in X; injection X as <- _; exact Z).
    destruct Hx as [Hn _]. destruct (text_ends t Hn) as (e1 & e2 & Z & _ & (q & Y) & _). rewrite Y in X. injection X as <- _. destruct t as [|c u]; [congruence|]. apply (Z c u eq_refl). eapply H1. reflexivity.
  - intros e r X. destruct l as [|x l _] using rev_ind; [destruct r; discriminate|]. apply Forall_app in Hg as [_ Hg]. inversion Hg as [|? ? Hx _]; subst. rewrite flat_map_app in X. cbn [flat_map] in X. rewrite app_nil_r in X. specialize (H2 x l eq_refl).
    destruct x as [t| | | | | | | | | | | | |]; try contradiction; try (match type of X with _ ++ els E ?y = _ => destruct (sure_one y I) as (e' & Y & Z) end; rewrite Y in X; apply app_inj_tail in X as [_ <-]; exact Z).
    destruct Hx as [Hn _]. destruct (text_ends t Hn) as (e1 & e2 & _ & Z & _ & (q & Y)). rewrite Y, app_assoc in X. apply app_inj_tail in X as [_ <-]. destruct (exists_last Hn) as (u & c & ->). apply (Z c u eq_refl). eapply H2. reflexivity.
Qed.
End Blanks.
(** *** The attributes of cells. *)
Lemma shown_from_keys a : forall acc x, In x (map fst (fold_left (fun l kv => if is_handler (fst kv) then l else put (slower (fst kv), snd kv) l) a acc)) -> In x (map fst acc) \/ In x (map (fun kv : attribute => slower (fst kv)) a).
Proof.
  induction a as [|[k v] a IH]; intros acc x H; [auto|]. cbn [fold_left fst snd map] in *. apply IH in H as [H|H]; [|right; right; exact H]. destruct (is_handler k); [auto|].
  apply in_map_iff in H as ([k' v'] & <- & H). apply put_keys in H as [H|H]; [apply pair_equal_spec in H as [-> _]; right; left; reflexivity|left; apply in_map_iff; exists (k', v'); auto].
Qed.
Lemma shown_some a x : In x (map fst (shown_attributes a)) -> In x (map (fun kv : attribute => slower (fst kv)) a).
Proof. intro H. apply shown_from_keys in H as [[]|H]. exact H. Qed.
Lemma get_put k v m : ~ In k (map fst m) -> bt_get (put (k, v) m) k = Some v.
Proof.
  induction m as [|[k' v'] m IH]; intro H; cbn [put fst]; [cbn [bt_get]; rewrite seqb_refl; reflexivity|]. destruct (before k k'); cbn [bt_get].
  - rewrite seqb_refl. reflexivity.
  - destruct (seqb k' k) eqn:X; [apply seqb_eq in X; exfalso; apply H; left; auto|]. apply IH. intro Y. apply H. right. auto.
Qed.
Lemma remove_none k m : ~ In k (map fst m) -> bt_remove m k = m.
Proof. induction m as [|[k' v'] m IH]; intro H; [reflexivity|]. unfold bt_remove in *. cbn [filter fst]. destruct (seqb k' k) eqn:X; [apply seqb_eq in X; exfalso; apply H; left; auto|]. cbn [negb]. f_equal. apply IH. intro Y. apply H. right. auto. Qed.
Lemma remove_put k v m : ~ In k (map fst m) -> bt_remove (put (k, v) m) k = m.
Proof.
  induction m as [|[k' v'] m IH]; intro H; cbn [put fst]; [unfold bt_remove; cbn [filter fst]; rewrite seqb_refl; reflexivity|]. destruct (before k k').
  - unfold bt_remove. cbn [filter fst]. rewrite seqb_refl. cbn [negb]. apply (remove_none k ((k', v') :: m)). exact H.
  - unfold bt_remove in *. cbn [filter fst]. destruct (seqb k' k) eqn:X; [apply seqb_eq in X; exfalso; apply H; left; auto|]. cbn [negb]. f_equal. apply IH. intro Y. apply H. right. auto.
Qed.
Lemma cell_good ents c : good_cell ents c -> good_attributes (cell_all c).
Proof.
  intros ((Hn & Ha) & Hc & _). unfold cell_all. destruct (wide c =? 1); [rewrite app_nil_r; split; auto|]. split.
  - rewrite map_app. cbn [map fst]. apply NoDup_Add with (a := slower (lit "colspan")) (l := map (fun kv : attribute => slower (fst kv)) (cell_attributes c)); [|split; auto].
    rewrite <- (app_nil_r (map _ (cell_attributes c))) at 1. apply Add_app.
  - intros k v Hi. apply in_app_or in Hi as [Hi|[Hi|[]]]; [apply (Ha k v Hi)|]. apply pair_equal_spec in Hi as [<- <-]. split; [|apply digits_cr]. left. vm_compute. tauto.
Qed.
Lemma cell_shown ents c : good_cell ents c ->
  match bt_get (shown_attributes (cell_all c)) (lit "colspan") with Some v => unwrap_or (parse_nonzero_u32 v) 1%N | None => 1%N end = N.of_nat (wide c) /\ bt_remove (shown_attributes (cell_all c)) (lit "colspan") = shown_attributes (cell_attributes c).
Proof.
  intros (_ & Hc & H1 & H2 & _). assert (Hm : ~ In (lit "colspan") (map fst (shown_attributes (cell_attributes c)))) by (intro X; apply Hc, shown_some; exact X).
  unfold cell_all. destruct (wide c =? 1) eqn:X; [apply Nat.eqb_eq in X; rewrite X, app_nil_r|].
  - rewrite get_missing by exact Hm. split; [reflexivity|]. apply remove_none. exact Hm.
  - assert (Y : shown_attributes (cell_attributes c ++ [(lit "colspan", digits (wide c))]) = put (lit "colspan", digits (wide c)) (shown_attributes (cell_attributes c))).
    { unfold shown_attributes. rewrite fold_left_app. reflexivity. }
    rewrite Y, get_put by exact Hm. rewrite digits_read by auto. split; [reflexivity|]. apply remove_put. exact Hm.
Qed.
Section Table.
Variable E : env.
Notation on := (on E). Notation ends := (ends E).
(** *** A line break before a block. *)
Lemma on_accept p sol cs a : with_accepts a (on p sol cs) = on (with_accepts a p) sol cs.
Proof. unfold BlocksParse.on. destruct (toks E cs) eqn:E1; [destruct (toks_ne _ _ E1)|reflexivity]. Qed.
Lemma wrap_on {A} fl (m : M A) p sol cs s a sol' cs' s' : m (on (with_accepts fl p) sol cs) s = ROk a (on (with_accepts fl p) sol' cs') s' -> wrap fl m (on p sol cs) s = ROk a (on p sol' cs') s'.
Proof.
  intro H. unfold wrap. rewrite on_accept, H, on_accepts, on_accept. f_equal. unfold BlocksParse.on. destruct (toks E cs') eqn:E1; [destruct (toks_ne _ _ E1)|]. reflexivity.
Qed.
Lemma skip_line n o x more p sol s br f : depth p < MAX_RECURSION_DEPTH -> good_name o -> In (fst x) [TWhitespace; TRightBlock] -> ends (line_piece :: open_piece false :: name_pieces o ++ x :: more) ->
  get_block_rule E (consume_n E n) o = Some (br, f) -> br_newlines br = true ->
  consume_n E (S n) (on p sol (line_piece :: open_piece false :: name_pieces o ++ x :: more)) s = ROk (PSu [] [] true) (on p true (open_piece false :: name_pieces o ++ x :: more)) s.
Proof.
  intros Hd Ho Hx He Hr Hl. set (cs := open_piece false :: name_pieces o ++ x :: more) in *.
  assert (Hf : forall q, block_skip E (consume_n E n) (on q sol (line_piece :: cs)) s = ROk (PSu [] [] true) (on q true cs) s).
  { intro q. unfold block_skip. destruct (step_on E q sol line_piece cs s) as [t Ht]. pose proof (bind_ok _ (fun current : xtoken => evaluate_fn (if match t_token current with TLeftBlock | TLeftBlockStar => true | _ => false end then let! (name, _) := get_block_name E false in ret match get_block_rule E (consume_n E n) name with Some (br, _) => br_newlines br | None => false end else ret false)) _ _ _ _ _ Ht) as _.
    assert (Ht2 : t_token t = TLeftBlock) by (unfold cs in Ht; unfold step, BlocksParse.on in Ht; cbn in Ht; injection Ht as <-; reflexivity).
    rewrite (bind_ok _ _ _ _ _ _ _ Ht). rewrite Ht2. cbn [fst line_piece line_start_token].
    assert (Hev : evaluate_fn (let! (name, _) := get_block_name E false in ret match get_block_rule E (consume_n E n) name with Some (br, _) => br_newlines br | None => false end) (on q true cs) s = ROk true (on q true cs) s).
    { unfold evaluate_fn. unfold get_block_name, cs. rewrite bind_assoc. erewrite bind_ok; [|apply (opt_yes E TLeftBlock q true (open_piece false)); reflexivity].
      rewrite bind_assoc. unfold get_optional_space. erewrite bind_ok; [|apply opt_no; intro X; apply (name_first_tok o (x :: more) Ho); rewrite X; cbn; tauto].
      erewrite bind_ok; [|apply name_read; auto; eapply ends_cons; eapply ends_cons; exact He]. cbv beta iota zeta. rewrite Hr, Hl. reflexivity. }
    rewrite (bind_ok _ _ _ _ _ _ _ Hev). reflexivity. }
  apply rule_consume with (name := "block-skip"%string) (f := block_skip E (consume_n E n)) (more := tl (rules_for E (consume_n E n) TLineBreak)) (r := "block-skip"%string); auto.
Qed.
(** *** Blocks in lines of their own. *)
Section Lines.
Variables (A : Type) (name : A -> String.string) (attributes : A -> list attribute) (inside : A -> list piece) (what : A -> elements).
Definition written (x : A) : list piece := tag_pieces (name x) (attributes x) (inside x).
Definition line_block (con : M (success elements)) (nm : String.string) : Prop := good_name (lit nm) /\ exists br f, get_block_rule E con (lit nm) = Some (br, f) /\ br_newlines br = true.
Lemma written_shape x : exists y more, written x = open_piece false :: name_pieces (lit (name x)) ++ y :: more /\ In (fst y) [TWhitespace; TRightBlock].
Proof.
  unfold written, tag_pieces, head_pieces. rewrite attributes_head. destruct (attributes x) as [|kv l]; cbn [app].
  - eexists right_piece, _. rewrite <- !app_assoc. split; [cbn [app]; reflexivity|cbn; tauto].
  - eexists blank_piece, _. rewrite <- !app_assoc. split; [cbn [app]; reflexivity|cbn; tauto].
Qed.
Definition taken (n : nat) (s : shared) (p : pstate) (x : A) : Prop := forall sol rest, ends (written x ++ rest) -> consume_n E n (on p sol (written x ++ rest)) s = ROk (PSu (what x) [] false) (on p false rest) s.
Definition turn (n : nat) (br : block_rule) : elements * list perr * bool * bool -> M ((elements * list perr * bool * bool) + success elements) :=
  fun '(all, errs, safe, first) =>
    let! r := verify_end_block E first br in
    match r with
    | Some _ => ret (inr (PSu all errs safe))
    | None =>
        let! old := gets rem in
        let! out := consume_n E (S n) in
        step_if_same old ;;
        ret (inl (all ++ su_item out, errs ++ su_errors out, safe && su_safe out, false))
    end.
Lemma lines_loop n br c s p rest : depth p < MAX_RECURSION_DEPTH -> br_newlines br = true -> good_name c -> existsb (eq_nocase c) (br_names br) = true -> (forall nm, In nm ["li"; "row"; "cell"; "hcell"]%string -> line_block (consume_n E n) nm) ->
  forall l, (forall x, In x l -> In (name x) ["li"; "row"; "cell"; "hcell"]%string /\ taken (S n) s p x) -> forall all safe sol k (start : bool),
  ends ((if start then [] else [line_piece]) ++ flat_map (fun x => written x ++ [line_piece]) l ++ close_pieces c ++ rest) -> 3 * length l + 1 < k ->
  loop k (turn n br) (all, [], safe, start) (on p sol ((if start then [] else [line_piece]) ++ flat_map (fun x => written x ++ [line_piece]) l ++ close_pieces c ++ rest)) s =
  ROk (PSu (all ++ flat_map what l) [] (match l with [] => safe | _ => false end)) (on p false rest) s.
Proof.
  intros Hd Hl Hc Hn Hnames. 
  assert (Hmove : forall x l (start : bool) all safe sol k, line_block (consume_n E n) (name x) -> taken (S n) s p x -> ends (flat_map (fun x => written x ++ [line_piece]) (x :: l) ++ close_pieces c ++ rest) -> 0 < k ->
     loop (S k) (turn n br) (all, [], safe, start) (on p sol (flat_map (fun x => written x ++ [line_piece]) (x :: l) ++ close_pieces c ++ rest)) s =
     loop k (turn n br) (all ++ what x, [], false, false) (on p false ([line_piece] ++ flat_map (fun x => written x ++ [line_piece]) l ++ close_pieces c ++ rest)) s).
  { intros x l start all safe sol k Hb Ht He Hk. cbn [flat_map] in *. rewrite <- !app_assoc in *. cbn [app] in *. destruct (written_shape x) as (y & more & Hw & Hy). cbn [loop]. unfold bind at 1. unfold turn at 1.
    assert (Hq : quiet (BlocksParse.first (written x ++ line_piece :: flat_map (fun x => written x ++ [line_piece]) l ++ close_pieces c ++ rest)) = true) by (rewrite Hw; reflexivity).
    rewrite (bind_ok _ _ _ _ _ _ _ (verify_go E start br p sol _ s Hq)). cbv iota. rewrite bind_gets. rewrite (bind_ok _ _ _ _ _ _ _ (Ht sol _ He)).
    unfold step_if_same at 1. rewrite bind_assoc, bind_gets. unfold same_pointer. rewrite !on_len. destruct (_ =? _) eqn:Y.
    { apply Nat.eqb_eq in Y. rewrite Hw in Y. cbn [app length] in Y. repeat (rewrite app_length in Y; cbn [length] in Y). lia. }
    unfold bind at 1. unfold ret at 1. unfold ret at 1. cbn [su_item su_errors su_safe app]. rewrite andb_false_r. reflexivity. }
  induction l as [|x l IH]; intros Hall all safe sol k start He Hk.
  - destruct k as [|k]; [cbn in Hk; lia|]. cbn [flat_map app] in *. cbn [loop]. unfold bind at 1. unfold turn at 1. rewrite app_nil_r. destruct start; cbn [app] in *.
    + destruct (verify_close E true br p sol c rest s Hc Hn He) as [t Ht]. rewrite (bind_ok _ _ _ _ _ _ _ Ht). reflexivity.
    + destruct (verify_line_close E br p sol c rest s Hl Hc Hn He) as [t Ht]. rewrite (bind_ok _ _ _ _ _ _ _ Ht). reflexivity.
  - destruct (Hall x (or_introl eq_refl)) as [Hx1 Hx2]. cbn [length] in Hk. destruct k as [|k]; [lia|].
    assert (Hlast : forall k all sol start, ends (flat_map (fun x => written x ++ [line_piece]) (x :: l) ++ close_pieces c ++ rest) -> 3 * length l + 2 < k -> loop k (turn n br) (all, [], safe, start) (on p sol (flat_map (fun x => written x ++ [line_piece]) (x :: l) ++ close_pieces c ++ rest)) s =
      ROk (PSu (all ++ flat_map what (x :: l)) [] false) (on p false rest) s).
    { intros k0 all0 sol0 start0 He0 Hk0. destruct k0 as [|k0]; [lia|]. rewrite Hmove; auto; [|lia]. rewrite (IH (fun y Hy => Hall y (or_intror Hy)) (all0 ++ what x) false false k0 false).
      - cbn [flat_map]. rewrite <- app_assoc. destruct l; reflexivity.
      - cbn [flat_map] in He0. rewrite <- !app_assoc in He0. cbn [app] in He0. apply ends_app in He0. exact He0.
      - lia. }
    destruct start; cbn [app] in He |- *; [apply Hlast; auto; lia|].
    destruct (written_shape x) as (y & more & Hw & Hy). remember (flat_map (fun x => written x ++ [line_piece]) (x :: l) ++ close_pieces c ++ rest) as cs eqn:Ecs. pose proof Ecs as Ecs2. cbn [flat_map] in Ecs2. rewrite Hw in Ecs2. cbn [app] in Ecs2. rewrite <- !app_assoc in Ecs2. cbn [app] in Ecs2.
    cbn [loop]. unfold bind at 1. unfold turn at 1.
    assert (Hv : verify_end_block E false br (on p sol (line_piece :: cs)) s = ROk None (on p sol (line_piece :: cs)) s).
    { unfold verify_end_block, save_evaluate_fn. rewrite Hl. cbn [negb andb]. unfold get_optional_line_break. erewrite bind_ok; [|apply opt_yes; reflexivity]. unfold get_end_block, bind. rewrite get_no; [reflexivity|]. rewrite Ecs2. discriminate. }
    rewrite (bind_ok _ _ _ _ _ _ _ Hv). cbv iota. rewrite bind_gets. destruct (Hnames _ Hx1) as (Hgn & br1 & f1 & Hr1 & Hnl).
    assert (Hs : consume_n E (S n) (on p sol (line_piece :: cs)) s = ROk (PSu [] [] true) (on p true cs) s) by (rewrite Ecs2; eapply skip_line; eauto; rewrite <- Ecs2; exact He).
    rewrite (bind_ok _ _ _ _ _ _ _ Hs). unfold step_if_same at 1. rewrite bind_assoc, bind_gets. unfold same_pointer. rewrite !on_len. destruct (_ =? _) eqn:Y; [apply Nat.eqb_eq in Y; cbn [length] in Y; lia|].
    unfold bind at 1. unfold ret at 1. unfold ret at 1. cbn [su_item su_errors su_safe app]. rewrite app_nil_r, andb_true_r. assert (Hec : ends cs) by (eapply ends_cons; exact He). clear -Hec Hlast Ecs Hk. subst cs. refine (Hlast k all true false Hec _). lia.
Qed.
Lemma lines_body n br c s p rest l : depth p < MAX_RECURSION_DEPTH -> br_newlines br = true -> good_name c -> existsb (eq_nocase c) (br_names br) = true -> (forall nm, In nm ["li"; "row"; "cell"; "hcell"]%string -> line_block (consume_n E n) nm) ->
  (forall x, In x l -> In (name x) ["li"; "row"; "cell"; "hcell"]%string /\ taken (S n) s p x) -> ends (flat_map (fun x => written x ++ [line_piece]) l ++ close_pieces c ++ rest) ->
  get_body_elements E (consume_n E (S n)) br false (on p true (flat_map (fun x => written x ++ [line_piece]) l ++ close_pieces c ++ rest)) s = ROk (PSu (flat_map what l) [] (match l with [] => true | _ => false end)) (on p false rest) s.
Proof.
  intros Hd Hl Hc Hn Hnames Hall He. unfold get_body_elements, get_body_no_paragraphs, looping. rewrite on_len. fold (turn n br).
  pose proof (lines_loop n br c s p rest Hd Hl Hc Hn Hnames l Hall [] true true) as X. cbn [app] in X. apply X with (start := true); [exact He|].
  assert (Y : 3 * length l <= length (flat_map (fun x => written x ++ [line_piece]) l)).
  { clear Hall He X. induction l as [|x l IH]; [cbn; lia|]. cbn [flat_map length]. rewrite !app_length. cbn [length]. destruct (written_shape x) as (y & more & -> & _). cbn [length]. rewrite app_length. cbn [length]. lia. }
  rewrite !app_length. unfold close_pieces. cbn [length app]. lia.
Qed.
End Lines.
(** *** One block. *)
Lemma tag_consume n nm a inside p sol rest s br f out sol1 body : good_name (lit nm) -> good_attributes a -> depth p < MAX_RECURSION_DEPTH -> ends (tag_pieces nm a inside ++ rest) ->
  get_block_rule E (consume_n E n) (lit nm) = Some (br, f) -> br_newlines br = true ->
  (sol1 = true /\ inside ++ close_pieces (lit nm) ++ rest = line_piece :: body \/
   sol1 = false /\ inside ++ close_pieces (lit nm) ++ rest = body /\ BlocksParse.first body <> TLineBreak /\ (a = [] -> BlocksParse.first body <> TWhitespace)) ->
  (forall q, accepts_partial q = accepts_partial p -> check_partials (su_item out) q = None) ->
  (forall q h cs0, accepts_partial q = accepts_partial p -> depth q = S (depth p) -> (forall q', get_head_map E br h (on q' false cs0) s = ROk a (on q' sol1 body) s) -> f br (lit nm) false false h (on q false cs0) s = ROk out (on q false rest) s) ->
  consume_n E (S n) (on p sol (tag_pieces nm a inside ++ rest)) s = ROk out (on p false rest) s.
Proof.
  intros Hn Ha Hd He Hr Hl Hb Hp Hf. unfold tag_pieces in *. rewrite <- !app_assoc in *.
  assert (Hw : a = [] -> BlocksParse.first (inside ++ close_pieces (lit nm) ++ rest) <> TWhitespace) by (destruct Hb as [[_ ->]|(_ & -> & _ & X)]; [discriminate|exact X]).
  destruct (map_head E (consume_n E n) false (with_rule "block" (pushed p)) sol (lit nm) a (inside ++ close_pieces (lit nm) ++ rest) s br f) as (h & cs0 & Hh & Hm); auto.
  { apply good_attributes_names; auto. } { apply good_nodup; auto. } { rewrite andb_false_r. reflexivity. }
  apply head_consume_g with (r := br_name br); auto; [|rewrite !app_length; lia].
  rewrite Hh. apply Hf; [reflexivity|reflexivity|]. intro q'. destruct (Hm q') as [M1 M2]. destruct Hb as [[-> Hb]|(-> & Hb & Hx & _)]; [apply M2; auto|]. rewrite Hb in M1. apply M1. intros _. exact Hx.
Qed.
(** Inside, inline text. *)
Lemma inside_read n br l q c rest s : good_inside (en_entity E) l -> Forall (fun x => inline_height x < n) l -> depth q + n <= MAX_RECURSION_DEPTH -> ends (flat_map inline_pieces l ++ close_pieces c ++ rest) ->
  good_name c -> existsb (eq_nocase c) (br_names br) = true ->
  get_body_elements E (consume_n E n) br false (on q false (flat_map inline_pieces l ++ close_pieces c ++ rest)) s = ROk (PSu (flat_map (els E) l) [] true) (on q false rest) s.
Proof.
  intros Hl Hh Hd He Hc Hn. assert (Hov : over (BlocksParse.first (close_pieces c ++ rest))) by (cbn; tauto). destruct (par_run E s l n q false (close_pieces c ++ rest) Hl Hh Hd He Hov) as [sol' Hst].
  eapply body_read; eauto. eapply ends_app; eauto.
Qed.
Lemma inside_first l a c rest : good_inside (en_entity E) l -> (a = [] :> list attribute -> starts_flush l) ->
  BlocksParse.first (flat_map inline_pieces l ++ close_pieces c ++ rest) <> TLineBreak /\ (a = [] -> BlocksParse.first (flat_map inline_pieces l ++ close_pieces c ++ rest) <> TWhitespace).
Proof.
  intros Hl Hf. assert (Hov : over (BlocksParse.first (close_pieces c ++ rest))) by (cbn; tauto). split.
  - destruct (inlines_first E l (close_pieces c ++ rest) Hl) as [[_ X] | ->]; [exact X|discriminate].
  - intro Ea. apply (inlines_flush E); auto. apply Hl.
Qed.
Lemma name_ok nm : forallb is_alnum (lit nm) = true -> lit nm <> [] -> good_name (lit nm). Proof. apply lit_name. Qed.
Ltac named_ok := apply name_ok; [reflexivity|discriminate].
Definition item_el (i : list attribute * list inline) : list_item := LIElements (shown_attributes (fst i)) (flat_map (els E) (snd i)).
Lemma item_consume n i p sol rest s : good_item (en_entity E) i -> highest inline_height (snd i) < n -> depth p + S n <= MAX_RECURSION_DEPTH -> accepts_partial p = APListItem -> ends (item_pieces i ++ rest) ->
  consume_n E (S n) (on p sol (item_pieces i ++ rest)) s = ROk (PSu [EPartial (PListItem (item_el i))] [] false) (on p false rest) s.
Proof.
  intros (Ha & Hf & Hap & Hg) Hh Hd Hacc He. destruct i as [a l]. cbn [fst snd] in *. unfold item_pieces in *. cbn [fst snd] in *.
  assert (Hh' : Forall (fun x => inline_height x < n) l) by (clear -Hh; unfold highest in Hh; induction l as [|x l IH]; constructor; cbn [fold_right] in Hh; [lia|apply IH; lia]).
  destruct (inside_first l a (lit "li") rest (conj Hap Hg) Hf) as [H1 H2].
  pose proof (ends_app E _ _ (eq_ind _ ends He _ (app_assoc_reverse _ _ _))) as Hei. rewrite <- app_assoc in Hei.
  eapply (tag_consume n "li" a (flat_map inline_pieces l) p sol rest s); [named_ok|exact Ha|lia|exact He|reflexivity|reflexivity|right; split; [reflexivity|split; [reflexivity|split; [exact H1|exact H2]]]| |].
  - intros q Hq. cbn [su_item check_partials]. rewrite Hq, Hacc. reflexivity.
  - intros q h cs0 _ Hdq Hm. unfold blk_li. erewrite bind_ok; [|apply assert_ok; reflexivity]. rewrite (bind_ok _ _ _ _ _ _ _ (Hm _)). rewrite (bind_ok _ _ _ _ _ _ _ (attrs_read E a _ s Ha)).
    erewrite bind_ok; [|apply inside_read; [split; [exact Hap|exact Hg]|exact Hh'|lia|exact Hei|named_ok|reflexivity]]. reflexivity.
Qed.
Definition cell_el (c : cell) : table_cell := TC (heading c) (N.of_nat (wide c)) None (shown_attributes (cell_attributes c)) (flat_map (els E) (contents c)).
Lemma table_read br nm h a (q : pstate) cs0 sol1 body s es safe rest con : existsb (eq_nocase (lit nm)) (br_names br) = true -> good_attributes a -> (forall q', get_head_map E br h (on q' false cs0) s = ROk a (on q' sol1 body) s) ->
  get_body_elements E con br false (on q sol1 body) s = ROk (PSu es [] safe) (on q false rest) s -> table_block E con br (lit nm) h (on q false cs0) s = ROk (es, shown_attributes a, []) (on q false rest) s.
Proof.
  intros Hn Ha Hm Hb. unfold table_block. erewrite bind_ok; [|apply assert_ok; exact Hn]. rewrite (bind_ok _ _ _ _ _ _ _ (Hm _)). rewrite (bind_ok _ _ _ _ _ _ _ (attrs_read E a _ s Ha)). rewrite (bind_ok _ _ _ _ _ _ _ Hb). reflexivity.
Qed.
Lemma firm_starts l : firm l -> starts_flush l.
Proof. intros [H _] t r -> c u -> X. specialize (H _ _ eq_refl c u eq_refl). unfold visible in H. cbn in X. destruct X as [<-|[<-|[]]]; lia. Qed.
Lemma cell_consume n c p sol rest s : good_cell (en_entity E) c -> highest inline_height (contents c) < n -> depth p + S n <= MAX_RECURSION_DEPTH -> accepts_partial p = APTableCell -> ends (cell_pieces c ++ rest) ->
  consume_n E (S n) (on p sol (cell_pieces c ++ rest)) s = ROk (PSu [EPartial (PTableCell (cell_el c))] [] false) (on p false rest) s.
Proof.
  intros Hc Hh Hd Hacc He. pose proof (cell_good _ _ Hc) as Ha. pose proof (cell_shown _ _ Hc) as [Hw Hr]. pose proof Hc as (_ & _ & _ & _ & Hf & Hap & Hg). pose proof (firm_strip E _ _ Hg Hf) as Hs. unfold cell_pieces in *.
  assert (Hh' : Forall (fun x => inline_height x < n) (contents c)) by (clear -Hh; unfold highest in Hh; induction (contents c) as [|x l IH]; constructor; cbn [fold_right] in Hh; [lia|apply IH; lia]).
  destruct (inside_first (contents c) (cell_all c) (lit (cell_name c)) rest (conj Hap Hg) (fun _ => firm_starts _ Hf)) as [H1 H2].
  pose proof (ends_app E _ _ (eq_ind _ ends He _ (app_assoc_reverse _ _ _))) as Hei. rewrite <- app_assoc in Hei.
  assert (Hmk : forall q, make_cell (heading c) (flat_map (els E) (contents c)) (shown_attributes (cell_all c)) [] q s = ROk (PSu [EPartial (PTableCell (cell_el c))] [] false) q s).
  { intro q. unfold make_cell. rewrite Hw, Hr, Hs. reflexivity. }
  unfold cell_name in *. destruct (heading c) eqn:Eh.
  - eapply (tag_consume n "hcell" (cell_all c) _ p sol rest s); [named_ok|exact Ha|lia|exact He|reflexivity|reflexivity|right; split; [reflexivity|split; [reflexivity|split; [exact H1|exact H2]]]| |].
    + intros q Hq. cbn [su_item check_partials]. rewrite Hq, Hacc. reflexivity.
    + intros q h cs0 Hqa Hdq Hm. unfold blk_hcell. apply wrap_on. erewrite bind_ok; [|eapply table_read; [reflexivity|exact Ha|exact Hm|apply inside_read; [split; [exact Hap|exact Hg]|exact Hh'|cbn [depth with_accepts]; lia|exact Hei|named_ok|reflexivity]]]. apply Hmk.
  - eapply (tag_consume n "cell" (cell_all c) _ p sol rest s); [named_ok|exact Ha|lia|exact He|reflexivity|reflexivity|right; split; [reflexivity|split; [reflexivity|split; [exact H1|exact H2]]]| |].
    + intros q Hq. cbn [su_item check_partials]. rewrite Hq, Hacc. reflexivity.
    + intros q h cs0 Hqa Hdq Hm. unfold blk_cell. erewrite bind_ok; [|eapply table_read; [reflexivity|exact Ha|exact Hm|apply inside_read; [split; [exact Hap|exact Hg]|exact Hh'|lia|exact Hei|named_ok|reflexivity]]]. apply Hmk.
Qed.
Lemma line_blocks con nm : In nm ["li"; "row"; "cell"; "hcell"]%string -> line_block con nm.
Proof. intro H. cbn [In] in H. destruct H as [<-|[<-|[<-|[<-|[]]]]]; (split; [named_ok|]; eexists; eexists; split; reflexivity). Qed.
Lemma highest_lt {A} (f : A -> nat) l n : highest f l < n -> forall x, In x l -> f x < n.
Proof. unfold highest. induction l as [|y l IH]; intros H x Hx; [destruct Hx|]. cbn [fold_right] in H. destruct Hx as [->|Hx]; [lia|]. apply IH; auto. lia. Qed.
Lemma each_ends {A} nm a (f : A -> list piece) l rest : ends (tag_pieces nm a (each_pieces f l) ++ rest) -> ends (flat_map (fun x => f x ++ [line_piece]) l ++ close_pieces (lit nm) ++ rest).
Proof. intro H. unfold tag_pieces, each_pieces in H. rewrite <- !app_assoc in H. apply ends_app in H. cbn [app] in H. apply ends_cons in H. exact H. Qed.
Definition row_el (r : list attribute * list cell) : table_row := TR (shown_attributes (fst r)) (map cell_el (snd r)).
Lemma cells_extract cs : extract_items (fun p => match p with PTableCell c => Some c | _ => None end) (flat_map (fun c => [EPartial (PTableCell (cell_el c))]) cs) = Some (map cell_el cs).
Proof. induction cs as [|c cs IH]; [reflexivity|]. cbn [flat_map app extract_items map]. rewrite IH. reflexivity. Qed.
Lemma rows_extract rs : extract_items (fun p => match p with PTableRow r => Some r | _ => None end) (flat_map (fun r => [EPartial (PTableRow (row_el r))]) rs) = Some (map row_el rs).
Proof. induction rs as [|c rs IH]; [reflexivity|]. cbn [flat_map app extract_items map]. rewrite IH. reflexivity. Qed.
Lemma row_consume n r p sol rest s : good_row (en_entity E) r -> highest (fun c => highest inline_height (contents c)) (snd r) < n -> depth p + S (S n) <= MAX_RECURSION_DEPTH -> accepts_partial p = APTableRow -> ends (row_pieces r ++ rest) ->
  consume_n E (S (S n)) (on p sol (row_pieces r ++ rest)) s = ROk (PSu [EPartial (PTableRow (row_el r))] [] false) (on p false rest) s.
Proof.
  intros [Ha Hc] Hh Hd Hacc He. destruct r as [a cs]. cbn [fst snd] in *. pose proof (each_ends "row" a cell_pieces cs rest He) as Hei. unfold row_pieces in *. cbn [fst snd] in *.
  eapply (tag_consume (S n) "row" a (each_pieces cell_pieces cs) p sol rest s); [named_ok|exact Ha|lia|exact He|reflexivity|reflexivity|left; split; reflexivity| |].
  - intros q Hq. cbn [su_item check_partials]. rewrite Hq, Hacc. reflexivity.
  - intros q h cs0 Hqa Hdq Hm. unfold blk_row. apply wrap_on. 
    pose proof (lines_body cell cell_name cell_all (fun c => flat_map inline_pieces (contents c)) (fun c => [EPartial (PTableCell (cell_el c))]) n (BR "block-table-row" [lit "row"] false false true) (lit "row") s (with_accepts APTableCell q) rest cs) as Hb.
    erewrite bind_ok; [|eapply table_read; [reflexivity|exact Ha|exact Hm|apply Hb; [cbn [depth with_accepts]; lia|reflexivity|named_ok|reflexivity|intros; apply line_blocks; auto| |exact Hei]]].
    + cbv beta iota zeta. rewrite cells_extract. reflexivity.
    + intros c Hin. rewrite Forall_forall in Hc. split; [unfold cell_name; destruct (heading c); cbn; tauto|]. intros sl rs Hes. apply cell_consume; auto; [|cbn [depth with_accepts]; lia]. exact (highest_lt (fun c => highest inline_height (contents c)) cs n Hh c Hin).
Qed.
Definition grid_el (a : list attribute) (rs : list (list attribute * list cell)) : Tree.element := ETable (shown_attributes a) (map row_el rs).
Lemma grid_consume n a rs p sol rest s : good_block (en_entity E) (Grid a rs) -> block_height (Grid a rs) < n -> depth p + n <= MAX_RECURSION_DEPTH -> ends (block_pieces (Grid a rs) ++ rest) ->
  consume_n E n (on p sol (block_pieces (Grid a rs) ++ rest)) s = ROk (PSu [grid_el a rs] [] false) (on p false rest) s.
Proof.
  intros [Ha Hr] Hh Hd He. cbn [block_height] in Hh. destruct n as [|[|[|n]]]; [lia..|]. cbn [block_pieces] in *. pose proof (each_ends "table" a row_pieces rs rest He) as Hei.
  eapply (tag_consume (S (S n)) "table" a (each_pieces row_pieces rs) p sol rest s); [named_ok|exact Ha|lia|exact He|reflexivity|reflexivity|left; split; reflexivity|reflexivity|].
  intros q h cs0 Hqa Hdq Hm. unfold blk_table. apply wrap_on.
  pose proof (lines_body _ (fun _ => "row"%string) fst (fun r => each_pieces cell_pieces (snd r)) (fun r => [EPartial (PTableRow (row_el r))]) (S n) (BR "block-table" [lit "table"] false false true) (lit "table") s (with_accepts APTableRow q) rest rs) as Hb.
  erewrite bind_ok; [|eapply table_read; [reflexivity|exact Ha|exact Hm|apply Hb; [cbn [depth with_accepts]; lia|reflexivity|named_ok|reflexivity|intros; apply line_blocks; auto| |exact Hei]]].
  - cbv beta iota zeta. rewrite rows_extract. reflexivity.
  - intros r Hin. rewrite Forall_forall in Hr. split; [cbn; tauto|]. intros sl rs' Hes. apply row_consume; auto; [|cbn [depth with_accepts]; lia]. apply (highest_lt (fun r => highest (fun c => highest inline_height (contents c)) (snd r)) rs n); [lia|auto].
Qed.
Definition items_el (numbered : bool) (a : list attribute) (items : list (list attribute * list inline)) : Tree.element := EList (if numbered then LNumbered else LBullet) (shown_attributes a) (map item_el items).
Lemma items_list l : list_items (flat_map (fun i => [EPartial (PListItem (item_el i))]) l) = Some (map item_el l).
Proof. induction l as [|i l IH]; [reflexivity|]. cbn [flat_map app list_items map]. rewrite IH. reflexivity. Qed.
Lemma items_consume n b a items p sol rest s : good_block (en_entity E) (Items b a items) -> block_height (Items b a items) < n -> depth p + n <= MAX_RECURSION_DEPTH -> ends (block_pieces (Items b a items) ++ rest) ->
  consume_n E n (on p sol (block_pieces (Items b a items) ++ rest)) s = ROk (PSu [items_el b a items] [] false) (on p false rest) s.
Proof.
  intros (Ha & Hne & Hi) Hh Hd He. cbn [block_height] in Hh. destruct n as [|[|n]]; [lia..|]. cbn [block_pieces] in *. pose proof (each_ends (list_name b) a item_pieces items rest He) as Hei.
  assert (Hfl : flat_map (fun i => [EPartial (PListItem (item_el i))]) items <> []) by (destruct items; [congruence|discriminate]).
  unfold list_name in *. destruct b.
  - eapply (tag_consume (S n) "ol" a (each_pieces item_pieces items) p sol rest s); [named_ok|exact Ha|lia|exact He|reflexivity|reflexivity|left; split; reflexivity|reflexivity|].
    intros q h cs0 Hqa Hdq Hm. unfold blk_list. apply wrap_on. erewrite bind_ok; [|apply assert_ok; reflexivity]. rewrite (bind_ok _ _ _ _ _ _ _ (Hm _)). rewrite (bind_ok _ _ _ _ _ _ _ (attrs_read E a _ s Ha)).
    pose proof (lines_body _ (fun _ => "li"%string) fst (fun i : list attribute * list inline => flat_map inline_pieces (snd i)) (fun i => [EPartial (PListItem (item_el i))]) n (BR "block-list-ordered" [lit "ol"] false true true) (lit "ol") s (with_accepts APListItem q) rest items) as Hb.
    erewrite bind_ok; [|apply Hb; [cbn [depth with_accepts]; lia|reflexivity|named_ok|reflexivity|intros; apply line_blocks; auto| |exact Hei]].
    + cbv beta iota zeta. cbn [su_item]. rewrite items_list. destruct (flat_map (fun i => [EPartial (PListItem (item_el i))]) items); [destruct Hfl; reflexivity|]. reflexivity.
    + intros i Hin. rewrite Forall_forall in Hi. split; [cbn; tauto|]. intros sl rs' Hes. apply item_consume; auto; [|cbn [depth with_accepts]; lia]. apply (highest_lt (fun i => highest inline_height (snd i)) items n); [lia|auto].
  - eapply (tag_consume (S n) "ul" a (each_pieces item_pieces items) p sol rest s); [named_ok|exact Ha|lia|exact He|reflexivity|reflexivity|left; split; reflexivity|reflexivity|].
    intros q h cs0 Hqa Hdq Hm. unfold blk_list. apply wrap_on. erewrite bind_ok; [|apply assert_ok; reflexivity]. rewrite (bind_ok _ _ _ _ _ _ _ (Hm _)). rewrite (bind_ok _ _ _ _ _ _ _ (attrs_read E a _ s Ha)).
    pose proof (lines_body _ (fun _ => "li"%string) fst (fun i : list attribute * list inline => flat_map inline_pieces (snd i)) (fun i => [EPartial (PListItem (item_el i))]) n (BR "block-list-unordered" [lit "ul"] false true true) (lit "ul") s (with_accepts APListItem q) rest items) as Hb.
    erewrite bind_ok; [|apply Hb; [cbn [depth with_accepts]; lia|reflexivity|named_ok|reflexivity|intros; apply line_blocks; auto| |exact Hei]].
    + cbv beta iota zeta. cbn [su_item]. rewrite items_list. destruct (flat_map (fun i => [EPartial (PListItem (item_el i))]) items); [destruct Hfl; reflexivity|]. reflexivity.
    + intros i Hin. rewrite Forall_forall in Hi. split; [cbn; tauto|]. intros sl rs' Hes. apply item_consume; auto; [|cbn [depth with_accepts]; lia]. apply (highest_lt (fun i => highest inline_height (snd i)) items n); [lia|auto].
Qed.
End Table.
