(** RulesLemmas.v -- every rule of Rules.v preserves the invariant. *)
From Verif Require Import Base BaseLemmas Strings StringsLemmas PropStrings Links SpecLinks LinksLemmas PropLinks Attr SpecAttr AttrLemmas
  Lexer SpecLexer LexerLemmas Depth SpecDepth DepthLemmas Tree TreeLemmas Text PState Blocks Rules SpecParse ParseInv PStateLemmas BlocksLemmas BlocksLemmas2.

Lemma depth_item_ind' {L T} (P : depth_item L T -> Prop) :
  (forall t, P (DItem t)) -> (forall l items, Forall P items -> P (DList l items)) -> forall it, P it.
Proof.
  intros H1 H2. fix IH 1. intros [t|l items]; [apply H1|]. apply H2.
  revert items. fix IHl 1. intros [|x items]; constructor; auto.
Qed.

(** *** The text renderer, with its inner loops named. *)
Section T.
Variables (site : str) (df : date_item -> option str).
Notation t_element := (t_element site df).
Notation t_elements := (t_elements site df).
Fixpoint t_cells (cells : list table_cell) (c : tctx) : option tctx :=
  match cells with
  | [] => Some c
  | x :: cells' => let? c := t_elements (tc_elements x) c in t_cells cells' c
  end.
Fixpoint t_rows (rows : list table_row) (c : tctx) : option tctx :=
  match rows with
  | [] => Some c
  | r :: rows' => let? c := t_cells (tr_cells r) c in t_rows rows' (t_newline c)
  end.
Fixpoint t_tabs (tabs : list tab) (c : tctx) : option tctx :=
  match tabs with
  | [] => Some c
  | t :: tabs' =>
      let? c := t_elements (tab_elements t) (t_newline (t_push (tab_label t) c)) in
      t_tabs tabs' (t_newline c)
  end.
Fixpoint t_items (items : list list_item) (c : tctx) : option tctx :=
  match items with
  | [] => Some c
  | LISubList x :: items' => let? c := t_element x c in t_items items' c
  | LIElements _ [] :: items' => t_items items' c
  | LIElements _ es :: items' => let? c := t_elements es c in t_items items' (t_newline c)
  end.
Fixpoint t_defs (items : list def_item) (c : tctx) : option tctx :=
  match items with
  | [] => Some c
  | d :: items' =>
      let? c := t_elements (df_key d) c in
      let? c := t_elements (df_value d) (t_push [32%N] c) in
      t_defs items' (t_newline c)
  end.
Variable P : Prop.
Definition T1 (e : element) : Prop := forall c, t_element e c = None -> P.
Lemma T_elements es : Forall T1 es -> forall c, t_elements es c = None -> P.
Proof.
  induction 1 as [|e es He Hes IH]; intros c; cbn [Text.t_elements]; [discriminate|].
  destruct (t_element e c) eqn:Ee; [apply IH|]. intros _. eapply He; eauto.
Qed.
Lemma T_cells cells : Forall T1 (flat_map tc_elements cells) -> forall c, t_cells cells c = None -> P.
Proof.
  induction cells as [|x cells IH]; cbn [flat_map t_cells]; intros H c; [discriminate|]. apply Forall_app in H as [H1 H2].
  destruct (t_elements (tc_elements x) c) eqn:Ee; [apply IH; auto|]. intros _. eapply T_elements; [|eassumption]; assumption.
Qed.
Lemma T_rows rows : Forall T1 (flat_map row_children rows) -> forall c, t_rows rows c = None -> P.
Proof.
  induction rows as [|x rows IH]; cbn [flat_map t_rows]; intros H c; [discriminate|]. apply Forall_app in H as [H1 H2].
  destruct (t_cells (tr_cells x) c) eqn:Ee; [apply IH; auto|]. intros _. eapply T_cells; [|eassumption]; assumption.
Qed.
Lemma T_tabs tabs : Forall T1 (flat_map tab_elements tabs) -> forall c, t_tabs tabs c = None -> P.
Proof.
  induction tabs as [|x tabs IH]; cbn [flat_map t_tabs]; intros H c; [discriminate|]. apply Forall_app in H as [H1 H2].
  destruct (t_elements _ _) eqn:Ee; [apply IH; auto|]. intros _. eapply T_elements; [|eassumption]; assumption.
Qed.
Lemma T_items items : Forall T1 (flat_map item_children items) -> forall c, t_items items c = None -> P.
Proof.
  induction items as [|x items IH]; cbn [flat_map t_items]; intros H c; [discriminate|]. apply Forall_app in H as [H1 H2].
  destruct x as [a [|e es]|x]; [apply IH; auto| |].
  - destruct (t_elements _ _) eqn:Ee; [apply IH; auto|]. intros _. eapply T_elements; [|eassumption]; assumption.
  - destruct (t_element x c) eqn:Ee; [apply IH; auto|]. intros _. cbn in H1. inversion H1; subst. eapply H3; eauto.
Qed.
Lemma T_defs items : Forall T1 (flat_map def_children items) -> forall c, t_defs items c = None -> P.
Proof.
  induction items as [|x items IH]; cbn [flat_map t_defs]; intros H c; [discriminate|]. apply Forall_app in H as [H1 H2].
  apply Forall_app in H1 as [H0 H1].
  destruct (t_elements (df_key x) _) eqn:Ek; [|intros _; eapply T_elements; [|eassumption]; assumption].
  destruct (t_elements (df_value x) _) eqn:Ev; [apply IH; auto|intros _; eapply T_elements; [|eassumption]; assumption].
Qed.
Ltac tdone H := let X := fresh in intros ? X; eapply H; [eassumption|exact X].
Lemma T_element e : Forall T1 (children e) -> (forall x, e = EPartial x -> P) ->
  (forall lt u ex ta, e = ELink lt (LUrl u) ex LabelPage ta -> P) -> T1 e.
Proof.
  intros H Hp Hl. unfold T1.
  assert (Hes : forall es, children e = es -> forall c, t_elements es c = None -> P) by (intros ? <-; apply T_elements; auto).
  destruct e; cbn [children] in H, Hes; try (intros ? X; discriminate X).
  - specialize (Hes _ eq_refl). intros c X.
    assert (Y : exists c', t_elements elements c' = None); [|destruct Y as [c' Y]; eapply Hes; eauto].
    cbn [Text.t_element] in X.
    destruct ctype; try discriminate X;
      try (eexists; exact X);
      match type of X with (match ?m with _ => _ end = None) => destruct m eqn:Em; [discriminate X|] end; eexists; exact Em.
  - intros c X. cbn [Text.t_element] in X. change (match t_rows rows (t_fresh_line c) with Some c => Some (t_newline c) | None => None end = None) in X.
    destruct (t_rows rows (t_fresh_line c)) eqn:Er; [discriminate X|]. eapply T_rows; eauto.
  - intros c X. change (t_tabs tabs c = None) in X. eapply T_tabs; eauto.
  - intros c X. eapply (Hes _ eq_refl c). exact X.
  - intros c X. cbn [Text.t_element] in X. destruct (get_link_label site link label) eqn:Eg; [discriminate|].
    unfold get_link_label in Eg. destruct label as [t|[t|]|]; try discriminate; destruct link as [r|u]; try discriminate.
    eapply Hl. reflexivity.
  - intros c X. change (t_items items (t_fresh_line c) = None) in X. eapply T_items; eauto.
  - intros c X. change (match t_defs items c with Some c => Some (t_newline c) | None => None end = None) in X.
    destruct (t_defs items c) eqn:Er; [discriminate X|]. eapply T_defs; eauto.
  - intros c X. eapply (Hes _ eq_refl c). exact X.
  - intros c X. eapply (Hes _ eq_refl c). exact X.
  - intros c X. cbn [Text.t_element] in X. match type of X with (match ?m with _ => _ end = None) => destruct m eqn:Em; [discriminate X|] end.
    eapply (Hes _ eq_refl _). exact Em.
  - intros _ _. eapply Hp. reflexivity.
Qed.
End T.

Section R.
Variables (E : env) (toks : list xtoken).
Hypothesis Htoks : extract_all (en_text E) = Some toks.
Variable d : nat.
Notation inv := (inv E toks d).
Notation G := (G E toks d).
Notation genuine := (genuine toks).
Notation allowed := (possible_panic E toks).
Notation els := (els E toks).
Notation elsR := (elsR E toks).
Notation succ := (succ E toks).
Notation rsucc := (rsucc E toks).
Notation okE := (okE E toks).
Notation okR := (okR E toks).
Notation text := (en_text E).
Notation element_ok := (element_ok E toks).

(** *** The text renderer only fails on leftover partials and on page labels of URLs. *)
Lemma render_none n fb F A e : okE n fb F A e -> T1 (en_site E) (en_date_format E) (has_link toks \/ has_block toks) e.
Proof.
  intros H. induction H as [A e H1 H2 H3 IH] using okE_ind'. apply T_element; auto.
  - intros x Hx. destruct (H2 x Hx). auto.
  - intros lt u ex ta ->. left. destruct H1 as [_ [H1|(_ & H1 & _)]]; [exact H1|congruence].
Qed.
Lemma text_render_none c s0 p s es : els c s0 p s es -> text_render (en_site E) (en_date_format E) es = None ->
  has_link toks \/ has_block toks.
Proof.
  intros [H _] Hr. unfold text_render in Hr. destruct (t_elements _ _ es _) eqn:Et; [discriminate|].
  eapply T_elements; [|exact Et]. eapply Forall_impl; [|exact H]. intros e He. eapply render_none; eauto.
Qed.
Lemma G_push_toc c s0 es level p s : inv c p s -> els c s0 p s es -> 1 <= level <= 6 -> has_token toks THeading ->
  G c (push_toc E level es) p s (fun _ p' s' => nf s' = nf s /\ nb s' = nb s /\ p' = p).
Proof.
  intros Hi He Hl Ht. unfold ParseInv.G, push_toc. destruct (text_render _ _ es) as [name|] eqn:Er.
  - set (s' := SH (sh_toc s ++ [(level - 1, name)]) (sh_html s) (sh_code s) (sh_footnotes s) (sh_bibs s)).
    assert (Hx : ext s s') by (repeat split; try apply extends_refl; exists [(level - 1, name)]; auto).
    split; [|split; [split; auto|auto]].
    eapply inv_shared; eauto. destruct Hi as [_ _ _ _ _ []]. split; auto. cbn. apply Forall_app. split; auto.
    constructor; auto. cbn. lia.
  - split; auto. eapply text_render_none; eauto.
Qed.

Variable consume : M (success elements).
Hypothesis Hc : forall c p s, inv c p s ->
  G c consume p s (fun out p' s' => succ c s p' s' out /\ length (rem p') < length (rem p)).

Notation rgo m := (forall c p s, inv c p s -> G c m p s (fun out p' s' => rsucc c s p' s' out)).
Ltac leaf := first [eapply G_leaf_|eapply G_leaf_f]; [eassumption|ext_tac|split; [cbn [attrs_of]; first [constructor; fail|apply nattr|idtac]|cbn; auto]|reflexivity|reflexivity|discriminate].
Ltac cs := eapply G_bind_; [apply G_check_step; [eassumption|left; assumption]|]; let a := fresh "a" in let p := fresh "p" in let s := fresh "s" in let I := fresh "I" in let A := fresh "A" in let H := fresh "H" in intros a p s I A H.
Ltac noded H := eapply G_node_d; [exact H|ext_tac|advt|assumption|cbn [children]; sub_tac| |reflexivity|first [discriminate|auto]].
Ltac nodef H := eapply G_node_f; [exact H|ext_tac|advt|assumption|cbn [children]; sub_tac| |reflexivity|first [discriminate|auto]|].
Lemma G_nothing c s0 p s : inv c p s -> ext s0 s -> G c (ok_derived [] []) p s (fun out p' s' => rsucc c s0 p' s' out).
Proof. intros Hi Hx. apply G_ok_derived; auto. apply els_elsR, els_nil, Hx. Qed.

Lemma Q_anchor c p s : inv c p s -> cur_tok p = TLeftBlockAnchor -> G c (rule_anchor E) p s (fun out p' s' => rsucc c s p' s' out).
Proof. intros Hi Ht. unfold rule_anchor. cs. gs G_get_token. gs G_collect_text. leaf. split; [eexists; split; [|reflexivity]; auto|left; rewrite <- Ht; eapply inv_has; eauto]. Qed.
Lemma Q_bibcite c p s : inv c p s -> cur_tok p = TLeftParentheses \/ cur_tok p = TRightParentheses ->
  G c (rule_bibcite E) p s (fun out p' s' => rsucc c s p' s' out).
Proof.
  intros Hi Ht. unfold rule_bibcite. eapply G_bind_; [apply G_check_step; [exact Hi|]|].
  { destruct Ht as [Ht|Ht]; auto. right. cbn. rewrite <- Ht. eapply inv_has; eauto. }
  intros a p1 s1 I1 A1 (_ & Hl & _). assert (Hpar : has_token toks TLeftParentheses) by (rewrite <- Hl; eapply inv_has; eauto). apply G_gets_bind. destruct (_ && _); [apply G_fail; auto|].
  gs G_step_. apply G_gets_bind. destruct (negb _); [apply G_fail; auto|]. gs G_step_. gs G_collect_text. leaf.
Qed.
Lemma Q_format c p s ct t : plain_ct ct -> block_container ct = false -> inv c p s -> cur_tok p = t -> G c (rule_format consume ct t) p s (fun out p' s' => rsucc c s p' s' out).
Proof.
  intros Hct Hbc Hi Ht. unfold rule_format. cs. eapply G_conseq.
  { eapply G_collect_container; eauto. intros. apply container_ok; auto; [split; [constructor|intros ? ? []]|congruence]. }
  cbn beta. intros out p2 s2 I2 A2 [[[H1 H2] H3] _]. split; auto. split; auto.
  assert (X : ext s s0) by ext_tac. apply ext_nf in X. lia.
Qed.
(** Moving a result to an earlier table state. *)
Lemma rsucc_before c s0 s1 p s out : ext s0 s1 -> rsucc c s1 p s out -> rsucc c s0 p s out.
Proof. intros X [[H1 H2] H3]. split; auto. split; auto. apply ext_nf in X. lia. Qed.
Lemma Q_monospace c p s : inv c p s -> cur_tok p = TLeftMonospace -> G c (rule_monospace consume) p s (fun out p' s' => rsucc c s p' s' out).
Proof.
  intros Hi Ht. unfold rule_monospace. cs. eapply G_conseq.
  { eapply G_collect_container; eauto. intros. apply container_ok; [split; discriminate|split; [constructor|intros ? ? []]|discriminate]. }
  cbn beta. intros out p2 s2 I2 A2 [H1 _]. eapply rsucc_before; [|exact H1]. ext_tac.
Qed.
Lemma Q_center c p s : inv c p s -> cur_tok p = TEquals -> G c (rule_center consume) p s (fun out p' s' => rsucc c s p' s' out).
Proof.
  intros Hi Ht. unfold rule_center. cs. gs G_get_token. eapply G_conseq.
  { eapply G_collect_container; eauto. intros. apply container_ok; [split; discriminate|split; [constructor|intros ? ? []]|discriminate]. }
  cbn beta. intros out p2 s2 I2 A2 [H1 _]. eapply rsucc_before; [|exact H1]. ext_tac.
Qed.
Lemma Q_clear_float c p s : inv c p s -> start_of_line p = true -> G c rule_clear_float p s (fun out p' s' => rsucc c s p' s' out).
Proof.
  intros Hi Hl. unfold rule_clear_float. apply G_gets_bind.
  apply G_bind_ with (Q := fun cf p' s' => p' = p /\ line_token toks (clear_token cf)).
  { destruct (cur_tok p) eqn:Et; try (apply G_fail; assumption); (apply G_ret; auto; split; auto; eapply line_cur; eauto; discriminate). }
  intros cf p1 s1 I1 A1 [-> Hcf]. gs G_get_optional_line_break. leaf.
Qed.
Lemma Q_color c p s : inv c p s -> cur_tok p = TColor -> G c (rule_color E consume) p s (fun out p' s' => rsucc c s p' s' out).
Proof.
  intros Hi Ht. unfold rule_color. cs. gs G_collect_text. gs G_collect_consume. destruct H1 as [H1 _]. nodef H1; [split; cbn; auto|]. intros _. discriminate.
Qed.
Lemma Q_comment c p s : inv c p s -> cur_tok p = TLeftComment -> G c rule_comment p s (fun out p' s' => rsucc c s p' s' out).
Proof.
  intros Hi Ht. unfold rule_comment. cs. eapply G_bind_.
  { apply (G_looping E toks d c _ _ _ _ (fun _ _ _ => True) (fun _ _ _ => True)); auto.
    intros u p1 s1 I1 A1 _. apply G_gets_bind.
    assert (X : forall r : unit + unit, G c (step ;; ret r) p1 s1 (fun (r : unit + unit) p' s' =>
       match r with inl _ => length (rem p') < length (rem p1) /\ True | inr _ => True end)).
    { intros r. eapply G_bind_; [apply G_step_; auto|]. intros ? p2 s2 I2 A2 [_ H2]. apply G_ret; auto. destruct r; auto. }
    destruct (cur_tok p1); try apply X. apply G_fail; auto. }
  intros ? p2 s2 I2 A2 _. apply G_nothing; auto. ext_tac.
Qed.
Lemma Q_dash c p s : inv c p s -> G c rule_dash p s (fun out p' s' => rsucc c s p' s' out).
Proof. intros Hi. unfold rule_dash. leaf. right. left. cbn. tauto. Qed.
Lemma Q_double_angle c p s : inv c p s -> cur_tok p = TLeftDoubleAngle \/ cur_tok p = TQuote -> G c rule_double_angle p s (fun out p' s' => rsucc c s p' s' out).
Proof.
  intros Hi Ht. unfold rule_double_angle. apply G_gets_bind. unfold cur_tok in Ht. destruct Ht as [-> | ->].
  - leaf. right. left. cbn. tauto.
  - destruct (seqb _ _); [|apply G_fail; auto]. leaf. right. left. cbn. tauto.
Qed.
Lemma Q_email c p s : inv c p s -> G c rule_email p s (fun out p' s' => rsucc c s p' s' out).
Proof. intros Hi. unfold rule_email. apply G_gets_bind. leaf. eapply cur_slice; eauto. Qed.
Lemma Q_text c p s : inv c p s -> G c rule_text p s (fun out p' s' => rsucc c s p' s' out).
Proof. intros Hi. unfold rule_text. apply G_gets_bind. leaf. left. eapply cur_slice; eauto. Qed.
Lemma Q_null c p s : inv c p s -> G c rule_null p s (fun out p' s' => rsucc c s p' s' out).
Proof. intros Hi. apply G_nothing; auto. ext_tac. Qed.
Lemma Q_url c p s : inv c p s -> G c rule_url p s (fun out p' s' => rsucc c s p' s' out).
Proof. intros Hi. unfold rule_url. apply G_gets_bind. leaf. right. conj; eauto. discriminate. Qed.
Lemma variable_name_shape s : shape TVariable s -> variable_name s <> None.
Proof.
  intros H. inversion H as [t s0 Hin| | |v Hv Hf| | | | | | | | | | | |]; subst.
  - exfalso. cbn in Hin. repeat (destruct Hin as [Hin|Hin]; [discriminate Hin|]). destruct Hin.
  - unfold variable_name. change (strip_prefix (lit "{$") (lit "{$" ++ v ++ lit "}")) with (Some (v ++ lit "}")).
    cbv beta iota. rewrite rev_app_distr. cbn [rev lit app]. change (rev (lit "}")) with [125%N]. cbn [app].
    assert (cmem 10 (rev v) = false) as ->.
    { apply not_true_iff_false. intro X. apply cmem_In in X. apply in_rev in X. rewrite Forall_forall in Hf. apply Hf in X. discriminate. }
    destruct (rev v) eqn:Er; [|discriminate]. apply (f_equal (@rev _)) in Er. rewrite rev_involutive in Er. contradiction.
Qed.
Lemma Q_variable c p s : inv c p s -> cur_tok p = TVariable -> G c rule_variable p s (fun out p' s' => rsucc c s p' s' out).
Proof.
  intros Hi Ht. unfold rule_variable. apply G_gets_bind. apply G_or_panic.
  - intro X. exfalso. eapply variable_name_shape; [|exact X]. unfold cur_tok in Ht. rewrite <- Ht.
    apply (tok_shape E toks Htoks); [eapply inv_cur; eauto|congruence|congruence].
  - intros v _. leaf.
Qed.
Lemma Q_def_skip c p s : inv c p s -> G c rule_def_skip p s (fun out p' s' => rsucc c s p' s' out).
Proof. intros Hi. unfold rule_def_skip. apply G_gets_bind. destruct (_ && _); [apply G_nothing; auto; ext_tac|apply G_fail; auto]. Qed.

(** Definition lists. *)
Lemma G_def_item c p s : inv c p s -> G c (def_item_parse E consume) p s (fun out p' s' =>
  els c s p' s' (def_children (fst (su_item out))) /\ Forall genuine (su_errors out) /\
  line_token toks TColon /\ length (rem p') < length (rem p)).
Proof.
  intros Hi. unfold def_item_parse. apply G_gets_bind. destruct (start_of_line p) eqn:Hl; [|apply G_fail; auto]. cbn [negb].
  apply G_gets_bind. destruct (is_tok TColon p) eqn:Et; [|apply G_fail; auto]. cbn [andb].
  destruct (next_is 0 TWhitespace p); [|apply G_fail; auto]. cbn [negb].
  assert (Hlt : line_token toks TColon).
  { unfold is_tok in Et. destruct (tok_eqb_spec (cur_tok p) TColon); [|discriminate]. eapply line_cur; eauto. discriminate. }
  gs G_step_n. apply G_gets_bind. gs G_collect_consume. destruct H0 as [H0 _]. apply G_gets_bind. gs G_step_n.
  destruct (partial_slice_ok E toks Htoks (length (rem p0)) (length (rem p1)) (cur p0) (cur p1)) as (w & Hw & _).
  { eapply inv_at_pos; eauto. } { eapply inv_at_pos; eauto. } { apply A0. }
  rewrite Hw. apply G_ret_bind. gs G_collect_consume_keep. destruct a2 as [[ve last] errs safe]. cbn [su_item su_errors su_safe fst snd] in H2.
  destruct H2 as (H2 & _ & q & Hq & Hql). cbn [su_item].
  apply (evaluate_any_token [TParagraphBreak; TLineBreak; TInputEnd]) in Hq. rewrite Hql in Hq.
  apply G_bind_ with (Q := fun _ _ _ => True).
  { destruct Hq as [<-|[<-|[<-|[]]]]; apply G_ret; auto. }
  intros b p5 s5 I5 A5 _. apply G_ret; auto. cbn [su_item su_errors fst def_children df_key df_value].
  destruct H0 as (K1 & _ & K3). destruct H2 as (V1 & _ & V3). conj; auto.
  - eapply (els_app E toks c s p1 s1).
    + eapply els_sub; [apply stripped_whitespace|]. eapply els_before; [|exact K1]. ext_tac.
    + advt.
    + eapply els_sub; [apply stripped_whitespace|]. eapply els_before; [|eapply els_mono; [exact V1|exact A5]]. ext_tac.
  - apply Forall_app; auto.
  - destruct A0, A1, A2, A5. lia.
Qed.
Lemma Q_def_list c p s : inv c p s -> G c (rule_def_list E consume) p s (fun out p' s' => rsucc c s p' s' out).
Proof.
  intros Hi. unfold rule_def_list. gs G_def_item. destruct H as (H1 & H2 & H3 & H4). destruct (su_item a) as [item at_end]. cbn [fst] in H1.
  apply G_bind_ with (Q := fun items p' s' => els c s p' s' (flat_map def_children items)).
  { destruct at_end; [apply G_ret; auto; cbn; rewrite app_nil_r; auto|].
    apply (G_looping E toks d c _ _ _ _ (fun items p' s' => els c s p' s' (flat_map def_children items))); auto; [cbn; rewrite app_nil_r; auto|].
    intros items p1 s1 I1 A1 Hit. eapply G_bind_; [apply G_on_clone; [auto|apply G_def_item; auto]|]. cbn beta.
    intros [out|e] p2 s2 I2 A2 Hr.
    - destruct Hr as (q & -> & K1 & _ & _ & K4). destruct (su_item out) as [it e2]. cbn [fst] in K1.
      assert (X : els c s (update p1 q) s2 (flat_map def_children (items ++ [it]))).
      { rewrite flat_map_app. cbn [flat_map]. rewrite app_nil_r. eapply els_app; [exact Hit|exact A2|exact K1]. }
      destruct e2; apply G_ret; auto.
    - apply G_ret; auto. eapply els_mono; eauto. }
  intros items p2 s2 I2 A2 Hit. apply G_ok_derived; auto. eapply elsR_same; [exact Hit|reflexivity|split; cbn; auto|reflexivity|discriminate].
Qed.

(** Headers. *)
Lemma header_shape s : shape THeading s -> exists h, heading_try_from s = Some h /\ 1 <= hd_level h <= 6 /\
  s = repeat 43%N (hd_level h) ++ (if hd_has_toc h then [] else [42%N]).
Proof.
  intros H. inversion H as [t s0 Hin| | | | | | | | | |n Hn|n Hn| | | |]; subst.
  - exfalso. cbn in Hin. repeat (destruct Hin as [Hin|Hin]; [discriminate Hin|]). destruct Hin.
  - exists (HD n true). split; [|split; [auto|cbn; rewrite app_nil_r; auto]]. do 7 (destruct n as [|n]; [try lia; reflexivity|]). lia.
  - exists (HD n false). split; [|split; [auto|cbn; auto]]. do 7 (destruct n as [|n]; [try lia; reflexivity|]). lia.
Qed.
Lemma G_header_step c t p s : inv c p s -> G c (header_step t) p s (fun x p' s' => x = cur p /\ cur_tok p = t /\ length (rem p') < length (rem p)).
Proof.
  intros Hi. unfold header_step. apply G_gets_bind. destruct (tok_eqb_spec (t_token (cur p)) t) as [Et|Et]; [|apply G_fail; auto].
  eapply G_bind_; [apply G_step_; auto|]. intros ? p1 s1 I1 A1 [_ H1]. apply G_ret; auto.
Qed.
Lemma header_ok n fb F h es : 1 <= hd_level h <= 6 -> heading_token toks h -> element_ok n fb F (EContainer (CHeader h) [] es).
Proof. intros H1 H2. split; [apply nattr|cbn; auto]. Qed.
Lemma Q_header_n n : forall c p s, length (rem p) < n -> inv c p s -> cur_tok p = TInputEnd \/ start_of_line p = true ->
  G c (header_n E consume n) p s (fun out p' s' => rsucc c s p' s' out).
Proof.
  induction n as [|n IH]; intros c p s Hn Hi Hl; [lia|]. cbn [header_n]. gs G_header_step. destruct H as (-> & Ht & Hlt).
  assert (Hl' : start_of_line p = true) by (destruct Hl; [congruence|auto]).
  destruct (line_here E toks Htoks d c p s Hi Hl') as (before & Hb1 & Hb2); [congruence|].
  assert (Hsh : shape THeading (t_slice (cur p))).
  { unfold cur_tok in Ht. rewrite <- Ht. apply (tok_shape E toks Htoks); [eapply inv_cur; eauto|congruence|congruence]. }
  destruct (header_shape _ Hsh) as (h & -> & Hh1 & Hh2).
  assert (Hht : heading_token toks h) by (exists before, (cur p), (rem p); auto).
  apply G_ret_bind. gs G_header_step. destruct H as (_ & _ & Hlt2).
  eapply G_bind_; [eapply G_collect_container; eauto; intros; apply header_ok; auto|]. cbn beta.
  intros out p2 s2 I2 A2 (([R1 R2] & _ & R4) & He & es & Hes & Hels). rewrite Hes in *.
  assert (X0 : ext s s1) by ext_tac. apply ext_nf in X0.
  apply G_bind_ with (Q := fun _ p' s' => nf s' = nf s2 /\ nb s' = nb s2 /\ p' = p2).
  { destruct (hd_has_toc h); [|apply G_ret; auto]. eapply G_push_toc; eauto. rewrite <- Ht. eapply inv_has; eauto. }
  intros ? p3 s3 I3 A3 (N1 & N2 & ->).
  eapply G_bind_.
  { apply G_attempt. apply IH; auto; [destruct A2; lia|]. destruct He as (q & Hq & He).
    apply (evaluate_any_token [TInputEnd; TLineBreak; TParagraphBreak]) in Hq. destruct He as [He|[He1 He]]; auto. right. rewrite He.
    unfold cur_tok in *. destruct Hq as [Hq|[<-|[<-|[]]]]; auto. }
  intros [more|e] p4 s4 I4 A4 Hm.
  - destruct Hm as ([M1 M2] & _ & M4). apply G_ok_flag; auto; [|discriminate|apply Forall_app; auto]. split.
    + apply Forall_app. split; auto. eapply Forall_impl; [|exact R1]. cbn. intros x Hx.
      assert (Y : adv p2 s2 p4 s4) by advt. destruct Y as (_ & Y2 & Y3).
      eapply okR_mono; [apply ext_nb; exact Y2|exact Y3|exact (fun x => x)|exact Hx|apply incl_refl].
    + rewrite refs_app. lia.
  - apply G_ok_flag; auto; [|discriminate]. split.
    + eapply Forall_impl; [|exact R1]. cbn. intros x Hx.
      assert (Y : adv p2 s2 p4 s4) by advt. destruct Y as (_ & Y2 & Y3).
      eapply okR_mono; [apply ext_nb; exact Y2|exact Y3|exact (fun x => x)|exact Hx|apply incl_refl].
    + assert (Y : adv p2 s2 p4 s4) by advt. destruct Y as (_ & Y2 & Y3). apply ext_nf in Y2. lia.
Qed.
Lemma Q_header c p s : inv c p s -> start_of_line p = true -> G c (rule_header E consume) p s (fun out p' s' => rsucc c s p' s' out).
Proof. intros Hi Hl. unfold ParseInv.G, rule_header. apply Q_header_n; auto. Qed.
Lemma Q_horizontal_rule c p s : inv c p s -> cur_tok p = TTripleDash -> start_of_line p = true -> G c rule_horizontal_rule p s (fun out p' s' => rsucc c s p' s' out).
Proof.
  intros Hi Ht Hl. assert (X : line_token toks TTripleDash) by (eapply line_cur; eauto; discriminate).
  unfold rule_horizontal_rule. cs. gs G_get_optional_line_break. leaf.
Qed.
Lemma Q_line_break c p s : inv c p s -> G c rule_line_break p s (fun out p' s' => rsucc c s p' s' out).
Proof.
  intros Hi. unfold rule_line_break. eapply G_bind_.
  { eapply (G_evaluate_fn E toks d c _ p s (fun _ _ _ => True)); auto. gs G_step_. gs G_get_optional_space. split; auto. split; auto using adv_refl. }
  intros [] p1 s1 I1 A1 _; [apply G_nothing; auto; ext_tac|]. leaf.
Qed.
Lemma Q_link_anchor c p s : inv c p s -> cur_tok p = TLeftBracketAnchor -> G c (rule_link_anchor E) p s (fun out p' s' => rsucc c s p' s' out).
Proof. intros Hi Ht. unfold rule_link_anchor. cs. gs G_collect_text. cbv zeta. gs G_collect_text. leaf. right. conj; eauto. discriminate. Qed.
Lemma parse_extra_some u : link_parse_extra u <> None.
Proof.
  unfold link_parse_extra, splitn2. destruct (_ || _); [discriminate|]. destruct (split_once 35 u) as [[a b]|].
  - destruct (split_once 47 a) as [[x y]|]; cbv zeta; match goal with |- context [match ?m with [] => _ | _ => _ end] => destruct m end; discriminate.
  - destruct (split_once 47 u) as [[x y]|]; cbv zeta; match goal with |- context [match ?m with [] => _ | _ => _ end] => destruct m end; discriminate.
Qed.
Lemma Q_link_single c p s t ta : inv c p s -> cur_tok p = t -> G c (rule_link_single E t ta) p s (fun out p' s' => rsucc c s p' s' out).
Proof.
  intros Hi Ht. unfold rule_link_single. cs. gs G_collect_text. destruct (url_valid _) eqn:Ev; cbn [negb]; [|apply G_fail; auto]. gs G_collect_text.
  apply G_or_panic; [intro X; exfalso; eapply parse_extra_some; eauto|]. intros ex Hex. leaf. right. conj; [|discriminate|eauto].
  unfold url_valid in Ev. match type of Ev with match ?r with _ => _ end = _ => destruct r as [|ch r]; [discriminate|] end. unfold link_parse_extra in Hex. apply orb_true_iff in Ev as [Ev|Ev]; rewrite Ev in Hex; rewrite ?orb_true_r in Hex; cbn [orb] in Hex; congruence.
Qed.
Lemma interwiki_no_panic get u : link_parse_interwiki get u <> Panic.
Proof.
  unfold link_parse_interwiki. destruct (strip_prefix _ u).
  - pose proof (C42_interwiki_never_panics get l). destruct (iw_build get l); congruence.
  - destruct (link_parse_good u) as [r ->]. discriminate.
Qed.
Lemma G_build_link c s0 url label ta p s : inv c p s -> ext s0 s -> has_link toks ->
  G c (build_link E url label ta) p s (fun out p' s' => rsucc c s0 p' s' out).
Proof.
  intros Hi Hx Hl. unfold build_link. pose proof (interwiki_no_panic (en_interwiki E) url).
  destruct (link_parse_interwiki _ url) as [[link lt]| |]; [|apply G_fail; auto|contradiction].
  apply G_or_panic; [intro X; exfalso; eapply parse_extra_some; eauto|]. intros ex _.
  apply G_ok_derived; auto. apply elsR_leaf; auto; [|discriminate]. split; cbn; auto.
Qed.
Lemma Q_link_triple c p s t ta : t = TLeftLink \/ t = TLeftLinkStar -> inv c p s -> cur_tok p = t -> G c (rule_link_triple E t ta) p s (fun out p' s' => rsucc c s p' s' out).
Proof.
  intros Hor Hi Ht. assert (Hl : has_link toks).
  { assert (X : has_token toks (cur_tok p)) by (eapply inv_has; eauto). rewrite Ht in X. destruct Hor as [-> | ->]; [left|right]; auto. }
  unfold rule_link_triple. cs. eapply G_bind_; [apply G_collect_text_keep; auto|]. intros [url last] p1 s1 I1 A1 (_ & q & Hq & Hql). cbn [snd] in Hql.
  destruct (trim url) as [|ch u]; [apply G_fail; auto|].
  apply (evaluate_any_token [TPipe; TRightLink]) in Hq. rewrite Hql in Hq. destruct Hq as [<-|[<-|[]]].
  - gs G_collect_text. apply G_build_link; auto. ext_tac.
  - apply G_build_link; auto. ext_tac.
Qed.
Lemma Q_math c p s : inv c p s -> cur_tok p = TLeftMath -> G c (rule_math E) p s (fun out p' s' => rsucc c s p' s' out).
Proof. intros Hi Ht. unfold rule_math. cs. gs G_collect_text. leaf. split; [apply substr_trim; auto|rewrite <- Ht; eapply inv_has; eauto]. Qed.

(** Raw text. *)
Lemma G_raw_loop c s0 ending p s : inv c p s -> ext s0 s -> G c (raw_loop E ending (cur p)) p s (fun out p' s' => rsucc c s0 p' s' out).
Proof.
  intros Hi Hx. unfold raw_loop.
  apply (G_looping E toks d c _ _ _ _ (fun fin p' s' => fin = cur p')); auto. intros fin p1 s1 I1 A1 ->. apply G_gets_bind.
  assert (Hnext : G c (let! fin := step in ret (inl fin)) p1 s1 (fun (r : xtoken + success elements) p' s' => match r with
     | inl st' => length (rem p') < length (rem p1) /\ st' = cur p' | inr a => rsucc c s0 p' s' a end)).
  { eapply G_bind_; [apply G_step_; auto|]. intros t p2 s2 I2 A2 [H1 H2]. apply G_ret; auto. }
  assert (Hend : G c (let! slice := or_panic PanicSlice (partial_slice text (cur p) (cur p1)) in step ;; let! out := ok_derived [ERaw slice] [] in ret (inr out))
     p1 s1 (fun (r : xtoken + success elements) p' s' => match r with
     | inl st' => length (rem p') < length (rem p1) /\ st' = cur p' | inr a => rsucc c s0 p' s' a end)).
  { destruct (partial_slice_ok E toks Htoks (length (rem p)) (length (rem p1)) (cur p) (cur p1)) as (w & Hw & Hs).
    { eapply inv_at_pos; eauto. } { eapply inv_at_pos; eauto. } { apply A1. }
    rewrite Hw. apply G_ret_bind. gs G_step_. eapply G_bind_.
    { eapply (G_leaf_ E toks d c s0); [exact I|assert (ext s s2) by ext_tac; eapply ext_trans; eauto|split; cbn; auto|reflexivity|reflexivity|discriminate]. }
    intros out p3 s3 I3 A3 H3. apply G_ret; auto. }
  destruct (cur_tok p1); try exact Hnext; try (apply G_fail; assumption); destruct (tok_eqb _ _); assumption.
Qed.
Lemma Q_raw c p s : inv c p s -> cur_tok p = TRaw \/ cur_tok p = TLeftRaw -> G c (rule_raw E) p s (fun out p' s' => rsucc c s p' s' out).
Proof.
  intros Hi Ht. unfold rule_raw. apply G_gets_bind. cbv zeta.
  assert (Hgen : forall ending, G c (let! start := step in raw_loop E ending start) p s (fun out p' s' => rsucc c s p' s' out)).
  { intros ending. gs G_step_. destruct H as [-> _]. apply G_raw_loop; auto. ext_tac. }
  destruct Ht as [-> | ->]; [|apply Hgen].
  gs G_look_ahead_err. destruct H as (Hin & -> & -> & Hn1). gs G_look_ahead_err. destruct H as (_ & -> & -> & _).
  assert (H3 : forall k w, substr w text \/ w = lit "@" \/ w = lit "@@" -> G c (step_n k ;; ok_derived [ERaw w] []) p s (fun out p' s' => rsucc c s p' s' out)).
  { intros k w Hw. gs G_step_n. leaf. }
  pose proof (substr_nil text) as Hnil. pose proof (in_slice E toks Htoks a Hin) as Hsl.
  repeat match goal with
    | |- G _ (if ?b then _ else _) _ _ _ => destruct b
    | |- G _ (match t_token a with _ => _ end) _ _ _ => destruct (t_token a)
    | |- G _ (match t_token a0 with _ => _ end) _ _ _ => destruct (t_token a0)
    end; try (apply H3; auto; fail); try apply Hgen; apply G_fail; auto.
Qed.
Lemma Q_usl c p s : inv c p s -> G c rule_underscore_line_break p s (fun out p' s' => rsucc c s p' s' out).
Proof.
  intros Hi. unfold rule_underscore_line_break. apply G_gets_bind, G_gets_bind.
  apply G_bind_ with (Q := fun _ _ _ => True).
  { destruct (_ && next_is 0 TUnderscore p); [gs G_step_; apply G_ret; auto|]. destruct (_ && _); [apply G_ret; auto|apply G_fail; auto]. }
  intros ? p1 s1 I1 A1 _. apply G_gets_bind. destruct (negb _); [apply G_fail; auto|]. gs G_step_n. leaf.
Qed.
Lemma Q_block_skip c p s : inv c p s -> G c (block_skip E consume) p s (fun out p' s' => rsucc c s p' s' out).
Proof.
  intros Hi. unfold block_skip. gs G_step_. eapply G_bind_.
  { eapply (G_evaluate_fn E toks d c _ p0 s0 (fun _ _ _ => True)); auto.
    destruct (match t_token a with TLeftBlock | TLeftBlockStar => true | _ => false end); [|apply G_ret; auto].
    gs G_get_block_name. apply G_ret; auto. }
  intros [] p1 s1 I1 A1 _; [apply G_nothing; auto; ext_tac|apply G_fail; auto].
Qed.

(** Tables. *)
Lemma G_parse_cell_start c p s : inv c p s -> G c parse_cell_start p s (fun r p' s' => match r with
  | Some (_, _, n) => 1 <= n /\ length (rem p') < length (rem p) | None => True end).
Proof.
  intros Hi. unfold parse_cell_start.
  apply (G_looping E toks d c _ _ _ _ (fun span p' s' => 0 < span -> length (rem p') < length (rem p))); auto; [lia|].
  intros span p1 s1 I1 A1 Hs. apply G_gets_bind.
  assert (Hstop : forall al h, G c (step ;; ret (inr (Some (al, h, S span)))) p1 s1 (fun (r : nat + option (option alignment * bool * nat)) p' s' =>
    match r with inl st' => length (rem p') < length (rem p1) /\ (0 < st' -> length (rem p') < length (rem p))
       | inr (Some (_, _, n)) => 1 <= n /\ length (rem p') < length (rem p) | inr None => True end)).
  { intros al h. eapply G_bind_; [apply G_step_; auto|]. intros ? p2 s2 I2 A2 [_ H2]. apply G_ret; auto. destruct A1. split; lia. }
  assert (Hend : G c (match span with 0 => ret (inr None) | _ => ret (inr (Some (None, false, span))) end) p1 s1 (fun (r : nat + option (option alignment * bool * nat)) p' s' =>
    match r with inl st' => length (rem p') < length (rem p1) /\ (0 < st' -> length (rem p') < length (rem p))
       | inr (Some (_, _, n)) => 1 <= n /\ length (rem p') < length (rem p) | inr None => True end)).
  { destruct span; apply G_ret; auto. split; [lia|]. apply Hs. lia. }
  destruct (cur_tok p1); try exact Hend; try apply Hstop.
  eapply G_bind_; [apply G_step_; auto|]. intros ? p2 s2 I2 A2 [_ H2]. apply G_ret; auto. destruct A1. split; lia.
Qed.
Lemma G_cell_loop c p s : inv c p s -> G c (table_cell_loop consume) p s (fun '(es, errs, _) p' s' =>
  els c s p' s' es /\ Forall genuine errs).
Proof.
  intros Hi. unfold table_cell_loop. eapply G_conseq.
  { apply (G_looping E toks d c _ _ _ _ (fun '(es, errs) p' s' => els c s p' s' es /\ Forall genuine errs)
      (fun '(es, errs, _) p' s' => els c s p' s' es /\ Forall genuine errs)); auto.
    { split; auto. apply els_nil, ext_refl. }
    intros [es errs] p1 s1 I1 A1 [H1 H2]. apply G_gets_bind, G_gets_bind. cbv zeta.
    set (V := fun (r : elements * list perr + elements * list perr * cell_end) p' s' => _).
    assert (Hplain : G c (let! out := consume in ret (inl (es ++ su_item out, errs ++ su_errors out))) p1 s1 V).
    { eapply G_bind_; [apply Hc; auto|]. intros out p2 s2 I2 A2 [(K1 & _ & K3) K4]. apply G_ret; auto. cbn. conj; auto.
      - eapply els_app; eauto.
      - apply Forall_app; auto. }
    assert (Hskip : G c (step ;; ret (inl (es, errs))) p1 s1 V).
    { eapply G_bind_; [apply G_step_; auto|]. intros ? p2 s2 I2 A2 [_ K]. apply G_ret; auto. cbn. conj; auto. eapply els_mono; eauto. }
    assert (Hret : forall h p2 s2, inv c p2 s2 -> adv p1 s1 p2 s2 -> G c (ret (inr (es, errs, h))) p2 s2 V).
    { intros h p2 s2 I2 A2. apply G_ret; auto. cbn. conj; auto. eapply els_mono; eauto. }
    assert (Helse : G c match cur_tok p1 with
        | TWhitespace =>
            if match es with [] => true | _ => false end then step ;; ret (inl (es, errs))
            else if match option_map t_token (look_ahead 0 p1) with Some n => is_column n | None => false end then step ;; ret (inl (es, errs))
            else let! out := consume in ret (inl (es ++ su_item out, errs ++ su_errors out))
        | TLineBreak | TParagraphBreak | TInputEnd => ret (inr (es, errs, Invalid))
        | _ => let! out := consume in ret (inl (es ++ su_item out, errs ++ su_errors out)) end p1 s1 V).
    { destruct (cur_tok p1); auto using adv_refl. destruct (match es with [] => true | _ => false end); auto.
      destruct (match option_map t_token (look_ahead 0 p1) with Some n => is_column n | None => false end); auto. }
    destruct (is_column (cur_tok p1)); [|exact Helse]. destruct (option_map t_token (look_ahead 0 p1)) as [next|]; [|exact Helse].
    destruct next; try (apply Hret; auto using adv_refl);
    (eapply G_bind_; [first [apply G_step_; assumption|apply G_step_n; assumption]|]; intros ? p2 s2 I2 A2 _; apply Hret; auto). }
  intros [[es errs] h] p' s' _ _ H. exact H.
Qed.
Lemma G_one_cell c p s : inv c p s -> G c (table_one_cell consume) p s (fun '(errs, r) p' s' => Forall genuine errs /\
  match r with Some (cell, _) => els c s p' s' (tc_elements cell) /\ cell_spans cell /\ tc_attributes cell = [] /\ length (rem p') < length (rem p)
  | None => True end).
Proof.
  intros Hi. unfold table_one_cell. gs G_parse_cell_start. destruct a as [[[al h] n]|]; [|apply G_ret; auto].
  eapply G_bind_; [apply G_cell_loop; auto|]. intros [[es errs] how] p1 s1 I1 A1 [H1 H2].
  assert (X : forall hw : cell_end, G c (ret (errs, Some (TC h (N.of_nat n) al [] es, hw))) p1 s1 (fun '(errs, r) p' s' => Forall genuine errs /\
      match r with Some (cell, _) => els c s p' s' (tc_elements cell) /\ cell_spans cell /\ tc_attributes cell = [] /\ length (rem p') < length (rem p)
      | None => True end)).
  { intros hw. apply G_ret; auto. split; auto. conj; auto.
    - cbn [tc_elements]. elsmv.
    - unfold cell_spans. cbn. lia.
    - destruct A1. lia. }
  destruct how; auto. apply G_ret; auto.
Qed.
Definition plain_cell (x : table_cell) : Prop := cell_spans x /\ tc_attributes x = [].
Lemma G_one_row c p s : inv c p s -> G c (table_one_row consume) p s (fun '(errs, r) p' s' => Forall genuine errs /\
  match r with Some (row, _) => els c s p' s' (row_children row) /\ Forall plain_cell (tr_cells row) /\ tr_attributes row = [] /\ length (rem p') < length (rem p)
  | None => True end).
Proof.
  intros Hi. unfold table_one_row. eapply G_conseq.
  { apply (G_looping E toks d c _ _ _ _ (fun '(cells, errs) p' s' => els c s p' s' (flat_map tc_elements cells) /\ Forall plain_cell cells /\ Forall genuine errs)
     (fun '(errs, r) p' s' => Forall genuine errs /\
       match r with Some (row, _) => els c s p' s' (row_children row) /\ Forall plain_cell (tr_cells row) /\ tr_attributes row = [] /\ length (rem p') < length (rem p)
       | None => True end)); auto.
    { conj; auto. apply els_nil, ext_refl. }
    intros [cells errs] p1 s1 I1 A1 (H1 & H2 & H3). eapply G_bind_; [apply G_one_cell; auto|].
    intros [errs' r] p2 s2 I2 A2 [K1 K2]. assert (Hg : Forall genuine (errs ++ errs')) by (apply Forall_app; auto).
    destruct r as [[cell how]|]; [|apply G_ret; auto]. destruct K2 as (K2 & K3 & K4 & K5).
    assert (X : els c s p2 s2 (flat_map tc_elements (cells ++ [cell]))).
    { rewrite flat_map_app. cbn [flat_map]. rewrite app_nil_r. eapply els_app; [exact H1|exact A2|exact K2]. }
    assert (Y : Forall plain_cell (cells ++ [cell])) by (apply Forall_app; split; auto; constructor; auto; split; auto).
    destruct how; apply G_ret; auto; split; auto; conj; auto; destruct A1; lia. }
  intros [errs r] p' s' _ _ H. exact H.
Qed.
Lemma Q_table c p s : inv c p s -> G c (rule_table consume) p s (fun out p' s' => rsucc c s p' s' out).
Proof.
  intros Hi. unfold rule_table. eapply G_bind_.
  { apply (G_looping E toks d c _ _ _ _ (fun '(rows, errs) p' s' => els c s p' s' (flat_map row_children rows) /\
        Forall (fun r => Forall plain_cell (tr_cells r) /\ tr_attributes r = []) rows /\ Forall genuine errs)
     (fun '(rows, errs) p' s' => els c s p' s' (flat_map row_children rows) /\
        Forall (fun r => Forall plain_cell (tr_cells r) /\ tr_attributes r = []) rows /\ Forall genuine errs)); auto.
    { conj; auto. apply els_nil, ext_refl. }
    intros [rows errs] p1 s1 I1 A1 (H1 & H2 & H3). eapply G_bind_; [apply G_one_row; auto|].
    intros [errs' r] p2 s2 I2 A2 [K1 K2]. assert (Hg : Forall genuine (errs ++ errs')) by (apply Forall_app; auto).
    destruct r as [[row last]|].
    - destruct K2 as (K2 & K3 & K4 & K5).
      assert (X : els c s p2 s2 (flat_map row_children (rows ++ [row]))).
      { rewrite flat_map_app. cbn [flat_map]. rewrite app_nil_r. eapply els_app; [exact H1|exact A2|exact K2]. }
      assert (Y : Forall (fun r => Forall plain_cell (tr_cells r) /\ tr_attributes r = []) (rows ++ [row])) by (apply Forall_app; split; auto).
      destruct last; apply G_ret; auto.
    - destruct rows; [apply G_fail; auto|]. apply G_ret; auto. conj; auto. eapply els_mono; eauto. }
  intros [rows errs] p1 s1 I1 A1 (H1 & H2 & H3). cbn beta iota. apply G_ok_flag; auto; [|discriminate].
  eapply elsR_same; [exact H1|reflexivity| |reflexivity|discriminate].
  change (snd (attr_insert [] (lit "class") (lit "wj-table"))) with [(lit "class", lit "wj-table")].
  split; cbn [attrs_of].
  - constructor.
    + split; [repeat constructor; auto|]. intros k v [[= <- <-]|[]]. split; [reflexivity|split; [reflexivity|]]. apply ao_table.
    + clear H1. induction H2 as [|r rows [R1 R2] _ IH]; cbn [flat_map]; auto. apply Forall_app. split; auto.
      assert (N0 : attr_map_ok E []) by (split; [constructor|intros ? ? []]).
      unfold row_attrs. rewrite R2. constructor; auto. clear R2. induction R1 as [|x l [_ X] _ IHl]; cbn; auto. rewrite X. auto.
  - eapply Forall_impl; [|exact H2]. cbn. intros r [R1 _]. eapply Forall_impl; [|exact R1]. intros x [X _]. auto.
Qed.

(** Blockquotes. *)
Section BQ.
Variables (n : nat) (fb : bool) (F : bool) (K : accepts).
Notation ok := (okE n fb F [K]).
Definition sgood (st : pstack) : Prop := Forall ok (ps_finished st ++ ps_current st) /\ Forall inline_element (ps_current st).
Lemma sgood_end st : sgood st -> Forall ok (ps_finished (end_paragraph st)).
Proof.
  intros [H1 H2]. unfold end_paragraph, build_paragraph. destruct (ps_current st) as [|e es] eqn:Ec; [rewrite app_nil_r in H1; auto|].
  cbn [ps_finished]. apply Forall_app in H1 as [H1 H3]. apply Forall_app. split; auto. constructor; auto.
  exact (okE_paragraph E toks n fb (CX K F) _ H3 H2).
Qed.
Lemma budget_end st : refs (ps_finished (end_paragraph st)) = budget st.
Proof.
  unfold budget, end_paragraph, build_paragraph. destruct (ps_current st) as [|e es] eqn:Ec; [rewrite app_nil_r; auto|].
  cbn [ps_finished]. rewrite !refs_app, refs_paragraph. auto.
Qed.
Lemma sgood_push st e safe : sgood st -> ok e -> (safe = true -> inline_element e) -> sgood (push_element st e safe).
Proof.
  intros Hs He Hi. unfold push_element. destruct safe.
  - destruct Hs as [H1 H2]. split; cbn [ps_current ps_finished]; [rewrite app_assoc|]; apply Forall_app; auto.
  - apply sgood_end in Hs. split; cbn [ps_current ps_finished]; rewrite end_current; auto. rewrite app_nil_r. apply Forall_app; auto.
Qed.
Lemma pop_line_break_cases st : pop_line_break st = st \/
  exists r, ps_current st = r ++ [ELineBreak] /\ pop_line_break st = PS r (ps_finished st).
Proof.
  unfold pop_line_break. destruct (rev (ps_current st)) as [|e r] eqn:Er; auto. destruct e; auto. right. exists (rev r). split; auto.
  rewrite <- (rev_involutive (ps_current st)), Er. auto.
Qed.
Lemma sgood_pop st : sgood st -> sgood (pop_line_break st).
Proof.
  destruct (pop_line_break_cases st) as [-> | (r & Hr & ->)]; auto. intros [H1 H2]. rewrite Hr in *. apply Forall_app in H2 as [H2 _].
  split; cbn [ps_current ps_finished]; auto. rewrite app_assoc in H1. apply Forall_app in H1 as [H1 _]. auto.
Qed.
Lemma budget_pop st : budget (pop_line_break st) <= budget st.
Proof.
  destruct (pop_line_break_cases st) as [-> | (r & Hr & ->)]; auto. unfold budget. cbn [ps_current ps_finished]. rewrite Hr, !refs_app. lia.
Qed.
Lemma push_all_good safe es : forall st, sgood st -> Forall ok es -> (safe = true -> Forall inline_element es) ->
  sgood (push_all st es safe) /\ budget (push_all st es safe) = budget st + refs es.
Proof.
  induction es as [|e es IH]; intros st Hs He Hi; cbn [push_all]; [rewrite refs_nil; auto|].
  inversion He; subst. destruct (IH (push_element st e safe)) as [H3 H4]; auto.
  - apply sgood_push; auto. intro X. specialize (Hi X). inversion Hi; auto.
  - intro X. specialize (Hi X). inversion Hi; auto.
  - split; auto. rewrite H4, push_budget, (refs_cons e es). lia.
Qed.
Definition group_ok (x : elements * bool) : Prop := Forall ok (fst x) /\ (snd x = true -> Forall inline_element (fst x)).
Lemma blockquote_of_good st : sgood st -> ok (blockquote_of st) /\ refs [blockquote_of st] <= budget st.
Proof.
  intros Hs. apply sgood_pop in Hs. pose proof (budget_pop st). split.
  - constructor; [apply container_ok; [split; discriminate|split; [constructor|intros ? ? []]|discriminate]|discriminate|]. cbn. apply sgood_end; auto.
  - rewrite refs_one; auto. cbn [blockquote_of children]. unfold into_elements. rewrite budget_end. auto.
Qed.
Definition groups (l : list (nat * unit * (elements * bool))) : elements := flat_map (fun x => fst (snd x)) l.
Definition bq_good (it : depth_item unit (elements * bool)) : Prop := forall dp u st,
  Forall (fun x => group_ok (snd x)) (reading dp u it) -> sgood st ->
  sgood (blockquote_item st it) /\ budget (blockquote_item st it) <= budget st + refs (groups (reading dp u it)).
Lemma blockquote_items_good items : Forall bq_good items -> forall dp u st, Forall (fun x => group_ok (snd x)) (flat_map (reading dp u) items) -> sgood st ->
  sgood (blockquote_items st items) /\ budget (blockquote_items st items) <= budget st + refs (groups (flat_map (reading dp u) items)).
Proof.
  induction 1 as [|it items Hit _ IH]; intros dp u st Hf Hs; cbn [blockquote_items flat_map].
  - split; auto. lia.
  - cbn [flat_map] in Hf. apply Forall_app in Hf as [Hf1 Hf2]. destruct (Hit dp u st Hf1 Hs) as [H1 H2].
    destruct (IH dp u _ Hf2 H1) as [H3 H4]. split; auto. unfold groups in *. rewrite flat_map_app, refs_app. lia.
Qed.
Lemma blockquote_item_good it : bq_good it.
Proof.
  induction it as [[es safe]|l items IH] using depth_item_ind'; intros dp u st Hf Hs.
  - cbn [reading] in *. inversion Hf as [|? ? [H1 H2] _]; subst. cbn [snd fst] in *. cbn [blockquote_item].
    destruct (push_all_good safe es st Hs H1 H2) as [H3 H4]. split; auto. rewrite H4. cbn. rewrite app_nil_r. auto.
  - cbn [reading] in *. change (blockquote_item st (DList l items)) with
      (push_element (pop_line_break st) (blockquote_of (blockquote_items ps_new items)) false).
    destruct (blockquote_items_good items IH (S dp) l ps_new Hf) as [H1 H2]; [split; constructor|].
    apply blockquote_of_good in H1 as [H1 H3]. split.
    + apply sgood_push; auto; [apply sgood_pop; auto|discriminate].
    + rewrite push_budget. pose proof (budget_pop st). change (budget ps_new) with 0 in H2. lia.
Qed.
Lemma build_blockquotes_good (trees : list (unit * list (depth_item unit (elements * bool)))) :
  Forall (fun x => group_ok (snd x)) (reading_trees trees) ->
  Forall ok (map (fun l => build_blockquote (snd l)) trees) /\
  refs (map (fun l => build_blockquote (snd l)) trees) <= refs (groups (reading_trees trees)).
Proof.
  induction trees as [|[u items] trees IH]; intros Hf; cbn [map]; [auto|].
  change (reading_trees ((u, items) :: trees)) with (flat_map (reading 0 u) items ++ reading_trees trees) in *.
  apply Forall_app in Hf as [Hf1 Hf2]. destruct (IH Hf2) as [H1 H2].
  destruct (blockquote_items_good items) with (dp := 0) (u := u) (st := ps_new) as [H3 H4]; auto.
  { apply Forall_forall. intros it _. apply blockquote_item_good. } { split; constructor. }
  apply blockquote_of_good in H3 as [H3 H5]. split.
  - constructor; auto.
  - rewrite refs_cons. unfold groups in *. rewrite flat_map_app, refs_app. change (budget ps_new) with 0 in H4. cbn [snd]. unfold build_blockquote in *. lia.
Qed.
End BQ.
Lemma Q_blockquote c p s : inv c p s -> G c (rule_blockquote consume) p s (fun out p' s' => rsucc c s p' s' out).
Proof.
  intros Hi. unfold rule_blockquote. eapply G_bind_.
  { apply (G_looping E toks d c _ _ _ _ (fun '(ds, errs) p' s' => els c s p' s' (groups ds) /\
        Forall (fun x => snd (snd x) = true -> Forall inline_element (fst (snd x))) ds /\ Forall genuine errs)
      (fun '(ds, errs) p' s' => els c s p' s' (groups ds) /\
        Forall (fun x => snd (snd x) = true -> Forall inline_element (fst (snd x))) ds /\ Forall genuine errs)); auto.
    { conj; auto. apply els_nil, ext_refl. }
    intros [ds errs] p1 s1 I1 A1 (H1 & H2 & H3). apply G_gets_bind. destruct (tok_eqb _ _); [|apply G_ret; auto]. cbv zeta.
    eapply G_bind_; [apply G_step_; auto|]. intros ? p2 s2 I2 A2 [_ L2].
    eapply G_bind_; [apply G_get_optional_space; auto|]. intros ? p3 s3 I3 A3 _.
    destruct (_ <? _); [apply G_fail; auto|]. eapply G_bind_; [eapply G_collect_consume; eauto|]. intros out p4 s4 I4 A4 [(K1 & K2 & K3) _].
    apply G_ret; auto. conj.
    - destruct A3, A4. lia.
    - unfold groups. rewrite flat_map_app. cbn [flat_map fst snd]. rewrite app_nil_r.
      eapply els_app; [exact H1|advt|]. destruct K1 as [K0 K1]. split.
      + apply Forall_app. split; auto. constructor; auto. constructor; [split; cbn; auto; constructor|discriminate|constructor].
      + rewrite refs_app. assert (X : ext s1 s3) by (eapply ext_trans; [apply A2|apply A3]). apply ext_nf in X.
        change (refs [ELineBreak]) with 0. lia.
    - apply Forall_app. split; auto. constructor; auto. cbn [fst snd]. intro X. apply Forall_app. split; auto. constructor; auto. discriminate.
    - apply Forall_app; auto. }
  intros [ds errs] p1 s1 I1 A1 (H1 & H2 & H3). cbn beta iota. destruct ds as [|d0 ds0]; [apply G_fail; auto|].
  assert (Hu : forall a b : unit, true = true <-> a = b) by (intros [] []; tauto).
  destruct (process_depths_ok (fun _ _ : unit => true) Hu tt (d0 :: ds0)) as (trees & Ht & Hr & _).
  rewrite Ht. apply G_ret_bind. destruct H1 as [H0 H1].
  destruct (build_blockquotes_good (nb s1) (has_footnote_block p1) (cF c) (cK c) trees) as [B1 B2].
  { rewrite Hr. clear - H0 H2. unfold groups in H0. induction H2 as [|x l Hx _ IH]; auto. cbn [flat_map] in H0. apply Forall_app in H0 as [Ha Hb].
    constructor; auto. split; auto. }
  rewrite Hr in B2. apply G_ok_flag; auto; [|discriminate]. apply els_elsR. split; auto. lia.
Qed.

(** Lists. *)
Definition litems (l : list (nat * list_type * elements)) : elements := flat_map snd l.
Definition li_good (n : nat) (fb F : bool) (K : accepts) (it : depth_item list_type elements) : Prop := forall dp u A,
  Forall (okE n fb F [K]) (litems (reading dp u it)) -> incl [K] A ->
  Forall (okE n fb F A) (item_children (build_list_item it)) /\ refs (item_children (build_list_item it)) = refs (litems (reading dp u it)) /\
  Forall (attr_map_ok E) (item_attrs (build_list_item it)).
Lemma list_items_good n fb F K items : Forall (li_good n fb F K) items -> forall dp u A,
  Forall (okE n fb F [K]) (litems (flat_map (reading dp u) items)) -> incl [K] A ->
  Forall (okE n fb F A) (flat_map item_children (map build_list_item items)) /\
  refs (flat_map item_children (map build_list_item items)) = refs (litems (flat_map (reading dp u) items)) /\
  Forall (attr_map_ok E) (flat_map item_attrs (map build_list_item items)).
Proof.
  induction 1 as [|it items Hit _ IH]; intros dp u A Hf HA; cbn [map flat_map].
  - cbn. auto.
  - unfold litems in *. cbn [flat_map] in Hf. rewrite flat_map_app in Hf. apply Forall_app in Hf as [Hf1 Hf2].
    destruct (Hit dp u A Hf1 HA) as (H1 & H2 & H3). destruct (IH dp u A Hf2 HA) as (H4 & H5 & H6).
    rewrite flat_map_app, !refs_app. unfold litems in H2. conj; [apply Forall_app; auto|lia|apply Forall_app; auto].
Qed.
Lemma list_item_good n fb F K it : li_good n fb F K it.
Proof.
  induction it as [es|l items IH] using depth_item_ind'; intros dp u A Hf HA; cbn [build_list_item item_children item_attrs reading] in *.
  - unfold litems in *. cbn [flat_map snd] in *. rewrite app_nil_r in *. conj; auto.
    + eapply Forall_impl; [|exact Hf]. intros e He. eapply okE_up; eauto.
    + constructor; auto. split; [constructor|intros ? ? []].
  - destruct (list_items_good n fb F K items IH (S dp) l ([APListItem] ++ A) Hf) as (H1 & H2 & H3); [apply incl_appr; auto|].
    conj; auto.
    + constructor; auto. constructor; [split; [|cbn; auto]|discriminate|exact H1]. cbn [attrs_of].
      constructor; auto. split; [constructor|intros ? ? []].
    + rewrite refs_one; auto.
Qed.
Lemma build_lists_good n fb F K (trees : list (list_type * list (depth_item list_type elements))) :
  Forall (okE n fb F [K]) (litems (reading_trees trees)) ->
  Forall (okE n fb F [K]) (map build_list trees) /\ refs (map build_list trees) = refs (litems (reading_trees trees)).
Proof.
  induction trees as [|[u items] trees IH]; intros Hf; cbn [map]; [auto|].
  change (reading_trees ((u, items) :: trees)) with (flat_map (reading 0 u) items ++ reading_trees trees) in *.
  unfold litems in *. rewrite flat_map_app in *. apply Forall_app in Hf as [Hf1 Hf2]. destruct (IH Hf2) as [H1 H2].
  destruct (list_items_good n fb F K items) with (dp := 0) (u := u) (A := [APListItem] ++ [K]) as (H3 & H4 & H5); auto.
  { apply Forall_forall. intros it _. apply list_item_good. } { apply incl_appr, incl_refl. }
  split.
  - constructor; auto. constructor; [split; [|cbn; auto]|discriminate|exact H3]. cbn [attrs_of].
    constructor; auto. split; [constructor|intros ? ? []].
  - rewrite refs_cons, refs_app, refs_one by auto. unfold litems in H4. cbn [build_list children fst snd]. lia.
Qed.
Lemma Q_list c p s : inv c p s -> G c (rule_list consume) p s (fun out p' s' => rsucc c s p' s' out).
Proof.
  intros Hi. unfold rule_list. eapply G_bind_.
  { apply (G_looping E toks d c _ _ _ _ (fun '(ds, errs) p' s' => els c s p' s' (litems ds) /\ Forall genuine errs)
      (fun '(ds, errs) p' s' => els c s p' s' (litems ds) /\ Forall genuine errs)); auto.
    { conj; auto. apply els_nil, ext_refl. }
    intros [ds errs] p1 s1 I1 A1 (H1 & H2). apply G_gets_bind.
    apply G_bind_ with (Q := fun _ _ _ => True).
    { destruct (t_token (cur p1)); try (apply G_ret; auto; fail). eapply G_bind_; [apply G_step_; auto|]. intros; apply G_ret; auto. }
    intros [dep|] p2 s2 I2 A2 _; [|apply G_ret; auto; conj; auto; eapply els_mono; eauto].
    destruct (_ <? _); [apply G_fail; auto|]. apply G_gets_bind.
    destruct (get_list_type _) as [lt|]; [|apply G_ret; auto; conj; auto; eapply els_mono; eauto].
    eapply G_bind_; [apply G_step_; auto|]. intros ? p3 s3 I3 A3 [_ L3]. apply G_gets_bind. 
    destruct (negb _); [apply G_ret; auto; conj; auto; eapply els_mono; [exact H1|advt]|].
    eapply G_bind_; [apply G_step_; auto|]. intros ? p4 s4 I4 A4 [_ L4].
    eapply G_bind_; [eapply G_collect_consume; eauto|]. intros out p5 s5 I5 A5 [(K1 & K2 & K3) _].
    apply G_ret; auto. conj.
    - destruct A2, A5. lia.
    - unfold litems. rewrite flat_map_app. cbn [flat_map fst snd]. rewrite app_nil_r.
      eapply (els_app E toks c s p4 s4); [eapply els_mono; [exact H1|advt]|exact A5|exact K1].
    - apply Forall_app; auto. }
  intros [ds errs] p1 s1 I1 A1 (H1 & H3). cbn beta iota. destruct ds as [|d0 ds0]; [apply G_fail; auto|].
  assert (Hu : forall a b, list_type_eqb a b = true <-> a = b) by (intros [] []; cbn; intuition congruence).
  destruct (process_depths_ok list_type_eqb Hu LGeneric (d0 :: ds0)) as (trees & Ht & Hr & _).
  rewrite Ht. apply G_ret_bind. destruct H1 as [H0 H1].
  destruct (build_lists_good (nb s1) (has_footnote_block p1) (cF c) (cK c) trees) as [B1 B2]; [rewrite Hr; auto|].
  rewrite Hr in B2. apply G_ok_flag; auto; [|discriminate]. apply els_elsR. split; auto. lia.
Qed.

(** Every rule of the rule map, in the situations in which it is tried. *)
Lemma rules_ok c t p s r : inv c p s -> cur_tok p = t -> In r (rules_for E consume t) ->
  (rd_position r = StartOfLine -> start_of_line p = true) ->
  G c (rd_fn r) p s (fun out p' s' => rsucc c s p' s' out).
Proof.
  intros Hi Ht Hin Hl.
  assert (Hb : t = TLeftBlock \/ t = TLeftBlockStar -> has_block toks).
  { assert (X : has_token toks (cur_tok p)) by (eapply inv_has; eauto). rewrite Ht in X. intros [-> | ->]; [left|right]; auto. }
  destruct t; cbn [rules_for In R_text R_bibcite R_clear_float_ R_double_angle R_list R_table R_raw_ R_null R_usl] in Hin;
  repeat match type of Hin with _ \/ _ => destruct Hin as [Hin|Hin] end; try contradiction; subst r; cbn [rd_fn rd_position R_text R_bibcite R_clear_float_ R_double_angle R_list R_table R_raw_ R_null R_usl] in *;
  try specialize (Hl eq_refl);
  lazymatch goal with |- ParseInv.G _ _ _ _ ?m _ _ _ => lazymatch m with
    | rule_text => apply Q_text; assumption
    | rule_null => apply Q_null; assumption
    | rule_underscore_line_break => apply Q_usl; assumption
    | rule_table _ => apply Q_table; assumption
    | rule_list _ => apply Q_list; assumption
    | rule_double_angle => apply Q_double_angle; auto
    | rule_clear_float => apply Q_clear_float; assumption
    | rule_bibcite _ => apply Q_bibcite; auto
    | rule_raw _ => apply Q_raw; auto
    | rule_format _ _ _ => apply Q_format; [split; discriminate|reflexivity|assumption|assumption]
    | rule_link_single _ _ _ => apply Q_link_single; assumption
    | rule_link_anchor _ => apply Q_link_anchor; assumption
    | parse_block _ _ _ => apply G_parse_block; auto
    | rule_anchor _ => apply Q_anchor; assumption
    | rule_math _ => apply Q_math; assumption
    | rule_dash => apply Q_dash; assumption
    | rule_horizontal_rule => apply Q_horizontal_rule; assumption
    | rule_center _ => apply Q_center; assumption
    | rule_def_list _ _ => apply Q_def_list; assumption
    | rule_blockquote _ => apply Q_blockquote; assumption
    | rule_header _ _ => apply Q_header; assumption
    | rule_monospace _ => apply Q_monospace; assumption
    | rule_color _ _ => apply Q_color; assumption
    | rule_link_triple _ _ _ => apply Q_link_triple; auto
    | rule_email => apply Q_email; assumption
    | rule_url => apply Q_url; assumption
    | rule_variable => apply Q_variable; assumption
    | block_skip _ _ => apply Q_block_skip; assumption
    | rule_def_skip => apply Q_def_skip; assumption
    | rule_line_break => apply Q_line_break; assumption
    | rule_comment => apply Q_comment; assumption
    end end.
Qed.
End R.
