(** ParseLemmas.v -- consume and parse preserve the invariant. *)
From Verif Require Import Base BaseLemmas Strings Links Attr AttrLemmas Lexer SpecLexer LexerLemmas
  Depth Tree TreeLemmas Text Toc PState Blocks Rules Parse SpecParse ParseInv PStateLemmas BlocksLemmas BlocksLemmas2 RulesLemmas SpecPage.

Section L.
Variables (E : env) (toks : list xtoken).
Hypothesis Htoks : extract_all (en_text E) = Some toks.
Notation inv := (inv E toks).
Notation G := (G E toks).
Notation genuine := (genuine toks).
Notation allowed := (possible_panic E toks).
Notation els := (els E toks).
Notation elsR := (elsR E toks).
Notation succ := (succ E toks).
Notation rsucc := (rsucc E toks).
Notation okE := (okE E toks).
Notation okR := (okR E toks).

Lemma ap_matches_kind a x : ap_matches a x = true -> pkind x = a.
Proof. destruct a, x; cbn; congruence. Qed.
Lemma check_partials_none es p : check_partials es p = None ->
  forall x, In (EPartial x) es -> pkind x = accepts_partial p.
Proof.
  induction es as [|e es IH]; [intros _ x []|]. cbn [check_partials]. intros H x.
  destruct e; try (intros [Hx|Hx]; [discriminate Hx|auto]; fail).
  destruct (ap_matches (accepts_partial p) p0) eqn:Em; [|discriminate].
  intros [[= <-]|Hx]; auto. apply ap_matches_kind in Em. auto.
Qed.
Lemma rsucc_succ c s0 p s out : rsucc c s0 p s out -> (forall x, In (EPartial x) (su_item out) -> pkind x = cK c) -> succ c s0 p s out.
Proof.
  intros [[H1 H2] H3] Hx. split; auto. split; auto. apply Forall_forall. intros e He. rewrite Forall_forall in H1.
  apply okR_okE; auto. intros x ->. left. symmetry. auto.
Qed.
Lemma check_partials_genuine d c es p s e : inv d c p s -> check_partials es p = Some e -> genuine e.
Proof.
  intros Hi. induction es as [|x es IH]; cbn [check_partials]; [discriminate|].
  destruct x; auto. destruct (ap_matches _ _); auto. intros [= <-]. eapply genuine_cur; eauto.
Qed.
Lemma G_try_consume d c r p s : inv d c p s ->
  ((rd_position r = StartOfLine -> start_of_line p = true) -> G d c (rd_fn r) (with_rule (rd_name r) p) s (fun out p' s' => rsucc c s p' s' out)) ->
  match try_consume r p s with
  | ROk out p' s' => inv d c p' s' /\ adv p s p' s' /\ succ c s p' s' out
  | RErr e p' s' => p' = p /\ inv d c p s' /\ adv p s p s' /\ genuine e
  | RPanic w => allowed w
  | RFuel => False
  end.
Proof.
  intros Hi Hr. unfold try_consume.
  destruct (match rd_position r with AnyPosition => false | StartOfLine => negb (start_of_line p) end) eqn:Ep.
  { conj; auto; [apply adv_refl|eapply genuine_cur; eauto]. }
  assert (Hr' : G d c (rd_fn r) (with_rule (rd_name r) p) s (fun out p' s' => rsucc c s p' s' out)).
  { apply Hr. intro X. rewrite X in Ep. destruct (start_of_line p); auto. }
  clear Hr. unfold ParseInv.G in Hr'. destruct (rd_fn r _ s) as [out q s'|e q s'|w|]; auto.
  - destruct Hr' as (I1 & A1 & H). assert (I2 : inv d c p s') by (eapply inv_shared; [exact Hi|apply I1]).
    assert (A2 : adv p s p s') by (eapply adv_back; exact A1).
    destruct (check_partials (su_item out) p) eqn:Ec; [conj; auto; eapply check_partials_genuine; eauto|].
    conj; [exact (inv_update E toks d c p q s Hi s' I1)|exact A1|]. apply rsucc_succ; auto. intros x Hx.
    rewrite (check_partials_none _ _ Ec x Hx). apply Hi.
  - destruct Hr' as (I1 & A1 & H). conj; auto; [eapply inv_shared; [exact Hi|apply I1]|eapply adv_back; exact A1].
Qed.

Lemma G_consume_rules d c t rules : forall errs p s,
  inv (S d) c p s -> cur_tok p = t -> Forall genuine errs ->
  (forall r p s, In r rules -> inv (S d) c p s -> cur_tok p = t -> (rd_position r = StartOfLine -> start_of_line p = true) ->
     G (S d) c (rd_fn r) p s (fun out p' s' => rsucc c s p' s' out)) ->
  match consume_rules rules errs p s with
  | ROk (inl out) p' s' => inv d c p' s' /\ adv p s p' s' /\ succ c s p' s' out /\ length (rem p') < length (rem p)
  | ROk (inr errs') p' s' => p' = p /\ inv (S d) c p s' /\ adv p s p s' /\ Forall genuine errs'
  | RErr e p' s' => inv d c p' s' /\ adv p s p' s' /\ genuine e
  | RPanic w => allowed w
  | RFuel => False
  end.
Proof.
  induction rules as [|r rules IH]; intros errs p s Hi Ht Hg Hr.
  { cbn. conj; auto. apply adv_refl. }
  cbn [consume_rules]. unfold bind at 1, gets at 1, attempt. unfold bind at 1.
  pose proof (G_try_consume (S d) c r p s Hi) as H0.
  assert (Hi' : inv (S d) c (with_rule (rd_name r) p) s) by (destruct Hi; split; auto).
  specialize (H0 (fun Hl => Hr r _ _ (or_introl eq_refl) Hi' Ht Hl)).
  destruct (try_consume r p s) as [out p1 s1|e p1 s1|w|]; auto.
  - destruct H0 as (I1 & A1 & K1).
    pose proof (G_step_if_same E toks (S d) c (rem p) p1 s1 I1 (proj1 A1)) as H1. unfold ParseInv.G in H1.
    unfold bind at 1. destruct (step_if_same (rem p) p1 s1) as [u p2 s2|e p2 s2|w|]; auto.
    + destruct H1 as (I2 & A2 & L2). cbn. assert (I3 : inv d c (with_depth (depth p2 - 1) p2) s2).
      { destruct I2. split; auto. cbn. lia. }
      conj; auto.
      * exact (adv_trans _ _ _ _ _ _ A1 A2).
      * destruct K1 as (K1 & K2 & K3). split; auto. eapply els_mono; [exact K1|exact A2].
    + destruct H1 as (I2 & A2 & Hge). conj; auto; [eapply inv_mono; [|exact I2]; lia|exact (adv_trans _ _ _ _ _ _ A1 A2)].
  - destruct H0 as (-> & I1 & A1 & Hge).
    assert (Hg' : Forall genuine (errs ++ [e])) by (apply Forall_app; auto).
    specialize (IH (errs ++ [e]) p s1 I1 Ht Hg' (fun r p s Hin => Hr r p s (or_intror Hin))).
    destruct (consume_rules rules (errs ++ [e]) p s1) as [[out|errs'] p2 s2|e2 p2 s2|w|]; auto.
    + destruct IH as (I2 & A2 & K2 & L2). conj; auto; [exact (adv_trans _ _ _ _ _ _ A1 A2)|].
      destruct K2 as ((K2 & K2') & K3). split; auto. split; auto. destruct A1 as (_ & A1 & _). apply ext_nf in A1. lia.
    + destruct IH as (-> & I2 & A2 & K2). conj; auto. exact (adv_trans _ _ _ _ _ _ A1 A2).
    + destruct IH as (I2 & A2 & K2). conj; auto. exact (adv_trans _ _ _ _ _ _ A1 A2).
Qed.
Lemma deep_fails {A} (k : unit -> M A) p s : MAX_RECURSION_DEPTH <= depth p ->
  bind depth_increment k p s = RErr (make_err RecursionDepthExceeded p) (with_depth (depth p + 1) p) s.
Proof.
  intro H. unfold bind, depth_increment, bind, modify, gets. cbn [depth with_depth]. destruct (Nat.ltb_spec MAX_RECURSION_DEPTH (depth p + 1)); [|lia].
  reflexivity.
Qed.
Lemma inv_deeper d c p s : inv d c p s -> inv (S d) c (with_depth (depth p + 1) p) s.
Proof. intros []. split; auto. cbn. lia. Qed.
Lemma G_consume_with d c p s rules_for : inv d c p s ->
  (forall t r p s, In r (rules_for t) -> inv (S d) c p s -> cur_tok p = t -> (rd_position r = StartOfLine -> start_of_line p = true) ->
     G (S d) c (rd_fn r) p s (fun out p' s' => rsucc c s p' s' out)) ->
  G d c (consume_with rules_for) p s (fun out p' s' => succ c s p' s' out /\ length (rem p') < length (rem p)).
Proof.
  intros Hi Hr. unfold consume_with. unfold ParseInv.G. unfold depth_increment at 1, bind at 1, bind at 1, modify at 1, bind at 1, gets at 1.
  pose proof (inv_deeper d c p s Hi) as I1. set (p1 := with_depth (depth p + 1) p) in *.
  assert (Hg0 : genuine (make_err RecursionDepthExceeded p1)) by (eapply genuine_cur; eauto).
  destruct (MAX_RECURSION_DEPTH <? depth p1).
  { cbn [fail]. conj; [eapply inv_mono; [|exact I1]; lia|exact (adv_refl p s)|exact Hg0]. }
  cbn [ret]. unfold gets at 1. unfold bind at 1.
  pose proof (G_consume_rules d c (cur_tok p1) (rules_for (cur_tok p1)) [] p1 s I1 eq_refl (Forall_nil _) (Hr (cur_tok p1))) as H1.
  unfold bind at 1. change (t_token (cur p1)) with (cur_tok p1).
  destruct (consume_rules _ [] p1 s) as [[out|errs'] p2 s2|e2 p2 s2|w|]; auto.
  - destruct H1 as (-> & I2 & A2 & K2). 
    pose proof (G_step E toks (S d) c p1 s2 I2) as H3. unfold ParseInv.G in H3. unfold bind at 1.
    destruct (step p1 s2) as [t3 p3 s3|e3 p3 s3|w|]; auto.
    + destruct H3 as (I3 & A3 & _ & L3 & -> & _).
      assert (A4 : adv p s p3 s2) by exact (adv_trans _ _ _ _ _ _ A2 A3).
      assert (Hs : substr (t_slice (cur p1)) (en_text E)) by (eapply cur_slice; eauto).
      assert (Hge : genuine (perr_new NoRulesMatch "fallback" (cur p1))).
      { exists (cur p1). split; [eapply inv_cur; eauto|]. auto. }
      assert (I5 : inv d c (with_depth (depth p3 - 1) p3) s2) by (destruct I3; split; auto; cbn; lia).
      assert (Hgo : match (depth_decrement;; ok_derived [EText (t_slice (cur p1))] (errs' ++ [perr_new NoRulesMatch "fallback" (cur p1)])) p3 s2 with
         | ROk a p' s' => inv d c p' s' /\ adv p s p' s' /\ succ c s p' s' a /\ length (rem p') < length (rem p)
         | RErr e p' s' => inv d c p' s' /\ adv p s p' s' /\ genuine e
         | RPanic w => allowed w | RFuel => False end).
      { cbn [bind depth_decrement modify ok_derived all_paragraph_safe paragraph_safe or_panic ret]. cbn.
        conj; [exact I5|exact A4| |change (length (rem p1)) with (length (rem p)) in L3; lia]. split; [|split]; cbn [su_item su_safe su_errors].
        - split; [|cbn; destruct A2 as (_ & A2 & _); apply ext_nf in A2; exact A2]. constructor; auto. constructor.
          + split; cbn; auto. left. auto.
          + discriminate.
          + constructor.
        - intros _. constructor; auto. discriminate.
        - apply Forall_app; auto. }
      unfold bind at 1. destruct (rev errs') as [|e0 r0] eqn:Er; [exact Hgo|]. destruct (kind_eqb _ _); [|exact Hgo].
      cbn [raise]. conj; auto; [eapply inv_mono; [|exact I3]; lia|]. rewrite Forall_forall in K2. apply K2. apply in_rev. rewrite Er. left. auto.
    + destruct H3 as (I3 & A3 & K3). conj; auto; [eapply inv_mono; [|exact I3]; lia|exact (adv_trans _ _ _ _ _ _ A2 A3)].
Qed.

Lemma G_consume_n n : forall d, MAX_RECURSION_DEPTH <= d + n -> forall c p s, inv d c p s ->
  G d c (consume_n E n) p s (fun out p' s' => succ c s p' s' out /\ length (rem p') < length (rem p)).
Proof.
  induction n as [|n IH]; intros d Hn c p s Hi; cbn [consume_n].
  - unfold ParseInv.G. rewrite deep_fails; [|destruct Hi; lia]. pose proof (inv_deeper d c p s Hi) as I1.
    conj; [eapply inv_mono; [|exact I1]; lia|exact (adv_refl p s)|]. eapply genuine_cur; eauto.
  - apply G_consume_with; auto. intros t r p1 s1 Hin I1 Ht Hl.
    eapply rules_ok; eauto. apply IH. lia.
Qed.
Lemma G_consume c p s : inv 0 c p s ->
  G 0 c (consume E) p s (fun out p' s' => succ c s p' s' out /\ length (rem p') < length (rem p)).
Proof. apply G_consume_n. auto. Qed.

(** *** The start of the parse. *)
Lemma toks_cons : exists mid, toks = XT TInputStart [] 0 0 :: mid ++ [XT TInputEnd [] (blen (en_text E)) (blen (en_text E))].
Proof. destruct (extract_all_spec (en_text E)) as (mid & He & _). rewrite Htoks in He. injection He as ->. eauto. Qed.
Definition top : ctx := CX APNone false.
Lemma shared_new_ok : shared_ok E toks shared_new.
Proof. split; cbn; auto; [constructor|contradiction|contradiction]. Qed.
Lemma inv_new p : parser_new toks = Some p -> inv 0 top p shared_new.
Proof.
  unfold parser_new. destruct toks as [|t ts] eqn:Et; [discriminate|]. intros [= <-]. rewrite <- Et. split; auto using shared_new_ok.
  - exists []. cbn. auto.
  - intro X. contradiction X; auto.
Qed.

(** *** Only the recursion limit makes consume fail, except at the end of the input. *)
Lemma consume_error n p s e q s' c d : MAX_RECURSION_DEPTH <= d + n -> inv d c p s -> rem p <> [] ->
  consume_n E n p s = RErr e q s' -> pe_kind e = RecursionDepthExceeded.
Proof.
  intros Hn Hi Hr H. destruct n as [|n].
  { cbn [consume_n] in H. rewrite deep_fails in H; [|destruct Hi; lia]. injection H as <- _ _. auto. }
  cbn [consume_n] in H.
  assert (Hrules : forall t r p s, In r (rules_for E (consume_n E n) t) -> inv (S d) c p s -> cur_tok p = t -> (rd_position r = StartOfLine -> start_of_line p = true) ->
     G (S d) c (rd_fn r) p s (fun out p' s' => rsucc c s p' s' out)).
  { intros t r p1 s1 Hin I1 Ht Hl. eapply rules_ok; eauto. intros. apply G_consume_n; auto. lia. }
  unfold consume_with in H. unfold depth_increment at 1, bind at 1, bind at 1, modify at 1, bind at 1, gets at 1 in H.
  pose proof (inv_deeper d c p s Hi) as I1. set (p1 := with_depth (depth p + 1) p) in *.
  destruct (MAX_RECURSION_DEPTH <? depth p1); [injection H as <- _ _; auto|].
  cbn [ret] in H. unfold gets at 1, bind at 1 in H. unfold bind at 1 in H. change (t_token (cur p1)) with (cur_tok p1) in H.
  assert (Hstep : forall rules errs s, inv (S d) c p1 s -> Forall genuine errs -> (forall r, In r rules -> In r (rules_for E (consume_n E n) (cur_tok p1))) ->
     match consume_rules rules errs p1 s with RErr _ _ _ => False | ROk (inr _) q _ => q = p1 | _ => True end).
  { clear H. induction rules as [|r rules IH]; intros errs s1 I2 Hg Hin; [cbn; auto|].
    cbn [consume_rules]. unfold bind at 1, gets at 1, attempt. unfold bind at 1.
    pose proof (G_try_consume (S d) c r p1 s1 I2) as H0.
    assert (Hi' : inv (S d) c (with_rule (rd_name r) p1) s1) by (destruct I2; split; auto).
    specialize (H0 (fun Hl => Hrules (cur_tok p1) r _ _ (Hin r (or_introl eq_refl)) Hi' eq_refl Hl)).
    destruct (try_consume r p1 s1) as [out p2 s2|e2 p2 s2|w|]; auto.
    - destruct H0 as (I3 & A3 & _). unfold bind at 1. unfold step_if_same, bind at 1, gets at 1, same_pointer.
      destruct (Nat.eqb_spec (length (rem p2)) (length (rem p1))) as [El|El]; [|cbn; auto].
      unfold bind at 1, step. destruct (rem p2) as [|t2 r2] eqn:Er; [|cbn; auto].
      exfalso. apply Hr. change (rem p1) with (rem p) in El. destruct (rem p); auto. discriminate.
    - destruct H0 as (-> & I3 & A3 & Hge). apply IH; auto; [apply Forall_app; auto|]. intros r2 H2. apply Hin. right. auto. }
  specialize (Hstep _ [] s I1 (Forall_nil _) (fun r H => H)).
  destruct (consume_rules _ [] p1 s) as [[out|errs'] p2 s2|e2 p2 s2|w|]; try discriminate; try contradiction.
  subst p2. unfold bind at 1, step in H. change (rem p1) with (rem p) in H. destruct (rem p) as [|t2 r2]; [contradiction Hr; auto|].
  unfold bind at 1 in H. destruct (rev errs') as [|e0 r0]; [discriminate|]. destruct (kind_eqb (pe_kind e0) RecursionDepthExceeded) eqn:Ek; [|discriminate].
  injection H as <- _ _. unfold kind_eqb in Ek. destruct (error_kind_eq_dec _ _); auto. discriminate.
Qed.
Lemma not_end_rem d c p s : inv d c p s -> cur_tok p <> TInputEnd -> rem p <> [].
Proof. intros Hi Hn Hr. apply Hn. eapply last_is_end; eauto. Qed.
Lemma top_error rule p s e q s' : inv 0 top p s -> gather_paragraphs (consume E) rule None p s = RErr e q s' ->
  pe_kind e = RecursionDepthExceeded.
Proof.
  intros Hi0 H. unfold gather_paragraphs in H. unfold bind at 1, set_rule, modify in H.
  assert (Hi : inv 0 top (with_rule rule p) s) by (destruct Hi0; split; auto). clear Hi0. unfold bind at 1 in H.
  revert H. unfold looping. generalize (Datatypes.S (length (rem (with_rule rule p)))) as n. 
  generalize (ps_new, @nil perr, true) as st. revert Hi. generalize (with_rule rule p) as p1. revert s.
  intros s p1 Hi st n. revert s p1 Hi st.
  induction n as [|n IH]; intros s p1 Hi [[st errs] first]; [cbn; discriminate|].
  cbn [loop]. unfold bind at 1.
  set (body := bind (gets cur_tok) _ p1 s). 
  assert (Hb : match body with
     | ROk (inl _) p' s' => inv 0 top p' s' | ROk (inr _) _ _ => True | RErr e _ _ => pe_kind e = RecursionDepthExceeded | _ => True end).
  { unfold body. unfold bind at 1, gets at 1. destruct (tok_eqb_spec (cur_tok p1) TInputEnd) as [Et|Et]; [rewrite Et; cbn; auto|].
    destruct (tok_eqb_spec (cur_tok p1) TParagraphBreak) as [Et2|Et2].
    { rewrite Et2. unfold bind at 1. pose proof (G_step E toks 0 top p1 s Hi) as X. unfold ParseInv.G in X.
      pose proof (not_end_rem _ _ _ _ Hi Et) as Y. unfold step in *. destruct (rem p1); [contradiction Y; auto|]. cbn. apply X. }
    assert (X : match (let! closed := ret false in if closed : bool then ret (inr (st, errs))
                 else let! out := consume E in ret (inl (push_elements st (su_item out) (su_safe out), errs ++ su_errors out, false))) p1 s with
     | ROk (inl _) p' s' => inv 0 top p' s' | ROk (inr _) _ _ => True | RErr e _ _ => pe_kind e = RecursionDepthExceeded | _ => True end).
    { unfold bind at 1, ret at 1. unfold bind at 1. pose proof (G_consume top p1 s Hi) as X. unfold ParseInv.G in X.
      destruct (consume E p1 s) as [out p2 s2|e2 p2 s2|w|] eqn:Ec; auto; [apply X|].
      eapply (consume_error MAX_RECURSION_DEPTH p1 s e2 p2 s2 top 0); eauto. eapply not_end_rem; eauto. }
    destruct (cur_tok p1); auto; congruence. }
  destruct body as [[st'|[st' er']] p2 s2|e2 p2 s2|w|]; try discriminate.
  - intro H. eapply IH; [|exact H]. exact Hb.
  - cbn. unfold bind. destruct (into_result st') as [[? ?]|]; cbn; discriminate.
  - intros [= <- _ _]. exact Hb.
Qed.

(** *** The whole parse. *)
Definition good_list (nbib : nat) (fb F : bool) (es : list element) : Prop := exists A, Forall (okE nbib fb F A) es.
Record page_ok (t : tree) : Prop := {
  po_elements : exists body p, tr_elements t = body ++ (if has_footnote_block p then [] else [EFootnoteBlock None false]) /\
     Forall (okE (length (tr_bibs t)) (has_footnote_block p) false [APNone]) body /\ refs body <= length (tr_footnotes t);
  po_shared : shared_ok E toks (SH [] (tr_html t) (tr_code t) (tr_footnotes t) (tr_bibs t));
  po_toc : exists hs, build_toc hs = Some (tr_toc t) /\ Forall (fun h => fst h <= 5) hs;
  po_errors : Forall genuine (tr_errors t) }.
Lemma parse_ok : match parse E toks with
  | Parsed t => page_ok t \/
      exists e, tr_elements t = [EText (en_text E)] /\ tr_footnotes t = [] /\ tr_bibs t = [] /\ tr_toc t = [] /\
         shared_ok E toks (SH [] (tr_html t) (tr_code t) [] []) /\ tr_errors t = [e] /\ genuine e /\ pe_kind e = RecursionDepthExceeded
  | ParsePanic w => allowed w
  | ParseFuel => False
  end.
Proof.
  unfold parse. destruct (parser_new toks) as [p|] eqn:En.
  2:{ exfalso. destruct toks_cons as [mid X]. rewrite X in En. discriminate. }
  pose proof (inv_new p En) as Hi.
  assert (HG : G 0 top (gather_paragraphs (consume E) "page" None) p shared_new (fun out p' s' => succ top shared_new p' s' out)).
  { apply G_gather_paragraphs; auto. intros; apply G_consume; auto. discriminate. }
  unfold ParseInv.G in HG. destruct (gather_paragraphs (consume E) "page" None p shared_new) as [out q s|e q s|w|] eqn:Eg; auto.
  - destruct HG as (I1 & _ & (K1 & K2) & _ & K3). destruct (TreeLemmas.build_toc_ok (sh_toc s)) as (toc & Ht & _). rewrite Ht. left.
    destruct I1 as [_ _ _ _ _ [S1 S2 S3 S4 S4a S4b S5 S6]]. split; cbn [tr_elements tr_bibs tr_footnotes tr_html tr_code tr_toc tr_errors]; auto.
    + exists (su_item out), q. conj; [reflexivity|exact K1|]. unfold nf in K2. cbn in K2. lia.
    + split; auto. constructor.
    + eauto.
  - destruct HG as (I1 & _ & Hg). right. exists e. cbn [tr_elements tr_bibs tr_footnotes tr_html tr_code tr_toc tr_errors]. conj; auto.
    + destruct I1 as [_ _ _ _ _ [S1 S2 S3 S4 S4a S4b S5 S6]]. split; cbn; auto; contradiction.
    + eapply top_error; [|exact Eg]. auto.
Qed.

Lemma okE_occurs n fb F A e x : okE n fb F A e -> occurs x e -> element_ok E toks n fb F x.
Proof.
  intros H Ho. revert A H. induction Ho as [|e y Hy Ho IH]; intros A H; inversion H as [A' e' H1 H2 H3]; subst; auto.
  rewrite Forall_forall in H3. eapply IH; eauto.
Qed.
Lemma okE_path n fb F anc : forall A es x, Forall (okE n fb F A) es -> at_path es anc x ->
  element_ok E toks n fb F x /\ forall y, x = EPartial y -> (In (pkind y) A \/ exists a, In a anc /\ In (pkind y) (opens a)) /\ has_block toks.
Proof.
  induction anc as [|a anc IH]; intros A es x H Hp; cbn [at_path] in Hp.
  - rewrite Forall_forall in H. pose proof (H x Hp) as X. inversion X as [A' e' H1 H2 H3]. subst. split; auto. intros y Hy. destruct (H2 y Hy). auto.
  - destruct Hp as [Hin Hp]. rewrite Forall_forall in H. pose proof (H a Hin) as X. inversion X as [A' e' H1 H2 H3]. subst.
    destruct (IH (opens a ++ A) (children a) x H3 Hp) as [H4 H5]. split; auto. intros y Hy. destruct (H5 y Hy) as [[H6|(b & H6 & H7)] H8].
    + apply in_app_or in H6 as [H6|H6]; split; auto. right. exists a. split; [left; auto|auto].
    + split; auto. right. exists b. split; [right; auto|auto].
Qed.
Lemma auto_block n F A : okE n true F A (EFootnoteBlock None false).
Proof. constructor; [split; cbn; auto|discriminate|constructor]. Qed.
Lemma fallback_ok n F A : okE n true F A (EText (en_text E)).
Proof. constructor; [split; cbn; auto|discriminate|constructor]. left. apply substr_refl. Qed.
(** All lists of a parsed page. *)
Lemma page_elements t : parse E toks = Parsed t -> Forall (okE (length (tr_bibs t)) true false [APNone]) (tr_elements t).
Proof.
  intro H. pose proof parse_ok as P. rewrite H in P. destruct P as [[(body & p & -> & Hb & _) _ _ _]|(e & -> & _)].
  - apply Forall_app. split.
    + eapply Forall_impl; [|exact Hb]. intros x Hx. eapply okE_mono; [auto|exact (fun _ => eq_refl)|exact (fun x => x)|exact Hx|apply incl_refl].
    + destruct (has_footnote_block p); auto. constructor; auto. apply auto_block.
  - constructor; auto. apply fallback_ok.
Qed.
Lemma page_shared t : parse E toks = Parsed t -> shared_ok E toks (SH [] (tr_html t) (tr_code t) (tr_footnotes t) (tr_bibs t)).
Proof.
  intro H. pose proof parse_ok as P. rewrite H in P. destruct P as [[_ Hs _ _]|(e & _ & -> & -> & _ & Hs & _)]; auto.
Qed.
Lemma on_page_ok t x : parse E toks = Parsed t -> on_page t x ->
  exists F, element_ok E toks (length (tr_bibs t)) true F x.
Proof.
  intros H (es & Hin & e & He & Ho). pose proof (page_elements t H) as H1. pose proof (page_shared t H) as [_ _ _ _ _ _ H2 H3]. cbn in H2, H3.
  destruct Hin as [<-|Hin].
  - rewrite Forall_forall in H1. exists false. eapply okE_occurs; eauto.
  - apply in_app_or in Hin as [Hin|Hin].
    + rewrite Forall_forall in H2. specialize (H2 es Hin). rewrite Forall_forall in H2. exists true. eapply okE_occurs; eauto.
    + apply in_flat_map in Hin as (b & Hb & Hin). apply in_map_iff in Hin as (le & <- & Hle).
      rewrite Forall_forall in H3. destruct (H3 b Hb) as [_ H4]. rewrite Forall_forall in H4. specialize (H4 le Hle).
      rewrite Forall_forall in H4. exists false. eapply okE_occurs; eauto.
Qed.
End L.
