(** PStateLemmas.v -- the operations of PState.v preserve the invariant of ParseInv.v. *)
From Verif Require Import Base BaseLemmas Strings Links Attr AttrLemmas Lexer SpecLexer LexerLemmas
  Depth Tree TreeLemmas Text PState SpecParse ParseInv.

(** Chains of [adv]. *)
Ltac advt :=
  match goal with
  | |- adv ?p ?s ?p ?s => apply adv_refl
  | H : adv ?p ?s ?q ?t |- adv ?p ?s ?q ?t => exact H
  | H : adv ?p ?s ?q ?t |- adv ?p ?s _ _ => apply (adv_trans _ _ _ _ _ _ H); advt
  end.
Ltac extt := match goal with |- ext ?s ?t =>
  match goal with H : adv ?p s _ _ |- _ => 
    match goal with H' : adv _ _ ?q t |- _ => apply (proj1 (proj2 (ltac:(advt) : adv p s q t))) end end
  | |- ext ?s ?s => apply ext_refl end.
Ltac len := repeat match goal with H : adv _ _ _ _ |- _ => apply (@proj1 _ _) in H end; cbn in *; lia.

Lemma tok_eqb_spec a b : Bool.reflect (a = b) (tok_eqb a b).
Proof. unfold tok_eqb. destruct (token_eq_dec a b); constructor; auto. Qed.

Section P.
Variables (E : env) (toks : list xtoken).
Hypothesis Htoks : extract_all (en_text E) = Some toks.
Variable d : nat.
Notation inv := (inv E toks d).
Notation G := (G E toks d).
Notation genuine := (genuine toks).
Notation allowed := (possible_panic E toks).
Notation els := (els E toks).
Notation elsR := (elsR E toks).
Notation succ := (succ E toks).
Notation rsucc := (rsucc E toks).
Notation okE := (okE E toks).
Notation okR := (okR E toks).
Notation text := (en_text E).

Lemma G_any {A} c (m : M A) p s V : G c m p s V -> G c m p s (fun _ _ _ => True).
Proof. intro H. eapply G_conseq; [exact H|]. auto. Qed.
Lemma G_step_ c p s : inv c p s -> G c step p s (fun t p' s' => t = cur p' /\ length (rem p') < length (rem p)).
Proof. intro H. eapply G_conseq; [apply G_step; auto|]. cbn. intros a p' s' _ _ (H1 & H2 & _). split; auto. lia. Qed.
Lemma G_step_n n : forall c p s, inv c p s -> G c (step_n n) p s (fun _ p' _ => length (rem p') + n <= length (rem p)).
Proof.
  induction n as [|n IH]; intros c p s Hi; cbn [step_n].
  - apply G_ret; auto. lia.
  - eapply G_bind_; [apply G_step_; auto|]. intros a p1 s1 I1 A1 [_ H1]. eapply G_conseq; [apply IH; auto|].
    cbn. intros ? p2 s2 _ _ H2. lia.
Qed.
Lemma G_check_step c t p s : inv c p s -> (cur_tok p = t \/ allowed PanicCheckStep) ->
  G c (check_step t) p s (fun x p' s' => x = cur p /\ cur_tok p = t /\ length (rem p') < length (rem p)).
Proof.
  intros Hi Ht. unfold check_step. apply G_gets_bind. destruct (tok_eqb_spec (t_token (cur p)) t) as [Et|Et].
  - eapply G_bind_; [apply G_step_; auto|]. intros a p1 s1 I1 A1 [_ H1]. apply G_ret; auto.
  - destruct Ht as [Ht|Ht]; [contradiction|]. apply G_panic; auto.
Qed.
Lemma G_get_token c t k p s : inv c p s ->
  G c (get_token t k) p s (fun sl p' s' => cur_tok p = t /\ sl = t_slice (cur p) /\ length (rem p') < length (rem p)).
Proof.
  intros Hi. unfold get_token. apply G_gets_bind. destruct (tok_eqb_spec (t_token (cur p)) t) as [Et|Et].
  - eapply G_bind_; [apply G_step_; auto|]. intros a p1 s1 I1 A1 [_ H1]. apply G_ret; auto.
  - apply G_fail; auto.
Qed.
Lemma G_get_optional_token c t p s : inv c p s -> G c (get_optional_token t) p s (fun _ _ _ => True).
Proof.
  intros Hi. unfold get_optional_token. apply G_gets_bind. destruct (is_tok t p).
  - eapply G_bind_; [apply G_step_; auto|]. intros. apply G_ret; auto.
  - apply G_ret; auto.
Qed.
Lemma G_get_optional_space c p s : inv c p s -> G c get_optional_space p s (fun _ _ _ => True).
Proof. apply G_get_optional_token. Qed.
Lemma G_get_optional_line_break c p s : inv c p s -> G c get_optional_line_break p s (fun _ _ _ => True).
Proof. apply G_get_optional_token. Qed.
Lemma G_get_optional_spaces_any c p s : inv c p s -> G c get_optional_spaces_any p s (fun _ _ _ => True).
Proof.
  intros Hi. unfold get_optional_spaces_any. eapply (G_looping _ _ d c _ _ _ _ (fun _ _ _ => True)); auto.
  intros st p1 s1 I1 A1 _. apply G_gets_bind. destruct (is_any _ p1).
  - eapply G_bind_; [apply G_step_; auto|]. intros a p2 s2 I2 A2 [_ H2]. apply G_ret; auto.
  - apply G_ret; auto.
Qed.
Lemma G_look_ahead_err c n p s : inv c p s ->
  G c (look_ahead_err n) p s (fun t p' s' => In t toks /\ p' = p /\ s' = s /\ nth_error (rem p) n = Some t).
Proof.
  intros Hi. pose proof Hi as [(pre & Hp & _) _ _ _ _ _]. unfold ParseInv.G, look_ahead_err, look_ahead.
  destruct (nth_error (rem p) n) as [t|] eqn:En.
  - split; auto. split; [apply adv_refl|]. conj; auto. rewrite Hp. apply in_or_app. right. right. eapply nth_error_In; eauto.
  - split; auto. split; [apply adv_refl|]. eapply genuine_cur; eauto.
Qed.
Lemma G_set_rule_ c r p s : inv c p s -> G c (set_rule r) p s (fun _ _ _ => True).
Proof. intro H. eapply G_any, G_set_rule; auto. Qed.
Lemma G_step_if_same c old p s : inv c p s -> length (rem p) <= length old ->
  G c (step_if_same old) p s (fun _ p' _ => length (rem p') < length old).
Proof.
  intros Hi Hl. unfold step_if_same. apply G_gets_bind. unfold same_pointer. destruct (Nat.eqb_spec (length (rem p)) (length old)) as [Hs|Hs].
  - eapply G_bind_; [apply G_step_; auto|]. intros a p2 s2 I2 A2 [_ H2]. apply G_ret; auto. lia.
  - apply G_ret; auto. lia.
Qed.

(** *** Results. *)
Lemma all_safe_none c s0 p s es : elsR c s0 p s es -> all_paragraph_safe es = None -> has_block toks.
Proof.
  intros [H _]. induction H as [|e es [_ [H1 _]] _ IH]; cbn; [discriminate|].
  destruct (paragraph_safe e) as [[]|] eqn:Ep; auto; [discriminate|]. intros _.
  destruct e; try discriminate. eapply H1; reflexivity.
Qed.
Lemma all_safe_inline es : all_paragraph_safe es = Some true -> Forall inline_element es.
Proof.
  induction es as [|e es IH]; cbn; auto. intro H. constructor.
  - unfold inline_element. destruct (paragraph_safe e) as [[]|]; congruence.
  - destruct (paragraph_safe e) as [[]|]; try discriminate; auto.
Qed.
Lemma G_ok_derived c s0 p s es errs : inv c p s -> elsR c s0 p s es -> Forall genuine errs ->
  G c (ok_derived es errs) p s (fun out p' s' => rsucc c s0 p' s' out).
Proof.
  intros Hi He Hg. unfold ok_derived. apply G_or_panic; [intro X; eapply all_safe_none; eauto|].
  intros b Hb. apply G_ret; auto. split; [|split]; auto. cbn. intros ->. apply all_safe_inline; auto.
Qed.
Lemma G_ok_flag c s0 p s b es errs : inv c p s -> elsR c s0 p s es -> (b = true -> Forall inline_element es) -> Forall genuine errs ->
  G c (ok_flag b es errs) p s (fun out p' s' => rsucc c s0 p' s' out).
Proof. intros Hi He Hb Hg. unfold ok_flag. apply G_ret; auto. split; [|split]; auto. Qed.

(** *** collect. *)
(** Where [collect] leaves the parser: behind the token that closed it. *)
Definition ended (close : list condition_) (p : pstate) : Prop :=
  exists q, evaluate_any close q = true /\ (cur_tok p = TInputEnd \/ cur_tok q <> TInputEnd /\ start_of_line p = line_start_token (cur_tok q)).
Lemma G_collect {S} c close invalid kind (process : S -> M (success S)) init p s (I : S -> bool -> pstate -> shared -> Prop) :
  inv c p s -> I init true p s ->
  (forall st b p1 s1 p2 s2, I st b p1 s1 -> adv p1 s1 p2 s2 -> I st b p2 s2) ->
  (forall st b p1 s1, inv c p1 s1 -> adv p s p1 s1 -> I st b p1 s1 ->
     G c (process st) p1 s1 (fun out p' s' => I (su_item out) (b && su_safe out) p' s' /\ Forall genuine (su_errors out))) ->
  G c (collect close invalid kind process init) p s (fun out p' s' =>
    I (fst (su_item out)) (su_safe out) p' s' /\ Forall genuine (su_errors out) /\ ended close p' /\
    exists q, evaluate_any close q = true /\ cur q = snd (su_item out)).
Proof.
  intros Hi H0 Hm Hp. unfold collect.
  apply (G_looping _ _ d c _ _ _ _ (fun '(st, errs, safe) p1 s1 => I st safe p1 s1 /\ Forall genuine errs)); auto.
  intros [[st errs] safe] p1 s1 I1 A1 [H1 H2]. apply G_gets_bind. destruct (evaluate_any close p1) eqn:Ec.
  { apply G_gets_bind. apply G_bind_ with (Q := fun _ p' _ => cur_tok p' = TInputEnd \/ cur_tok p1 <> TInputEnd /\ start_of_line p' = line_start_token (cur_tok p1)).
    - destruct (tok_eqb_spec (t_token (cur p1)) TInputEnd); [apply G_ret; auto|]. eapply G_bind_; [apply G_step; auto|]. cbn beta.
      intros t p2 s2 I2 A2 (_ & _ & _ & _ & _ & Hl). apply G_ret; auto.
    - intros ? p2 s2 I2 A2 Hl. apply G_ret; auto. cbn [su_item su_safe su_errors fst snd]. conj; eauto. exists p1. auto. }
  apply G_gets_bind. destruct (evaluate_any invalid p1); [apply G_fail; auto|].
  apply G_gets_bind. destruct (is_tok TInputEnd p1); [apply G_fail; auto|].
  apply G_gets_bind. eapply G_bind_; [eapply Hp; eauto|]. intros out p2 s2 I2 A2 [H3 H4].
  eapply G_bind_; [apply G_step_if_same; [auto|apply A2]|]. intros ? p3 s3 I3 A3 H5. apply G_ret; auto. conj; eauto.
  apply Forall_app; auto.
Qed.
Lemma evaluate_any_token ts q : evaluate_any (map IsToken ts) q = true -> In (t_token (cur q)) ts.
Proof.
  unfold evaluate_any. rewrite existsb_exists. intros (x & Hx & He). apply in_map_iff in Hx as (t & <- & Ht). cbn in He.
  unfold is_tok, cur_tok in He. destruct (tok_eqb_spec (t_token (cur q)) t); [subst; auto|discriminate].
Qed.
Lemma G_collect_text_keep c close invalid kind p s : inv c p s ->
  G c (collect_text_keep text close invalid kind) p s (fun r p' s' => substr (fst r) text /\
    exists q, evaluate_any close q = true /\ cur q = snd r).
Proof.
  intros Hi. unfold collect_text_keep. apply G_gets_bind.
  eapply G_bind_.
  { apply (G_collect c close invalid kind _ None p s (fun st _ p' s' => match st with
      | Some t => exists n, at_pos toks n t /\ length (rem p') <= n <= length (rem p) | None => True end)); auto.
    - intros [t|] b p1 s1 p2 s2; auto. intros (n & H1 & H2) (H3 & _). exists n. split; auto. lia.
    - intros st b p1 s1 I1 A1 _. apply G_gets_bind. unfold ok_flag. apply G_ret; auto. cbn [su_item su_safe su_errors].
      split; auto. exists (length (rem p1)). split; [eapply inv_at_pos; eauto|]. destruct A1. lia. }
  intros [[[fin|] last] errs safe] p1 s1 I1 A1 (H1 & H2 & _ & H3); cbn [su_item su_safe su_errors fst snd] in *.
  - destruct H1 as (n & H1 & H4). destruct (slice_ok E toks Htoks (length (rem p)) n (cur p) fin) as (w & Hw & Hs); auto.
    { eapply inv_at_pos; eauto. } { lia. }
    rewrite Hw. apply G_ret_bind, G_ret; auto.
  - apply G_ret; auto. cbn. split; auto. apply substr_nil.
Qed.
Lemma G_collect_text c close invalid kind p s : inv c p s ->
  G c (collect_text text close invalid kind) p s (fun r p' s' => substr r text).
Proof.
  intros Hi. unfold collect_text. eapply G_bind_; [apply G_collect_text_keep; auto|]. intros a p1 s1 I1 A1 [H _]. apply G_ret; auto.
Qed.

(** *** With a recursive call. *)
Variable consume : M (success elements).
Hypothesis Hc : forall c p s, inv c p s ->
  G c consume p s (fun out p' s' => succ c s p' s' out /\ length (rem p') < length (rem p)).

Lemma G_collect_consume_keep c close invalid kind p s : inv c p s ->
  G c (collect_consume_keep consume close invalid kind) p s (fun out p' s' =>
    succ c s p' s' (PSu (fst (su_item out)) (su_errors out) (su_safe out)) /\ ended close p' /\
    exists q, evaluate_any close q = true /\ cur q = snd (su_item out)).
Proof.
  intros Hi. unfold collect_consume_keep. eapply G_conseq.
  { apply (G_collect c close invalid kind _ [] p s (fun es b p' s' => els c s p' s' es /\ (b = true -> Forall inline_element es))); auto.
    - split; auto. apply els_nil, ext_refl.
    - intros es b p1 s1 p2 s2 [H1 H2] Ha. split; auto. eapply els_mono; eauto.
    - intros es b p1 s1 I1 A1 [H1 H2]. eapply G_bind_; [apply Hc; auto|]. intros out p2 s2 I2 A2 [(H3 & H4 & H5) _].
      apply G_ret; auto. cbn [su_item su_safe su_errors]. conj; auto.
      + eapply els_app; eauto.
      + intros Hb. apply andb_true_iff in Hb as [Hb1 Hb2]. apply Forall_app; auto. }
  cbn beta. intros out p' s' _ _ ((H1 & H2) & H3 & H4 & H5). conj; auto. split; [|split]; auto.
Qed.
Lemma G_collect_consume c close invalid kind p s : inv c p s ->
  G c (collect_consume consume close invalid kind) p s (fun out p' s' => succ c s p' s' out /\ ended close p').
Proof.
  intros Hi. unfold collect_consume. eapply G_bind_; [apply G_collect_consume_keep; auto|]. intros out p1 s1 I1 A1 (H1 & H2 & _).
  apply G_ret; auto.
Qed.
(** A node whose children were parsed in a context it opens (or in the same one). *)
Lemma elsR_wrap c c' s0 p s e es : els c' s0 p s es -> cF c' = cF c -> In (cK c') (opens e ++ [cK c]) ->
  children e = es -> element_ok E toks (nb s) (has_footnote_block p) (cF c) e -> is_footnote e = false ->
  (forall x, e = EPartial x -> has_block toks) -> elsR c s0 p s [e].
Proof.
  intros [H1 H2] HF HK Hch Hok Hf Hp. apply elsR_node. split; [split; [auto|split; auto]|].
  - rewrite Hch. eapply Forall_impl; [|exact H1]. cbn. intros x Hx. rewrite HF in Hx. eapply okE_up; [exact Hx|]. intros k [<-|[]]; auto.
  - rewrite refs_one, Hch; auto.
Qed.
Lemma elsR_same c s0 p s e es : els c s0 p s es -> children e = es ->
  element_ok E toks (nb s) (has_footnote_block p) (cF c) e -> is_footnote e = false ->
  (forall x, e = EPartial x -> has_block toks) -> elsR c s0 p s [e].
Proof. intros. eapply elsR_wrap; eauto. apply in_or_app. right. left. auto. Qed.
Lemma nattr : Forall (attr_map_ok E) [[]].
Proof. constructor; auto. split; [constructor|]. intros k v []. Qed.
(** Containers that need nothing of their own. *)
Definition plain_ct (ct : container_type) : Prop := (forall h, ct <> CHeader h) /\ ct <> CParagraph.
Lemma container_ok nb fb F ct a es : plain_ct ct -> attr_map_ok E a -> (block_container ct = true -> has_block toks) -> element_ok E toks nb fb F (EContainer ct a es).
Proof. intros [H1 H2] Ha Hb. split; [constructor; auto|]. destruct ct; auto; [contradiction H2|exfalso; eapply H1]; eauto. Qed.
Lemma G_collect_container c ct close invalid kind p s :
  (forall es nb fb F, element_ok E toks nb fb F (EContainer ct [] es)) -> inv c p s ->
  G c (collect_container consume ct close invalid kind) p s (fun out p' s' => rsucc c s p' s' out /\ ended close p' /\ exists es,
     su_item out = [EContainer ct [] es] /\ els c s p' s' es).
Proof.
  intros Hct Hi. unfold collect_container. eapply G_bind_; [apply G_collect_consume; auto|].
  intros out p1 s1 I1 A1 ((H1 & H2 & H3) & He). apply G_ret; auto. split; [|split; [auto|exists (su_item out); auto]]. split; [|split]; auto; cbn [su_item su_safe].
  - eapply elsR_same; [exact H1|reflexivity|apply Hct|reflexivity|discriminate].
  - intro Hb. apply andb_true_iff in Hb as [_ Hb]. constructor; auto. unfold inline_element. cbn. rewrite Hb. discriminate.
Qed.

(** *** Paragraphs. *)
Definition stack_ok c s0 p s (st : pstack) : Prop :=
  els c s0 p s (ps_finished st ++ ps_current st) /\ Forall inline_element (ps_current st).
Lemma stack_new c s0 p s : ext s0 s -> stack_ok c s0 p s ps_new.
Proof. intro. split; cbn; auto. apply els_nil; auto. Qed.
Lemma stack_mono c s0 p s p' s' st : stack_ok c s0 p s st -> adv p s p' s' -> stack_ok c s0 p' s' st.
Proof. intros [H1 H2] Ha. split; auto. eapply els_mono; eauto. Qed.
Lemma els_cat c s0 p s a b : els c s0 p s (a ++ b) <->
  Forall (okE (nb s) (has_footnote_block p) (cF c) [cK c]) a /\ Forall (okE (nb s) (has_footnote_block p) (cF c) [cK c]) b /\
  refs a + refs b + nf s0 <= nf s.
Proof. unfold ParseInv.els. rewrite Forall_app, refs_app. tauto. Qed.
Lemma okE_paragraph n fb c es : Forall (okE n fb (cF c) [cK c]) es -> Forall inline_element es ->
  okE n fb (cF c) [cK c] (paragraph es).
Proof.
  intros H1 H2. constructor; [split; [apply nattr|auto]|discriminate|]. cbn. auto.
Qed.
Lemma refs_paragraph es : refs [paragraph es] = refs es.
Proof. rewrite refs_one; auto. Qed.
Lemma stack_end c s0 p s st : stack_ok c s0 p s st -> stack_ok c s0 p s (end_paragraph st).
Proof.
  intros [H1 H2]. unfold end_paragraph, build_paragraph. destruct (ps_current st) as [|e es] eqn:Ec.
  - split; [rewrite Ec; auto|rewrite Ec; auto].
  - cbn [ps_current ps_finished]. split; cbn [ps_current ps_finished]; [|constructor]. rewrite app_nil_r. apply els_cat in H1 as (Ha & Hb & Hr).
    apply els_cat. conj; auto.
    + constructor; auto. apply okE_paragraph; auto.
    + rewrite refs_paragraph. auto.
Qed.
Lemma end_current st : ps_current (end_paragraph st) = [].
Proof. unfold end_paragraph, build_paragraph. destruct (ps_current st) eqn:Ec; auto. Qed.
Lemma stack_push c s0 p s st e safe n :
  els c s0 p s (ps_finished st ++ ps_current st) -> Forall inline_element (ps_current st) ->
  okE (nb s) (has_footnote_block p) (cF c) [cK c] e -> refs [e] = n -> (safe = true -> inline_element e) ->
  refs (ps_finished st ++ ps_current st) + n + nf s0 <= nf s ->
  stack_ok c s0 p s (push_element st e safe).
Proof.
  intros H1 H2 He Hn Hs Hr. unfold push_element. destruct safe.
  - split; cbn [ps_current ps_finished].
    + rewrite app_assoc. destruct H1 as [H1 _]. split; [apply Forall_app; auto|]. rewrite refs_app. lia.
    + apply Forall_app; auto.
  - pose proof (stack_end c s0 p s st (conj H1 H2)) as [H3 H4]. rewrite end_current in *. rewrite app_nil_r in H3.
    split; cbn [ps_current ps_finished]; rewrite ?end_current; auto. rewrite app_nil_r. destruct H3 as [H3 H5]. split; [apply Forall_app; auto|].
    assert (X : refs (ps_finished (end_paragraph st)) = refs (ps_finished st ++ ps_current st)).
    { unfold end_paragraph, build_paragraph. destruct (ps_current st) as [|x l] eqn:Ec; [rewrite app_nil_r; auto|].
      cbn [ps_finished]. rewrite !refs_app, refs_paragraph. auto. }
    rewrite refs_app, X. lia.
Qed.
Definition budget (st : pstack) : nat := refs (ps_finished st ++ ps_current st).
Lemma push_budget st e safe : budget (push_element st e safe) = budget st + refs [e].
Proof.
  unfold budget, push_element. destruct safe; cbn [ps_current ps_finished].
  - rewrite app_assoc, refs_app. auto.
  - rewrite end_current, app_nil_r, refs_app. f_equal. unfold end_paragraph, build_paragraph.
    destruct (ps_current st) as [|x l] eqn:Ec; [rewrite app_nil_r; auto|]. cbn [ps_finished]. rewrite !refs_app, refs_paragraph. auto.
Qed.
Lemma stack_push_elements c s0 p s safe es : forall st,
  stack_ok c s0 p s st -> Forall (okE (nb s) (has_footnote_block p) (cF c) [cK c]) es -> (safe = true -> Forall inline_element es) ->
  budget st + refs es + nf s0 <= nf s -> stack_ok c s0 p s (push_elements st es safe).
Proof.
  induction es as [|e es IH]; intros st [H1 H2] He Hs Hr; cbn [push_elements]; [split; auto|].
  inversion He; subst. assert (Hs' : safe = true -> inline_element e) by (intro X; specialize (Hs X); inversion Hs; auto).
  assert (Hs2 : safe = true -> Forall inline_element es) by (intro X; specialize (Hs X); inversion Hs; auto).
  rewrite refs_cons in Hr. destruct (match ps_current st with [] => is_line_break e | _ => false end).
  - apply IH; auto; [split; auto|lia].
  - apply IH; auto; [|rewrite push_budget; lia]. eapply stack_push; eauto. fold (budget st). lia.
Qed.
Lemma stack_push_success c s0 p1 s1 p s st out : stack_ok c s0 p1 s1 st -> adv p1 s1 p s -> succ c s1 p s out ->
  stack_ok c s0 p s (push_elements st (su_item out) (su_safe out)).
Proof.
  intros H1 Ha ((H2 & H3) & H4 & _). apply stack_push_elements; auto; [eapply stack_mono; eauto|].
  destruct H1 as [[_ H1] _]. fold (budget st) in H1. lia.
Qed.
Lemma into_elements_ok c s0 p s st : stack_ok c s0 p s st -> els c s0 p s (into_elements st).
Proof. intros H. apply stack_end in H as [H _]. rewrite end_current, app_nil_r in H. auto. Qed.
Lemma into_result_ok c s0 p s st : stack_ok c s0 p s st -> into_result st = None -> has_block toks.
Proof.
  intros H. unfold into_result. apply into_elements_ok in H. destruct (all_paragraph_safe _) eqn:Ea; [discriminate|]. intros _.
  eapply all_safe_none; eauto. apply els_elsR; eauto.
Qed.
Lemma G_gather_paragraphs c rule close p s :
  (forall f, close = Some f -> forall b p1 s1, inv c p1 s1 -> G c (f b) p1 s1 (fun _ _ _ => True)) -> inv c p s ->
  G c (gather_paragraphs consume rule close) p s (fun out p' s' => succ c s p' s' out).
Proof.
  intros Hcl Hi. unfold gather_paragraphs. eapply G_bind_; [apply G_set_rule_; auto|]. intros ? p0 s00 I0 A0 _.
  eapply G_bind_.
  { apply (G_looping _ _ d c _ _ _ _ (fun '(st, errs, first) p1 s1 => stack_ok c s p1 s1 st /\ Forall genuine errs)
       (fun '(st, errs) p1 s1 => stack_ok c s p1 s1 st /\ Forall genuine errs)); auto.
    - split; auto. apply stack_new. apply A0.
    - intros [[st errs] first] p1 s1 I1 A1 [H1 H2]. apply G_gets_bind.
      assert (Hgo : G c (bind match close with
                       | Some f => let! r := attempt (f first) in ret match r with inl b => b | inr _ => false end
                       | None => ret false end
          (fun closed : bool => if closed then ret (inr (st, errs))
             else let! out := consume in ret (inl (push_elements st (su_item out) (su_safe out), errs ++ su_errors out, false)))) p1 s1
          (fun r p' s' => match r with
            | inl st' => length (rem p') < length (rem p1) /\ (let '(st, errs, first) := st' in stack_ok c s p' s' st /\ Forall genuine errs)
            | inr a => let '(st, errs) := a in stack_ok c s p' s' st /\ Forall genuine errs end)).
      { apply G_bind_ with (Q := fun _ _ _ => True).
        - destruct close as [f|]; [|apply G_ret; auto]. eapply G_bind_; [apply G_attempt, (Hcl f); auto|]. intros; apply G_ret; auto.
        - intros [] p2 s2 I2 A2 _.
          + apply G_ret; auto. split; auto. eapply stack_mono; eauto.
          + eapply G_bind_; [apply Hc; auto|]. intros out p3 s3 I3 A3 [H3 H4]. apply G_ret; auto. cbn beta iota.
            split; [destruct A2; lia|]. split.
            * eapply stack_push_success; [eapply stack_mono; eauto|eauto|auto].
            * apply Forall_app; split; auto. apply H3. }
      destruct (cur_tok p1) eqn:Et; try (eapply G_conseq; [exact Hgo|intros [[[? ?] ?]|[? ?]] ? ? ? ? X; exact X]).
      + eapply G_bind_; [apply G_step_; auto|]. intros x p2 s2 I2 A2 [_ H3]. apply G_ret; auto. split; auto. split; auto.
        apply stack_end. eapply stack_mono; eauto.
      + destruct close as [f|]; [apply G_fail; auto|apply G_ret; auto]. }
  intros [st errs] p1 s1 I1 A1 [H1 H2]. cbn beta iota. apply G_or_panic; [intro X; eapply into_result_ok; eauto|].
  intros [es safe] Hr. apply G_ret; auto. apply into_elements_ok in H1. unfold into_result in Hr.
  destruct (all_paragraph_safe _) eqn:Ea; [|discriminate]. injection Hr as <- <-. split; [|split]; auto. cbn. intros ->. apply all_safe_inline; auto.
Qed.
End P.
