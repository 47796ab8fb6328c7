(** LettersLemmas.v -- parsing keeps the letters of the source (for C69). *)
From Verif Require Import Base BaseLemmas Strings Links Attr Lexer SpecLexer LexerLemmas
  Depth SpecDepth DepthLemmas Tree TreeLemmas Text Toc SpecText PState SpecParse ParseInv Blocks Rules RulesLemmas Parse SpecLetters.

Lemma letters_app a b : letters (a ++ b) = letters a ++ letters b. Proof. apply filter_app. Qed.
Lemma letters_ws s : forallb is_ws s = true -> letters s = [].
Proof.
  intro H. induction s as [|c s IH]; auto. cbn in H. apply andb_prop in H as [H1 H2]. cbn [letters filter].
  assert (X : letter c = false); [|rewrite X; auto].
  destruct (letter c) eqn:El; auto. exfalso. unfold letter in El. rewrite H1 in El. unfold is_ws in H1.
  rewrite !orb_true_iff, !andb_true_iff in *. rewrite ?N.leb_le, ?N.eqb_eq in *. cbn [negb] in El. lia.
Qed.
Lemma letters_repeat c n : letter c = false -> letters (repeat c n) = [].
Proof. intro H. induction n as [|n IH]; auto. cbn [repeat letters filter]. rewrite H. exact IH. Qed.
Lemma letters_forall s : Forall (fun c => letter c = false) s -> letters s = [].
Proof. induction 1 as [|c s H _ IH]; auto. cbn [letters filter]. rewrite H. exact IH. Qed.

(** Kinds of tokens without letters. *)
Definition wordy (t : token) : bool :=
  match t with TIdentifier | TEmail | TUrl | TVariable | TString | TOther | TInputStart | TInputEnd => true | _ => false end.
Lemma newlines_letters n s : newlines n s -> letters s = [].
Proof. induction 1; auto. Qed.
Lemma shape_silent t s : shape t s -> wordy t = false -> letters s = [].
Proof.
  intros H. destruct H as [t s Hi| | | | |n Hn|n Hn|n Hn|n Hn|n Hn|n Hn|n Hn|s Hn|n s Hn Hs|s Hn Hf| ]; intro Hw; try discriminate Hw;
    rewrite ?letters_app, ?letters_repeat by reflexivity; try reflexivity.
  - clear Hw. cbn in Hi. repeat (destruct Hi as [Hi|Hi]; [apply (f_equal snd) in Hi; cbn in Hi; subst s; reflexivity|]). destruct Hi.
  - eapply newlines_letters; eauto.
  - eapply newlines_letters; eauto.
  - apply letters_forall. eapply Forall_impl; [|exact Hf]. cbn. intros c [<-|[<-|[]]]; reflexivity.
Qed.
Lemma variable_name_eq s v : variable_name s = Some v -> s = lit "{$" ++ v ++ lit "}".
Proof.
  unfold variable_name. destruct (strip_prefix (lit "{$") s) as [r|] eqn:E; [|discriminate]. apply strip_prefix_inv in E. subst s.
  destruct (rev r) as [|c m] eqn:Er; [discriminate|]. destruct (ceqb c 125) eqn:Ec; [|discriminate]. cbn [andb].
  destruct (negb (cmem 10 m) && _); [|discriminate]. intro H. injection H as <-. apply ceqb_eq in Ec. subst c.
  apply (f_equal (@rev _)) in Er. rewrite rev_involutive in Er. subst r. reflexivity.
Qed.

(** The tokens that let [consume] call itself. *)
Definition opener (t : token) : bool :=
  match t with
  | TDoubleDash | TDoubleTilde | TBold | TItalics | TUnderline | TSuperscript | TSubscript | TLeftMonospace
  | TEquals | TColon | TQuote | THeading | TBulletItem | TNumberedItem => true
  | _ => false
  end.
(** The tokens that must not occur. *)
Definition barred (t : token) : bool :=
  match t with
  | TLeftBracket | TLeftBracketAnchor | TLeftBracketStar | TLeftBlock | TLeftBlockEnd | TLeftBlockAnchor | TLeftBlockStar
  | TLeftMath | TLeftParentheses | TColor | TLeftLink | TLeftLinkStar | TLeftComment
  | TTableColumn | TTableColumnLeft | TTableColumnRight | TTableColumnCenter | TTableColumnTitle => true
  | _ => false
  end.
Definition opc (ts : list xtoken) : nat := length (filter (fun t => opener (t_token t)) ts).
Definition tl (ts : list xtoken) : str := letters (concat (map t_slice ts)).
Lemma tl_cons t ts : tl (t :: ts) = letters (t_slice t) ++ tl ts.
Proof. unfold tl. cbn [map concat]. apply letters_app. Qed.

Section Letters.
Variable E : env.
Variable toks : list xtoken.
Hypothesis Htoks : extract_all (en_text E) = Some toks.
Hypothesis Hbar : forall t, In t toks -> barred (t_token t) = false.
Hypothesis Hdef : forall pre a b c post, toks = pre ++ a :: b :: c :: post -> t_token a = TWhitespace -> t_token b = TColon -> letters (t_slice c) = [].
(** No line after the first starts with a heading. *)
Definition chainless : Prop := forall pre a b post, toks = pre ++ a :: b :: post ->
  t_token a = TLineBreak \/ t_token a = TParagraphBreak -> t_token b <> THeading.

Notation said1 := (said (en_site E) (en_date_format E) [] false).
Definition sl (es : elements) : str := letters (flat_map said1 es).
Lemma sl_app a b : sl (a ++ b) = sl a ++ sl b. Proof. unfold sl. rewrite flat_map_app. apply letters_app. Qed.
Lemma sl_cons e es : sl (e :: es) = letters (said1 e) ++ sl es. Proof. unfold sl. cbn [flat_map]. apply letters_app. Qed.
Lemma sl_one e : sl [e] = letters (said1 e). Proof. rewrite sl_cons. apply app_nil_r. Qed.

Definition pos (p : pstate) : Prop := exists pre, toks = pre ++ cur p :: rem p.
Definition ls (p : pstate) : str := tl (cur p :: rem p).
Definition op (p : pstate) : nat := opc (cur p :: rem p).
Definition safe (n : nat) (p : pstate) : Prop := chainless \/ depth p + op p <= n.

(** What has been said between two states. *)
Record go (p : pstate) (w : str) (p' : pstate) : Prop := GO {
  go_pos : pos p'; go_depth : depth p' = depth p; go_op : op p' <= op p; go_ls : ls p = w ++ ls p'; go_len : length (rem p') <= length (rem p) }.
Lemma go_refl p : pos p -> go p [] p. Proof. split; auto. Qed.
Lemma go_trans p w q v r : go p w q -> go q v r -> go p (w ++ v) r.
Proof. intros [A1 A2 A3 A4 A5] [B1 B2 B3 B4 B5]. split; auto; try lia. rewrite A4, B4, app_assoc. auto. Qed.
Lemma go_silent p q v r : go p [] q -> go q v r -> go p v r.
Proof. intros A B. exact (go_trans p [] q v r A B). Qed.
Lemma go_silent_r p q v r : go p v q -> go q [] r -> go p v r.
Proof. intros A B. rewrite <- (app_nil_r v). eapply go_trans; eauto. Qed.
Lemma go_safe n p w q : go p w q -> safe n p -> safe n q.
Proof. intros [A1 A2 A3 _ _] [H|H]; [left; auto|right; lia]. Qed.
Lemma pos_in p : pos p -> In (cur p) toks.
Proof. intros [pre ->]. apply in_elt. Qed.
Lemma silent p : pos p -> wordy (cur_tok p) = false -> letters (t_slice (cur p)) = [].
Proof.
  intros Hp Hw. eapply shape_silent; [|exact Hw]. apply (tok_shape E toks Htoks); [apply pos_in; auto| |]; intro X; unfold cur_tok in Hw; rewrite X in Hw; discriminate.
Qed.
Lemma pos_same p q : pos p -> pos q -> length (rem p) = length (rem q) -> cur p = cur q /\ rem p = rem q.
Proof.
  intros [a Ha] [b Hb] Hl. rewrite Ha in Hb. clear Ha. revert b Hb. induction a as [|x a IH]; intros [|y b] Hb; cbn [app] in Hb.
  - injection Hb as -> ->. auto.
  - apply (f_equal (@length _)) in Hb. cbn in Hb. rewrite app_length in Hb. cbn in Hb. lia.
  - apply (f_equal (@length _)) in Hb. cbn in Hb. rewrite app_length in Hb. cbn in Hb. lia.
  - injection Hb as _ Hb. eauto.
Qed.
Lemma end_slice t : In t toks -> t_token t = TInputEnd -> t_slice t = [].
Proof.
  intros H He. destruct (extract_all_spec (en_text E)) as (mid & Hx & _ & _ & Hs & _). rewrite Htoks in Hx. injection Hx as Hx.
  rewrite Hx in H. destruct H as [<-|H]; [reflexivity|]. apply in_app_or in H as [H|[<-|[]]]; [|reflexivity].
  rewrite Forall_forall in Hs. specialize (Hs t H). rewrite He in Hs. inversion Hs as [? ? Hi| | | | | | | | | | | | | | |].
  exfalso. cbn in Hi. repeat (destruct Hi as [Hi|Hi]; [discriminate Hi|]). exact Hi.
Qed.
Lemma start_slice t : In t toks -> t_token t = TInputStart -> t_slice t = [].
Proof.
  intros H He. destruct (extract_all_spec (en_text E)) as (mid & Hx & _ & _ & Hs & _). rewrite Htoks in Hx. injection Hx as Hx.
  rewrite Hx in H. destruct H as [<-|H]; [reflexivity|]. apply in_app_or in H as [H|[<-|[]]]; [|reflexivity].
  rewrite Forall_forall in Hs. specialize (Hs t H). rewrite He in Hs. inversion Hs as [? ? Hi| | | | | | | | | | | | | | |].
  exfalso. cbn in Hi. repeat (destruct Hi as [Hi|Hi]; [discriminate Hi|]). exact Hi.
Qed.

(** *** Triples. *)
Definition T {A} (m : M A) (p : pstate) (Q : A -> pstate -> Prop) (R : perr -> pstate -> Prop) : Prop :=
  forall s, match m p s with ROk a p' _ => Q a p' | RErr e p' _ => R e p' | _ => True end.
Lemma T_bind {A B} (m : M A) (k : A -> M B) p Q V R : T m p Q R -> (forall a p', Q a p' -> T (k a) p' V R) -> T (bind m k) p V R.
Proof. intros Hm Hk s. specialize (Hm s). unfold bind. destruct (m p s) as [a p' s'|e p' s'|w|]; auto. apply Hk. auto. Qed.
Lemma T_bind_ {A B} (m : M A) (k : A -> M B) p Q V (R R' : perr -> pstate -> Prop) : T m p Q R' -> (forall e p', R' e p' -> R e p') -> (forall a p', Q a p' -> T (k a) p' V R) -> T (bind m k) p V R.
Proof. intros Hm Hr Hk s. specialize (Hm s). unfold bind. destruct (m p s) as [a p' s'|e p' s'|w|]; auto. apply Hk. auto. Qed.
Lemma T_conseq {A} (m : M A) p (Q V : A -> pstate -> Prop) (R R' : perr -> pstate -> Prop) : T m p Q R' -> (forall a p', Q a p' -> V a p') -> (forall e p', R' e p' -> R e p') -> T m p V R.
Proof. intros Hm Hk Hr s. specialize (Hm s). destruct (m p s); auto. Qed.
Lemma T_assoc {A B C} (m : M A) (k : A -> M B) (k' : B -> M C) p V R : T (bind m (fun x => bind (k x) k')) p V R -> T (bind (bind m k) k') p V R.
Proof. intros H s. specialize (H s). unfold bind in *. destruct (m p s); auto. Qed.
Lemma T_ret {A} (a : A) p (V : A -> pstate -> Prop) R : V a p -> T (ret a) p V R. Proof. intros H s. exact H. Qed.
Lemma T_ret_bind {A B} (a : A) (k : A -> M B) p V R : T (k a) p V R -> T (bind (ret a) k) p V R. Proof. intros H s. exact (H s). Qed.
Lemma T_gets_bind {A B} (f : pstate -> A) (k : A -> M B) p V R : T (k (f p)) p V R -> T (bind (gets f) k) p V R. Proof. intros H s. exact (H s). Qed.
Lemma T_panic {A} w p (V : A -> pstate -> Prop) R : T (panic w) p V R. Proof. intros s. exact I. Qed.
Lemma T_panic_bind {A B} w (k : A -> M B) p V R : T (bind (panic w) k) p V R. Proof. intros s. exact I. Qed.
Lemma T_fail {A} k p (V : A -> pstate -> Prop) (R : perr -> pstate -> Prop) : R (make_err k p) p -> T (fail k) p V R. Proof. intros H s. exact H. Qed.
Lemma T_fail_bind {A B} k (k' : A -> M B) p V (R : perr -> pstate -> Prop) : R (make_err k p) p -> T (bind (fail k) k') p V R. Proof. intros H s. exact H. Qed.
Lemma T_or_panic {A B} w (o : option A) (k : A -> M B) p V R : (forall a, o = Some a -> T (k a) p V R) -> T (bind (or_panic w o) k) p V R.
Proof. intros Hs. destruct o; [apply Hs; auto|]. intros s. exact I. Qed.
Lemma T_derived es errs p (V : success elements -> pstate -> Prop) R : (forall out, su_item out = es -> V out p) -> T (ok_derived es errs) p V R.
Proof. intros H. unfold ok_derived. apply T_or_panic. intros b _. apply T_ret. apply H. auto. Qed.
Lemma T_loop {S A} (body : S -> M (S + A)) (I : S -> pstate -> Prop) (V : A -> pstate -> Prop) R :
  (forall st p, I st p -> T (body st) p (fun r p' => match r with inl st' => I st' p' | inr a => V a p' end) R) ->
  forall n st p, I st p -> T (loop n body st) p V R.
Proof.
  intros Hb. induction n as [|n IH]; intros st p Hs; [intros s; exact Logic.I|]. cbn [loop]. eapply T_bind; [apply Hb; auto|].
  intros [st'|a] p' H; [apply IH; auto|apply T_ret; auto].
Qed.
Lemma T_looping {S A} (body : S -> M (S + A)) (I : S -> pstate -> Prop) (V : A -> pstate -> Prop) R st p : I st p ->
  (forall st p, I st p -> T (body st) p (fun r p' => match r with inl st' => I st' p' | inr a => V a p' end) R) ->
  T (looping body st) p V R.
Proof. intros H1 H2 s. unfold looping. exact (T_loop body I V R H2 _ st p H1 s). Qed.

(** One step. *)
Definition stepped_to (p p' : pstate) : Prop := rem p = cur p' :: rem p' /\ depth p' = depth p /\ start_of_line p' = line_start_token (cur_tok p).
Lemma T_step p (V : xtoken -> pstate -> Prop) (R : perr -> pstate -> Prop) :
  (forall p', stepped_to p p' -> V (cur p') p') -> (forall p', rem p = [] -> R (make_err EndOfInput p') p') -> T step p V R.
Proof.
  intros Hv Hr s. unfold step. destruct (rem p) as [|t r] eqn:Er; [apply Hr; auto|].
  apply (Hv (PST t r (rule_ p) (depth p) (accepts_partial p) (in_footnote p) (has_footnote_block p) (line_start_token (cur_tok p)))). split; [exact Er|]. split; auto.
Qed.
Lemma step_pos p p' : pos p -> stepped_to p p' -> pos p'.
Proof. intros [pre H] [H1 _]. exists (pre ++ [cur p]). rewrite H, H1, <- app_assoc. auto. Qed.
Lemma step_go p p' : pos p -> stepped_to p p' -> go p (letters (t_slice (cur p))) p'.
Proof.
  intros Hp Hs. split.
  - eapply step_pos; eauto.
  - apply Hs.
  - unfold op, opc. destruct Hs as [-> _]. cbn [filter]. destruct (opener (t_token (cur p))); cbn [length]; lia.
  - unfold ls. destruct Hs as [-> _]. apply tl_cons.
  - destruct Hs as [-> _]. cbn. lia.
Qed.
Lemma step_op p p' : stepped_to p p' -> opener (cur_tok p) = true -> S (op p') = op p.
Proof. intros [H _] Ho. unfold op, opc. rewrite H. cbn [filter]. unfold cur_tok in Ho. rewrite Ho. reflexivity. Qed.
Lemma step_len p p' : stepped_to p p' -> length (rem p) = S (length (rem p')).
Proof. intros [-> _]. reflexivity. Qed.
Lemma T_step_bind {B} (k : xtoken -> M B) p V (R : perr -> pstate -> Prop) :
  (forall p', stepped_to p p' -> T (k (cur p')) p' V R) -> (forall p', rem p = [] -> R (make_err EndOfInput p') p') -> T (bind step k) p V R.
Proof. intros H1 H2. eapply T_bind; [apply (T_step p (fun t p' => t = cur p' /\ stepped_to p p')); eauto|]. intros a p' [-> H]. auto. Qed.

(** *** collect. *)
Definition er (e : perr) : Prop := chainless \/ pe_kind e <> RecursionDepthExceeded.
Definition erp (e : perr) (p : pstate) : Prop := er e.
Lemma er_make k p : k <> RecursionDepthExceeded -> er (make_err k p). Proof. intro H. right. exact H. Qed.
(** What [consume] does. *)
Definition CS (consume : M (success elements)) : Prop := forall p, pos p -> safe 99 p ->
  T consume p (fun out p' => go p (sl (su_item out)) p' /\ length (rem p') < length (rem p)) (fun _ _ => chainless \/ cur_tok p = TInputEnd).
Definition closing (close : list condition_) : Prop := forall p, pos p -> evaluate_any close p = true -> letters (t_slice (cur p)) = [].
(** The state where [collect] stopped. *)
Definition closed_at (close : list condition_) (last : xtoken) (p' : pstate) : Prop :=
  exists q, pos q /\ evaluate_any close q = true /\ cur q = last /\
    (if tok_eqb (t_token last) TInputEnd then cur p' = cur q /\ rem p' = rem q else rem q = cur p' :: rem p').
(** The errors of [collect]: with nothing invalid and the end of the input closing, only one of [consume]. *)
Definition ec (close inv : list condition_) (e : perr) (_ : pstate) : Prop := er e /\ (inv = [] -> In (IsToken TInputEnd) close -> chainless).
Lemma ec_er close inv e p : ec close inv e p -> erp e p. Proof. intros [H _]. exact H. Qed.
Lemma end_closes close p : In (IsToken TInputEnd) close -> cur_tok p = TInputEnd -> evaluate_any close p = true.
Proof. intros Hi He. unfold evaluate_any. apply existsb_exists. exists (IsToken TInputEnd). split; auto. cbn [evaluate]. unfold is_tok. rewrite He. reflexivity. Qed.
Lemma at_end p : pos p -> rem p = [] -> cur_tok p = TInputEnd.
Proof.
  intros [pre H] Hr. rewrite Hr in H. destruct (extract_all_spec (en_text E)) as (mid & He & _). rewrite Htoks in He. injection He as He. rewrite He in H.
  change (XT TInputStart [] 0 0 :: mid ++ [XT TInputEnd [] (blen (en_text E)) (blen (en_text E))])
    with ((XT TInputStart [] 0 0 :: mid) ++ [XT TInputEnd [] (blen (en_text E)) (blen (en_text E))]) in H.
  apply app_inj_tail in H as [_ H]. unfold cur_tok. rewrite <- H. auto.
Qed.
Section WithConsume.
Variable consume : M (success elements).
Hypothesis Hc : CS consume.
Lemma T_collect_keep close inv p : closing close -> pos p -> safe 99 p ->
  T (collect_consume_keep consume close inv None) p
    (fun out p' => go p (sl (fst (su_item out))) p' /\ closed_at close (snd (su_item out)) p') (ec close inv).
Proof.
  intros Hcl Hp Hs. unfold collect_consume_keep, collect.
  apply (T_looping _ (fun (st : elements * list perr * bool) q => go p (sl (fst (fst st))) q)); [apply go_refl; auto|].
  intros [[es errs] sf] q Hq. cbn [fst] in Hq. apply T_gets_bind. destruct (evaluate_any close q) eqn:Ec.
  - apply T_gets_bind. destruct (tok_eqb (t_token (cur q)) TInputEnd) eqn:Ee.
    + apply T_ret_bind. apply T_ret. cbn [su_item fst snd]. split; [exact Hq|]. exists q. rewrite Ee. split; [apply Hq|]. auto.
    + apply T_assoc, T_step_bind.
      * intros p' Hst. apply T_ret_bind. apply T_ret. cbn [su_item fst snd]. pose proof (step_go q p' (go_pos _ _ _ Hq) Hst) as Hg. rewrite (Hcl q (go_pos _ _ _ Hq) Ec) in Hg.
        split; [eapply go_silent_r; eauto|]. exists q. rewrite Ee. split; [apply Hq|]. split; auto. split; auto. apply Hst.
      * intros p' Hr. exfalso. pose proof (at_end q (go_pos _ _ _ Hq) Hr) as X. unfold cur_tok in X. rewrite X in Ee. discriminate.
  - apply T_gets_bind. destruct (evaluate_any inv q) eqn:Ei; [apply T_fail; split; [apply er_make; discriminate|]; intros -> _; discriminate Ei|].
    apply T_gets_bind. destruct (is_tok TInputEnd q) eqn:Ee; [apply T_fail; split; [apply er_make; discriminate|]; intros _ Hi|].
    { rewrite (end_closes close q Hi) in Ec; [discriminate|]. unfold is_tok, tok_eqb in Ee. destruct (token_eq_dec (cur_tok q) TInputEnd); auto. discriminate. }
    apply T_gets_bind. apply T_assoc. eapply T_bind_; [apply (Hc q); [apply Hq|eapply go_safe; eauto]| |].
    + cbn beta. intros e p1 [H|H]; [split; [left; exact H|auto]|]. exfalso. unfold is_tok in Ee. rewrite H in Ee. discriminate.
    + intros out p' [Hg Hl]. apply T_ret_bind. cbn [su_item su_errors su_safe]. unfold step_if_same. apply T_assoc, T_gets_bind. unfold same_pointer.
      rewrite (proj2 (Nat.eqb_neq _ _)) by lia. apply T_ret_bind. apply T_ret. cbn [fst]. rewrite sl_app. eapply go_trans; eauto.
Qed.
Lemma T_collect close inv p : closing close -> pos p -> safe 99 p ->
  T (collect_consume consume close inv None) p
    (fun out p' => go p (sl (su_item out)) p' /\ exists last, closed_at close last p') (ec close inv).
Proof.
  intros Ha Hb Hd. unfold collect_consume. eapply T_bind; [apply T_collect_keep; auto|]. intros out p' [H1 H2]. apply T_ret. cbn [su_item]. eauto.
Qed.
Definition plain_ct (ct : container_type) : bool := match ct with CHidden | CInvisible | CRubyText => false | _ => true end.
Lemma said_plain ct a es : plain_ct ct = true -> said1 (EContainer ct a es) = flat_map said1 es.
Proof. destruct ct; try discriminate; reflexivity. Qed.
Lemma T_container ct close inv p : plain_ct ct = true -> closing close -> pos p -> safe 99 p ->
  T (collect_container consume ct close inv None) p
    (fun out p' => go p (sl (su_item out)) p' /\ (exists last, closed_at close last p') /\ exists es, su_item out = [EContainer ct [] es]) (ec close inv).
Proof.
  intros Hct H1 H2 H3. unfold collect_container. eapply T_bind; [apply T_collect; auto|]. intros out p' [H4 H5]. apply T_ret. cbn [su_item].
  rewrite sl_one, said_plain by auto. split; auto. split; eauto.
Qed.

(** *** Rules. *)
Definition RP (p : pstate) (out : success elements) (p' : pstate) : Prop :=
  pos p' /\ ((length (rem p') = length (rem p) /\ sl (su_item out) = letters (t_slice (cur p))) \/
             (length (rem p') < length (rem p) /\ op p' <= op p /\ ls p = sl (su_item out) ++ ls p')).
Definition RT (p : pstate) (m : M (success elements)) : Prop := T m p (RP p) erp.
Lemma RP_here p out : pos p -> sl (su_item out) = letters (t_slice (cur p)) -> RP p out p.
Proof. intros H1 H2. split; auto. Qed.
Lemma RP_go p q out p' : pos p -> stepped_to p q -> letters (t_slice (cur p)) = [] -> go q (sl (su_item out)) p' -> RP p out p'.
Proof.
  intros Hp Hs Hl [G1 G2 G3 G4 G5]. pose proof (step_go p q Hp Hs) as [S1 S2 S3 S4 S5]. rewrite Hl in S4. apply step_len in Hs.
  split; auto. right. split; [lia|]. split; [lia|]. rewrite S4. exact G4.
Qed.
Lemma T_check_step {B} t (k : xtoken -> M B) p V :
  (cur_tok p = t -> forall q, stepped_to p q -> T (k (cur p)) q V erp) -> T (bind (check_step t) k) p V erp.
Proof.
  intros H. unfold check_step. apply T_assoc, T_gets_bind. destruct (tok_eqb (t_token (cur p)) t) eqn:Et; [|apply T_panic_bind].
  apply T_assoc, T_step_bind; [|intros; apply er_make; discriminate]. intros q Hq. apply T_ret_bind. apply H; auto.
  unfold tok_eqb in Et. destruct (token_eq_dec (t_token (cur p)) t); auto. discriminate.
Qed.
Lemma tok_eqb_true a b : tok_eqb a b = true -> a = b.
Proof. unfold tok_eqb. destruct (token_eq_dec a b); auto. discriminate. Qed.
Lemma T_get_token {B} t k (f : str -> M B) p V : k <> RecursionDepthExceeded ->
  (cur_tok p = t -> forall q, stepped_to p q -> T (f (t_slice (cur p))) q V erp) -> T (bind (get_token t k) f) p V erp.
Proof.
  intros Hk H. unfold get_token. apply T_assoc, T_gets_bind. destruct (tok_eqb (t_token (cur p)) t) eqn:Et; [|apply T_fail_bind, er_make; auto].
  apply T_assoc, T_step_bind; [|intros; apply er_make; discriminate]. intros q Hq. apply T_ret_bind. apply H; auto. apply tok_eqb_true; auto.
Qed.
Lemma T_optional {B} t (f : unit -> M B) p V : wordy t = false -> pos p ->
  (forall q, go p [] q -> T (f tt) q V erp) -> T (bind (get_optional_token t) f) p V erp.
Proof.
  intros Hw Hp H. unfold get_optional_token. apply T_assoc, T_gets_bind. destruct (is_tok t p) eqn:Et.
  - apply T_assoc, T_step_bind; [|intros; apply er_make; discriminate]. intros q Hq. apply T_ret_bind. apply H.
    apply tok_eqb_true in Et. rewrite <- (silent p Hp) by (rewrite Et; auto). apply step_go; auto.
  - apply T_ret_bind. apply H. apply go_refl; auto.
Qed.
Lemma closing_any l : (forall c, In c l -> match c with IsToken t | IsPair t _ => wordy t = false \/ t = TInputEnd end) -> closing l.
Proof.
  intros H p Hp He. unfold evaluate_any in He. apply existsb_exists in He as (c & Hi & He). specialize (H c Hi).
  assert (X : exists t, cur_tok p = t /\ (wordy t = false \/ t = TInputEnd)).
  { destruct c as [t|a b]; cbn [evaluate] in He.
    - exists t. split; auto. apply tok_eqb_true; auto.
    - apply andb_prop in He as [He _]. exists a. split; auto. apply tok_eqb_true; auto. }
  destruct X as (t & Ht & [X|X]); [apply silent; auto; rewrite Ht; auto|].
  rewrite end_slice; auto; [apply pos_in; auto|]. unfold cur_tok in Ht. congruence.
Qed.
Ltac shut := apply closing_any; intros c Hcl; repeat (destruct Hcl as [<-|Hcl]; [cbn; auto|]); destruct Hcl.
Lemma safe_step p q : stepped_to p q -> opener (cur_tok p) = true -> safe 100 p -> safe 99 q.
Proof. intros Hq Ho [H|H]; [left; auto|right]. pose proof (step_op p q Hq Ho). destruct Hq as (_ & Hd & _). lia. Qed.

Lemma L_format ct t p : plain_ct ct = true -> opener t = true -> pos p -> safe 100 p -> RT p (rule_format consume ct t).
Proof.
  intros Hct Ho Hp Hs. unfold RT, rule_format. assert (Hw : wordy t = false) by (destruct t; auto; discriminate).
  apply T_check_step. intros Ht q Hq. eapply T_conseq; [apply T_container; auto| |intros; eapply ec_er; eauto].
  - shut.
  - eapply step_pos; eauto.
  - eapply safe_step; eauto. rewrite Ht. auto.
  - cbn beta. intros out p' (H1 & _ & _). eapply RP_go; eauto. apply silent; auto. rewrite Ht. auto.
Qed.
Lemma L_monospace p : pos p -> safe 100 p -> RT p (rule_monospace consume).
Proof.
  intros Hp Hs. unfold RT, rule_monospace. apply T_check_step. intros Ht q Hq. eapply T_conseq; [apply T_container; auto| |intros; eapply ec_er; eauto].
  - shut.
  - eapply step_pos; eauto.
  - eapply safe_step; eauto. rewrite Ht. auto.
  - cbn beta. intros out p' (H1 & _ & _). eapply RP_go; eauto. apply silent; auto. rewrite Ht. auto.
Qed.
Lemma L_center p : pos p -> safe 100 p -> RT p (rule_center consume).
Proof.
  intros Hp Hs. unfold RT, rule_center. apply T_check_step. intros Ht q Hq. apply T_get_token; [discriminate|]. intros Ht2 q2 Hq2.
  pose proof (step_pos _ _ Hp Hq) as Hp1. pose proof (step_go _ _ Hp1 Hq2) as Hg. rewrite (silent q) in Hg by (auto; rewrite Ht2; auto).
  eapply T_conseq; [apply T_container; auto| |intros; eapply ec_er; eauto].
  - shut.
  - apply Hg.
  - eapply go_safe; [exact Hg|]. eapply safe_step; eauto. rewrite Ht. auto.
  - cbn beta. intros out p' (H1 & _ & _). eapply RP_go; [exact Hp|exact Hq| |eapply go_silent; eauto]. apply silent; auto. rewrite Ht. auto.
Qed.
Lemma L_clear_float p : pos p -> RT p rule_clear_float.
Proof.
  intros Hp. unfold RT, rule_clear_float. apply T_gets_bind.
  assert (X : forall c, wordy (cur_tok p) = false -> T (get_optional_line_break ;; ok_derived [EClearFloat c] []) p (RP p) erp).
  { intros c Hw. apply (T_optional TLineBreak); auto. intros q Hg. apply T_derived. intros out Ho. split; [apply Hg|]. rewrite Ho.
    destruct Hg as [G1 G2 G3 G4 G5]. destruct (Nat.eq_dec (length (rem q)) (length (rem p))) as [e|n].
    - left. split; auto. rewrite silent; auto.
    - right. split; [lia|]. split; auto. }
  destruct (cur_tok p) eqn:Et; try (apply T_fail_bind, er_make; discriminate); apply T_ret_bind, X; auto.
Qed.
Lemma L_hr p : pos p -> RT p rule_horizontal_rule.
Proof.
  intros Hp. unfold RT, rule_horizontal_rule. apply T_check_step. intros Ht q Hq.
  apply (T_optional TLineBreak); auto; [eapply step_pos; eauto|]. intros q2 Hg. apply T_derived. intros out Ho. eapply RP_go; eauto.
  - apply silent; auto. rewrite Ht. auto.
  - rewrite Ho. exact Hg.
Qed.
Lemma L_text p : pos p -> RT p rule_text.
Proof. intros Hp. unfold RT, rule_text. apply T_gets_bind, T_derived. intros out Ho. apply RP_here; auto. rewrite Ho, sl_one. reflexivity. Qed.
Lemma L_url p : pos p -> RT p rule_url.
Proof. intros Hp. unfold RT, rule_url. apply T_gets_bind, T_derived. intros out Ho. apply RP_here; auto. rewrite Ho, sl_one. reflexivity. Qed.
Lemma L_email p : pos p -> RT p rule_email.
Proof. intros Hp. unfold RT, rule_email. apply T_gets_bind, T_derived. intros out Ho. apply RP_here; auto. rewrite Ho, sl_one. reflexivity. Qed.
Lemma L_variable p : pos p -> RT p rule_variable.
Proof.
  intros Hp. unfold RT, rule_variable. apply T_gets_bind, T_or_panic. intros v Hv. apply T_derived. intros out Ho. apply RP_here; auto.
  rewrite Ho, sl_one, (variable_name_eq _ _ Hv). reflexivity.
Qed.
Lemma L_null p : pos p -> cur_tok p = TInputStart \/ cur_tok p = TInputEnd -> RT p rule_null.
Proof.
  intros Hp Ht. unfold RT, rule_null. apply T_derived. intros out Ho. apply RP_here; auto. rewrite Ho.
  destruct Ht as [Ht|Ht]; [rewrite start_slice|rewrite end_slice]; auto using pos_in.
Qed.
Lemma L_dash p : pos p -> cur_tok p = TDoubleDash -> RT p rule_dash.
Proof. intros Hp Ht. unfold RT, rule_dash. apply T_derived. intros out Ho. apply RP_here; auto. rewrite Ho, silent; auto. rewrite Ht. auto. Qed.
Lemma L_angle p : pos p -> RT p rule_double_angle.
Proof.
  intros Hp. unfold RT, rule_double_angle. apply T_gets_bind. destruct (t_token (cur p)) eqn:Et; try apply T_panic.
  - apply T_derived. intros out Ho. apply RP_here; auto. rewrite Ho, silent; auto. unfold cur_tok. rewrite Et. auto.
  - destruct (seqb _ _); [|apply T_fail, er_make; discriminate].
    apply T_derived. intros out Ho. apply RP_here; auto. rewrite Ho, silent; auto. unfold cur_tok. rewrite Et. auto.
Qed.
Lemma L_def_skip p : pos p -> RT p rule_def_skip.
Proof.
  intros Hp. unfold RT, rule_def_skip. apply T_gets_bind. destruct (_ && _) eqn:Eb; [|apply T_fail, er_make; discriminate].
  apply andb_prop in Eb as [Eb _]. apply andb_prop in Eb as [Eb _]. apply tok_eqb_true in Eb.
  apply T_derived. intros out Ho. apply RP_here; auto. rewrite Ho, silent; auto. rewrite Eb. auto.
Qed.
Lemma T_evaluate_fn {B} (m : M bool) (k : bool -> M B) p V R : (forall b, T (k b) p V R) -> T (bind (evaluate_fn m) k) p V R.
Proof. intros H s. unfold bind, evaluate_fn. destruct (m p s); try exact I; apply H. Qed.
Lemma L_line_break p : pos p -> cur_tok p = TLineBreak \/ cur_tok p = TParagraphBreak -> RT p rule_line_break.
Proof.
  intros Hp Ht. unfold RT, rule_line_break. apply T_evaluate_fn. intro b.
  destruct b; apply T_derived; intros out Ho; (apply RP_here; auto); rewrite Ho, silent; auto; destruct Ht as [-> | ->]; auto.
Qed.
Lemma L_block_skip p : pos p -> RT p (block_skip E consume).
Proof.
  intros Hp. unfold RT, block_skip. apply T_step_bind; [|intros; apply er_make; discriminate]. intros q Hq.
  pose proof (Hbar _ (pos_in _ (step_pos _ _ Hp Hq))) as Hb.
  destruct (t_token (cur q)) eqn:Et; try discriminate Hb;
    (intro s; unfold bind at 1, evaluate_fn, ret at 1; apply er_make; discriminate).
Qed.
Lemma L_usl p : pos p -> RT p rule_underscore_line_break.
Proof.
  intros Hp. unfold RT, rule_underscore_line_break. apply T_gets_bind, T_gets_bind.
  assert (X : forall q, go p [] q -> (length (rem q) = length (rem p) -> q = p) ->
    T (let! b := gets (fun p => is_tok TUnderscore p && (next_is 0 TLineBreak p || next_is 0 TParagraphBreak p)) in
       if negb b then fail RuleFailed else step_n 2 ;; ok_derived [ELineBreak] []) q (RP p) erp).
  { intros q Hg Hl. apply T_gets_bind. destruct (_ && _) eqn:Eb; [|apply T_fail, er_make; discriminate]. cbn [negb].
    apply andb_prop in Eb as [Eb Eb2]. apply tok_eqb_true in Eb. cbn [step_n]. apply T_assoc, T_step_bind; [|intros; apply er_make; discriminate]. intros q1 Hq1.
    apply T_assoc, T_step_bind; [|intros; apply er_make; discriminate]. intros q2 Hq2. apply T_ret_bind. apply T_derived. intros out Ho.
    pose proof (go_pos _ _ _ Hg) as Hpq. pose proof (step_go _ _ Hpq Hq1) as G1. rewrite silent in G1 by (auto; rewrite Eb; auto).
    pose proof (step_go _ _ (go_pos _ _ _ G1) Hq2) as G2.
    assert (Hw : wordy (cur_tok q1) = false).
    { unfold next_is, look_ahead in Eb2. destruct Hq1 as [Hr _]. rewrite Hr in Eb2. cbn [nth_error] in Eb2.
      apply orb_prop in Eb2 as [Eb2|Eb2]; apply tok_eqb_true in Eb2; unfold cur_tok; rewrite Eb2; auto. }
    rewrite silent in G2 by (auto; apply G1).
    pose proof (go_silent _ _ _ _ Hg (go_silent _ _ _ _ G1 G2)) as G3. destruct G3 as [Ga Gb Gc Gd Ge]. split; auto. right.
    apply step_len in Hq1. apply step_len in Hq2. destruct Hg. split; [lia|]. split; auto. rewrite Ho. exact Gd. }
  destruct (is_tok TWhitespace p && _) eqn:Ew.
  - apply andb_prop in Ew as [Ew _]. apply tok_eqb_true in Ew. apply T_assoc, T_step_bind; [|intros; apply er_make; discriminate]. intros q Hq. apply T_ret_bind. apply X.
    + rewrite <- (silent p Hp) by (rewrite Ew; auto). apply step_go; auto.
    + apply step_len in Hq. lia.
  - destruct (is_tok TUnderscore p && _ && _); [|apply T_fail_bind, er_make; discriminate]. apply T_ret_bind. apply X; auto. apply go_refl; auto.
Qed.

(** Raw text. *)
Lemma raw_slice p q w : pos p -> pos q -> length (rem q) <= length (rem p) -> partial_slice (en_text E) (cur p) (cur q) = Some w -> ls p = letters w ++ ls q.
Proof.
  intros [pa Ha] [pb Hb] Hl Hw. destruct (toks_spans E toks Htoks) as [Hcc Hs].
  assert (X : exists k, pb = pa ++ k /\ cur p :: rem p = k ++ cur q :: rem q).
  { assert (L : length pa <= length pb).
    { rewrite Hb in Ha. apply (f_equal (@length _)) in Ha. rewrite !app_length in Ha. cbn in Ha. lia. }
    rewrite Hb in Ha. clear - Ha L. revert pa Ha L. induction pb as [|x pb IH]; intros [|y pa] Ha L; cbn [length app] in *; try lia.
    - exists []. split; auto.
    - exists (x :: pb). split; auto.
    - injection Ha as -> Ha. destruct (IH pa Ha) as (k & -> & Hk); [lia|]. eauto. }
  destruct X as (k & Hk & Hr). destruct (Hs _ _ _ Ha) as [S1 S2]. destruct (Hs _ _ _ Hb) as [S3 S4].
  assert (W : partial_slice (en_text E) (cur p) (cur q) = Some (concat (map t_slice k))).
  { unfold partial_slice, slice_impl.
    assert (T0 : en_text E = concat (map t_slice pa) ++ concat (map t_slice k) ++ concat (map t_slice (cur q :: rem q))).
    { rewrite <- Hcc, Hb, Hk, map_app, concat_app, map_app, concat_app, <- app_assoc. auto. }
    assert (L : t_start (cur q) = t_start (cur p) + blen (concat (map t_slice k))).
    { rewrite S3, S1, Hk, map_app, concat_app, blen_app. auto. }
    rewrite (proj2 (Nat.ltb_ge _ _)) by lia. rewrite L, S1. rewrite T0 at 1. apply bslice_app. }
  rewrite W in Hw. injection Hw as <-. unfold ls, tl. rewrite Hr, map_app, concat_app, letters_app. auto.
Qed.
Lemma L_raw_loop p q ending : pos p -> stepped_to p q -> letters (t_slice (cur p)) = [] -> wordy ending = false -> T (raw_loop E ending (cur q)) q (RP p) erp.
Proof.
  intros Hp Hq Hl Hw. pose proof (step_pos _ _ Hp Hq) as Hpq. unfold raw_loop.
  apply (T_looping _ (fun fin r => fin = cur r /\ exists w, go q w r)); [split; auto; exists []; apply go_refl; auto|].
  intros fin r [-> [w Hg]]. apply T_gets_bind.
  assert (N : T (let! fin := step in ret (inl fin)) r (fun (x : xtoken + success elements) p' => match x with inl st' => st' = cur p' /\ (exists w, go q w p') | inr a => RP p a p' end) erp).
  { apply T_step_bind; [|intros; apply er_make; discriminate]. intros r' Hr'. apply T_ret. split; auto. eexists. eapply go_trans; [exact Hg|apply step_go; auto; apply Hg]. }
  assert (C : cur_tok r = ending -> T (let! slice := or_panic PanicSlice (partial_slice (en_text E) (cur q) (cur r)) in step ;; let! out := ok_derived [ERaw slice] [] in ret (inr out)) r
    (fun (x : xtoken + success elements) p' => match x with inl st' => st' = cur p' /\ (exists w, go q w p') | inr a => RP p a p' end) erp).
  { intros He. apply T_or_panic. intros v Hv. apply T_step_bind; [|intros; apply er_make; discriminate]. intros r' Hr'.
    unfold ok_derived. apply T_assoc, T_or_panic. intros b _. apply T_ret_bind. apply T_ret. eapply RP_go; eauto. cbn [su_item]. rewrite sl_one.
    pose proof (step_go _ _ (go_pos _ _ _ Hg) Hr') as G2. rewrite silent in G2 by (try apply Hg; rewrite He; auto).
    eapply go_silent_r; [|exact G2]. destruct Hg as [g1 g2 g3 g4 g5]. split; auto. apply raw_slice; auto. }
  destruct (cur_tok r) eqn:Et; try exact N; try (apply T_fail, er_make; discriminate); (destruct (tok_eqb _ ending) eqn:Ee; [apply tok_eqb_true in Ee; apply C; auto|exact N]).
Qed.
Lemma T_steps {B} (k : unit -> M B) n p V : 
  T (bind (step_n n) k) p V erp <-> match n with 0 => T (k tt) p V erp | S n' => T (bind step (fun _ => bind (step_n n') k)) p V erp end.
Proof.
  destruct n as [|n]; cbn [step_n]; split; intros H s; specialize (H s); unfold bind, ret in *; auto; destruct (step p s); auto.
Qed.
Lemma L_raw p : pos p -> RT p (rule_raw E).
Proof.
  intros Hp. unfold RT, rule_raw. apply T_gets_bind.
  assert (GN : forall ending, wordy (cur_tok p) = false -> wordy ending = false -> T (let! start := step in raw_loop E ending start) p (RP p) erp).
  { intros ending Hw He. apply T_step_bind; [|intros; apply er_make; discriminate]. intros q Hq. apply L_raw_loop; auto. apply silent; auto. }
  destruct (cur_tok p) eqn:Et; try apply T_panic; [|apply GN; auto].
  intro s. unfold bind at 1, look_ahead_err at 1, look_ahead. destruct (nth_error (rem p) 0) as [n1|] eqn:E1; [|apply er_make; discriminate].
  unfold bind at 1, look_ahead_err at 1, look_ahead. destruct (nth_error (rem p) 1) as [n2|] eqn:E2; [|apply er_make; discriminate]. revert s.
  match goal with |- forall s, match ?m p s with _ => _ end => change (T m p (RP p) erp) end.
  assert (S2 : forall es, sl es = letters (t_slice n1) -> T (step_n 2 ;; ok_derived es []) p (RP p) erp).
  { intros es He. apply T_steps. apply T_step_bind; [|intros; apply er_make; discriminate]. intros q1 Hq1. apply T_steps. apply T_step_bind; [|intros; apply er_make; discriminate].
    intros q2 Hq2. apply T_steps. apply T_derived. intros out Ho. eapply RP_go; [exact Hp|exact Hq1|apply silent; auto; rewrite Et; auto|]. rewrite Ho, He.
    assert (X : n1 = cur q1) by (destruct Hq1 as [Hr _]; rewrite Hr in E1; injection E1 as <-; auto). rewrite X. apply step_go; auto. eapply step_pos; eauto. }
  assert (S3 : forall es, sl es = letters (t_slice n1) -> letters (t_slice n2) = [] -> T (step_n 3 ;; ok_derived es []) p (RP p) erp).
  { intros es He H2. apply T_steps. apply T_step_bind; [|intros; apply er_make; discriminate]. intros q1 Hq1. apply T_steps. apply T_step_bind; [|intros; apply er_make; discriminate].
    intros q2 Hq2. apply T_steps. apply T_step_bind; [|intros; apply er_make; discriminate]. intros q3 Hq3. apply T_steps.
    apply T_derived. intros out Ho. eapply RP_go; [exact Hp|exact Hq1|apply silent; auto; rewrite Et; auto|]. rewrite Ho, He.
    destruct Hq1 as [Hr1 X1]. destruct Hq2 as [Hr2 X2]. pose proof E1 as E1'. pose proof E2 as E2'. rewrite Hr1 in E1', E2'. cbn [nth_error] in E1', E2'. rewrite Hr2 in E2'. cbn [nth_error] in E2'.
    injection E1' as <-. injection E2' as <-. assert (Hp1 : pos q1) by (eapply step_pos; [exact Hp|split; eauto]).
    assert (G1 : go q1 (letters (t_slice (cur q1))) q2) by (apply step_go; auto; split; auto).
    pose proof (step_go _ _ (go_pos _ _ _ G1) Hq3) as G2. rewrite H2 in G2. eapply go_silent_r; eauto. }
  assert (I1 : In n1 toks) by (destruct Hp as [pre ->]; apply in_or_app; right; right; eapply nth_error_In; eauto).
  assert (I2 : In n2 toks) by (destruct Hp as [pre ->]; apply in_or_app; right; right; eapply nth_error_In; eauto).
  assert (W : forall n, In n toks -> wordy (t_token n) = false -> letters (t_slice n) = []).
  { intros n Hn Hw. eapply shape_silent; [|exact Hw]. apply (tok_shape E toks Htoks); auto; intro X; rewrite X in Hw; discriminate. }
  assert (GN1 : T (let! start := step in raw_loop E TRaw start) p (RP p) erp) by (apply GN; auto; rewrite Et; auto).
  clear GN.
  assert (N2 : t_token n2 = TRaw -> letters (t_slice n2) = []) by (intro X; apply W; auto; rewrite X; auto).
  destruct (t_token n1) eqn:Ek1; destruct (t_token n2) eqn:Ek2;
    first [ exact GN1 | apply T_fail, er_make; discriminate
          | apply S3; [rewrite sl_one; reflexivity|apply N2; reflexivity]
          | apply S3; [rewrite (W n1 I1) by (rewrite Ek1; reflexivity); reflexivity|apply N2; reflexivity]
          | apply S2; rewrite (W n1 I1) by (rewrite Ek1; reflexivity); reflexivity
          | idtac ].
  destruct (seqb (t_slice n2) (lit "@")) eqn:Eq.
  - apply seqb_eq in Eq. apply S3; [rewrite (W n1 I1) by (rewrite Ek1; reflexivity); reflexivity|]. rewrite Eq. reflexivity.
  - apply S2. rewrite (W n1 I1) by (rewrite Ek1; reflexivity). reflexivity.
Qed.

(** Headings. *)
Lemma T_attempt {A B} (m : M A) (k : A + perr -> M B) p Q R V R' : T m p Q R -> (forall a p', Q a p' -> T (k (inl a)) p' V R') -> (forall e p', R e p' -> T (k (inr e)) p' V R') -> T (bind (attempt m) k) p V R'.
Proof. intros Hm H1 H2 s. specialize (Hm s). unfold bind, attempt. destruct (m p s) as [a p' s'|e p' s'|w|]; auto; [apply H1|apply H2]; auto. Qed.
Lemma T_header_step {B} t (k : xtoken -> M B) p V (R : perr -> pstate -> Prop) : pos p -> R (make_err RuleFailed p) p ->
  (cur_tok p = t -> forall q, stepped_to p q -> T (k (cur p)) q V R) -> (rem p = [] -> cur_tok p = t -> False) -> T (bind (header_step t) k) p V R.
Proof.
  intros Hp Hf Hk He. unfold header_step. apply T_assoc, T_gets_bind. destruct (tok_eqb (t_token (cur p)) t) eqn:Et; [|apply T_fail_bind; auto].
  apply tok_eqb_true in Et. apply T_assoc, T_step_bind; [|intros; exfalso; apply He; auto]. intros q Hq. apply T_ret_bind. auto.
Qed.
Definition eh (p : pstate) (e : perr) (p' : pstate) : Prop := er e /\ (cur_tok p = THeading /\ chainless \/ go p [] p').
Lemma L_header_n n : forall p, pos p -> safe 100 p ->
  T (header_n E consume n) p (fun out p' => go p (sl (su_item out)) p' /\ length (rem p') < length (rem p)) (eh p).
Proof.
  induction n as [|n IH]; intros p Hp Hs; [intro s; exact I|]. cbn [header_n]. apply T_header_step; auto.
  { split; [apply er_make; discriminate|]. right. apply go_refl; auto. }
  2:{ intros Hr Ht. rewrite (at_end p Hp Hr) in Ht. discriminate. }
  intros Ht q Hq. pose proof (step_go _ _ Hp Hq) as Gq. rewrite silent in Gq by (auto; rewrite Ht; auto).
  apply T_or_panic. intros h Hh. apply T_header_step; [apply Gq| | |].
  { split; [apply er_make; discriminate|]. right. auto. }
  2:{ intros Hr Ht2. rewrite (at_end q (go_pos _ _ _ Gq) Hr) in Ht2. discriminate. }
  intros Ht2 q2 Hq2. pose proof (step_go _ _ (go_pos _ _ _ Gq) Hq2) as G2. rewrite silent in G2 by (try apply Gq; rewrite Ht2; auto).
  pose proof (go_silent _ _ _ _ Gq G2) as G3. eapply T_bind_; [apply T_container; auto| |].
  - shut.
  - apply G2.
  - eapply go_safe; [exact G2|]. eapply safe_step; eauto. rewrite Ht. auto.
  - intros e p1 [H1 H2]. split; auto. left. split; auto. apply H2; auto. cbn. auto.
  - intros out p1 (Hg & (last & Hcl) & es & Ho). pose proof (go_silent _ _ _ _ G3 Hg) as G4.
    assert (Hlen : length (rem p1) < length (rem p)) by (apply step_len in Hq; destruct G2, Hg; lia).
    rewrite Ho. apply (T_bind _ _ _ (fun _ p' => p' = p1)).
    { destruct (hd_has_toc h); [|apply T_ret; auto]. intro s. unfold push_toc. destruct (text_render _ _ _); auto. }
    intros _ p2 ->. eapply T_attempt; [apply IH; [apply G4|eapply go_safe; eauto]| |].
    + intros more p3 [G5 L5]. apply T_ret. cbn [su_item]. rewrite sl_app. rewrite Ho in G4. split; [eapply go_trans; eauto|lia].
    + intros e p3 [_ [[Hh1 Hch]|G5]].
      * exfalso. destruct Hcl as (qq & [pre Hqq] & Hev & <- & Hif). destruct (tok_eqb (t_token (cur qq)) TInputEnd) eqn:Ee.
        { destruct Hif as [Hif _]. apply tok_eqb_true in Ee. unfold cur_tok in Hh1. rewrite Hif, Ee in Hh1. discriminate. }
        rewrite Hif in Hqq. apply (Hch _ _ _ _ Hqq); auto. unfold evaluate_any in Hev. apply existsb_exists in Hev as (c & Hi & Hev).
        destruct Hi as [<-|[<-|[<-|[]]]]; cbn [evaluate] in Hev; apply tok_eqb_true in Hev; auto. unfold cur_tok in Hev. rewrite Hev in Ee. discriminate.
      * apply T_ret. cbn [su_item]. rewrite Ho in G4. split; [eapply go_silent_r; eauto|]. destruct G5. lia.
Qed.
Lemma RP_len p out p' : go p (sl (su_item out)) p' -> length (rem p') < length (rem p) -> RP p out p'.
Proof. intros [g1 g2 g3 g4 g5] Hl. split; auto. Qed.
Lemma L_header p : pos p -> safe 100 p -> RT p (rule_header E consume).
Proof.
  intros Hp Hs s. unfold rule_header. pose proof (L_header_n (S (length (rem p))) p Hp Hs s) as H. destruct (header_n _ _ _ p s); auto.
  - apply RP_len; apply H.
  - apply H.
Qed.

(** Lists. *)
Definition items_sl {L} (ds : list (nat * L * elements)) : str := flat_map (fun d => sl (snd d)) ds.
Lemma letters_flat {A} (f : A -> str) l : letters (flat_map f l) = flat_map (fun x => letters (f x)) l.
Proof. induction l as [|x l IH]; auto. cbn [flat_map]. rewrite letters_app, IH. auto. Qed.
Lemma build_list_said l : sl [build_list l] = items_sl (flat_map (reading 0 (fst l)) (snd l)).
Proof.
  assert (X : forall it d lt, letters (match build_list_item it with LIElements _ es => flat_map said1 es | LISubList x => said1 x end) = items_sl (reading d lt it)).
  { induction it as [es|lt' items IH] using depth_item_ind'; intros d lt; cbn [build_list_item reading].
    - unfold items_sl. cbn [flat_map snd]. rewrite app_nil_r. reflexivity.
    - cbn [said]. rewrite letters_flat. unfold items_sl. rewrite flat_map_flat_map. rewrite flat_map_concat_map, map_map, <- flat_map_concat_map.
      clear lt. induction items as [|it items IHi]; auto. cbn [flat_map]. inversion IH; subst. f_equal; auto. apply (H1 (S d) lt'). }
  rewrite sl_one. unfold build_list. cbn [said]. rewrite letters_flat, flat_map_concat_map, map_map, <- flat_map_concat_map. unfold items_sl. rewrite flat_map_flat_map.
  apply flat_map_ext. intro it. apply (X it 0 (fst l)).
Qed.
Lemma sl_map {A} (f : A -> element) l : sl (map f l) = flat_map (fun x => sl [f x]) l.
Proof. induction l as [|x l IH]; auto. cbn [map flat_map]. rewrite sl_cons, sl_one, IH. auto. Qed.
Lemma list_type_eqb_spec a b : list_type_eqb a b = true <-> a = b.
Proof. destruct a, b; cbn; split; congruence. Qed.
Lemma L_list p : pos p -> safe 100 p -> RT p (rule_list consume).
Proof.
  intros Hp Hs. unfold RT, rule_list.
  apply (T_bind _ _ _ (fun (r : list (nat * list_type * elements) * list perr) p' => go p (items_sl (fst r)) p' /\ (fst r <> [] -> length (rem p') < length (rem p)))).
  { apply (T_looping _ (fun (st : list (nat * list_type * elements) * list perr) q => go p (items_sl (fst st)) q /\ (fst st <> [] -> length (rem q) < length (rem p)))).
    { split; [apply go_refl; auto|]. intro X. contradiction X; auto. }
    intros [ds errs] q [Hg Hl]. cbn [fst] in Hg, Hl. apply T_gets_bind.
    apply (T_bind _ _ _ (fun (_ : option nat) p' => go p (items_sl ds) p' /\ (ds <> [] -> length (rem p') < length (rem p)))).
    { destruct (t_token (cur q)) eqn:Et; try (apply T_ret; split; auto; fail).
      apply T_step_bind; [|intros; apply er_make; discriminate]. intros q' Hq'. apply T_ret. pose proof (step_go _ _ (go_pos _ _ _ Hg) Hq') as G2.
      rewrite silent in G2 by (try apply Hg; unfold cur_tok; rewrite Et; auto). split; [eapply go_silent_r; eauto|]. intro X. specialize (Hl X). destruct G2. lia. }
    clear q Hg Hl. intros dep q [Hg Hl]. destruct dep as [dep|]; [|apply T_ret; auto].
    destruct (MAX_LIST_DEPTH <? dep); [apply T_fail, er_make; discriminate|]. apply T_gets_bind. destruct (get_list_type (cur_tok q)) as [lt|] eqn:Elt; [|apply T_ret; auto].
    assert (Hk : wordy (cur_tok q) = false /\ opener (cur_tok q) = true) by (destruct (cur_tok q); try discriminate; auto). destruct Hk as [Hw Hop].
    apply T_step_bind; [|intros; apply er_make; discriminate]. intros q1 Hq1. pose proof (step_go _ _ (go_pos _ _ _ Hg) Hq1) as G1. rewrite silent in G1 by (auto; apply Hg).
    apply T_gets_bind. destruct (is_tok TWhitespace q1) eqn:Ew; cbn [negb].
    2:{ apply T_ret. split; [eapply go_silent_r; eauto|]. intro X. specialize (Hl X). destruct G1. cbn [fst]. lia. }
    apply tok_eqb_true in Ew. apply T_step_bind; [|intros; apply er_make; discriminate]. intros q2 Hq2. pose proof (step_go _ _ (go_pos _ _ _ G1) Hq2) as G2.
    rewrite silent in G2 by (try apply G1; rewrite Ew; auto). eapply T_bind_; [apply T_collect| |].
    - shut.
    - apply G2.
    - eapply go_safe; [exact G2|]. eapply safe_step; [exact Hq1|exact Hop|]. eapply go_safe; eauto.
    - intros; eapply ec_er; eauto.
    - intros out q3 [G3 _]. apply T_ret. cbn [fst]. split.
      + unfold items_sl. rewrite flat_map_app. cbn [flat_map snd]. rewrite app_nil_r. eapply go_trans; [exact Hg|]. eapply go_silent; [exact G1|]. eapply go_silent; eauto.
      + intros _. destruct Hg, G2, G3. apply step_len in Hq1. lia. }
  intros [ds errs] q [Hg Hl]. cbn [fst] in *. destruct ds as [|d ds]; [apply T_fail, er_make; discriminate|].
  apply T_or_panic. intros lists Hls. apply T_ret. destruct (process_depths_ok list_type_eqb list_type_eqb_spec LGeneric (d :: ds)) as (ts & H1 & H2 & _).
  rewrite Hls in H1. injection H1 as ->. apply RP_len; [|apply Hl; discriminate]. cbn [su_item]. rewrite sl_map.
  replace (flat_map (fun x => sl [build_list x]) ts) with (items_sl (d :: ds)); auto. rewrite <- H2. unfold reading_trees, items_sl. rewrite flat_map_flat_map.
  apply flat_map_ext. intros [lt items]. symmetry. apply build_list_said.
Qed.

(** Paragraphs and quotes. *)
Definition psl (st : pstack) : str := sl (ps_finished st) ++ sl (ps_current st).
Lemma end_paragraph_said st : sl (ps_finished (end_paragraph st)) = psl st /\ ps_current (end_paragraph st) = [].
Proof.
  unfold end_paragraph, build_paragraph, psl. destruct st as [[|e es] fin]; cbn [ps_current ps_finished].
  - rewrite app_nil_r. auto.
  - rewrite sl_app, sl_one. unfold paragraph. rewrite said_plain by auto. auto.
Qed.
Lemma push_element_said st e sf : psl (push_element st e sf) = psl st ++ sl [e].
Proof.
  unfold push_element. destruct sf; unfold psl; cbn [ps_current ps_finished].
  - rewrite sl_app, app_assoc. auto.
  - destruct (end_paragraph_said st) as [H1 H2]. rewrite sl_app, H1, H2, app_nil_r. auto.
Qed.
Lemma push_elements_said es : forall st sf, psl (push_elements st es sf) = psl st ++ sl es.
Proof.
  induction es as [|e es IH]; intros st sf; cbn [push_elements]; [rewrite app_nil_r; auto|].
  destruct (match ps_current st with [] => is_line_break e | _ => false end) eqn:Eb; rewrite IH, sl_cons.
  - destruct (ps_current st); [|discriminate]. destruct e; try discriminate. auto.
  - rewrite push_element_said, sl_one, <- app_assoc. auto.
Qed.
Lemma into_elements_said st : sl (into_elements st) = psl st. Proof. apply end_paragraph_said. Qed.
Lemma pop_line_break_said st : psl (pop_line_break st) = psl st.
Proof.
  unfold pop_line_break. destruct (rev (ps_current st)) as [|e r] eqn:Er; auto. destruct e; auto. unfold psl. cbn [ps_current ps_finished].
  apply (f_equal (@rev _)) in Er. rewrite rev_involutive in Er. rewrite Er. cbn [rev]. rewrite sl_app, app_nil_r. auto.
Qed.
Lemma push_all_said es : forall st sf, psl (push_all st es sf) = psl st ++ sl es.
Proof. induction es as [|e es IH]; intros st sf; cbn [push_all]; [rewrite app_nil_r; auto|]. rewrite IH, push_element_said, (sl_cons e es), sl_one, <- app_assoc. auto. Qed.
Lemma blockquote_of_said st : sl [blockquote_of st] = psl st.
Proof. unfold blockquote_of. rewrite sl_one, said_plain by auto. change (sl (into_elements (pop_line_break st)) = psl st). rewrite into_elements_said. apply pop_line_break_said. Qed.
Definition quote_sl (ds : list (nat * unit * (elements * bool))) : str := flat_map (fun d => sl (fst (snd d))) ds.
Lemma blockquote_item_said it : forall d u st, psl (blockquote_item st it) = psl st ++ quote_sl (reading d u it).
Proof.
  induction it as [[es sf]|l items IH] using depth_item_ind'; intros d u st; cbn [blockquote_item reading].
  - rewrite push_all_said. unfold quote_sl. cbn. rewrite app_nil_r. auto.
  - rewrite push_element_said, pop_line_break_said, blockquote_of_said. f_equal. unfold quote_sl. rewrite flat_map_flat_map.
    enough (X : forall st0, psl ((fix go (st : pstack) (l0 : list (depth_item unit (elements * bool))) {struct l0} : pstack := match l0 with [] => st | x :: l' => go (blockquote_item st x) l' end) st0 items)
      = psl st0 ++ flat_map (fun x => flat_map (fun d0 => sl (fst (snd d0))) (reading (S d) l x)) items) by (rewrite X; reflexivity).
    induction items as [|it items IHi]; intro st0; [cbn; rewrite app_nil_r; auto|]. inversion IH; subst. rewrite IHi by auto. cbn [flat_map]. rewrite (H1 (S d) l), <- app_assoc. auto.
Qed.
Lemma blockquote_items_said items : forall st, psl (blockquote_items st items) = psl st ++ flat_map (fun it => quote_sl (reading 0 tt it)) items.
Proof. induction items as [|it items IH]; intro st; cbn [blockquote_items flat_map]; [rewrite app_nil_r; auto|]. rewrite IH, (blockquote_item_said it 0 tt), <- app_assoc. auto. Qed.
Lemma L_blockquote p : pos p -> safe 100 p -> RT p (rule_blockquote consume).
Proof.
  intros Hp Hs. unfold RT, rule_blockquote.
  apply (T_bind _ _ _ (fun (r : list (nat * unit * (elements * bool)) * list perr) p' => go p (quote_sl (fst r)) p' /\ (fst r <> [] -> length (rem p') < length (rem p)))).
  { apply (T_looping _ (fun (st : list (nat * unit * (elements * bool)) * list perr) q => go p (quote_sl (fst st)) q /\ (fst st <> [] -> length (rem q) < length (rem p)))).
    { split; [apply go_refl; auto|]. intro X. contradiction X; auto. }
    intros [ds errs] q [Hg Hl]. cbn [fst] in Hg, Hl. apply T_gets_bind. destruct (tok_eqb (t_token (cur q)) TQuote) eqn:Et; [|apply T_ret; auto].
    apply tok_eqb_true in Et. apply T_step_bind; [|intros; apply er_make; discriminate]. intros q1 Hq1. pose proof (step_go _ _ (go_pos _ _ _ Hg) Hq1) as G1.
    rewrite silent in G1 by (try apply Hg; unfold cur_tok; rewrite Et; auto). apply (T_optional TWhitespace); auto; [apply G1|]. intros q2 G2.
    destruct (MAX_BLOCKQUOTE_DEPTH <? _); [apply T_fail, er_make; discriminate|]. eapply T_bind_; [apply T_collect| |].
    - shut.
    - apply G2.
    - eapply go_safe; [exact G2|]. eapply safe_step; [exact Hq1|unfold cur_tok; rewrite Et; auto|]. eapply go_safe; eauto.
    - intros; eapply ec_er; eauto.
    - intros out q3 [G3 _]. apply T_ret. cbn [fst]. split.
      + unfold quote_sl. rewrite flat_map_app. cbn [flat_map snd fst]. rewrite app_nil_r, sl_app. change (sl [ELineBreak]) with (@nil char). rewrite app_nil_r.
        eapply go_trans; [exact Hg|]. eapply go_silent; [exact G1|]. eapply go_silent; eauto.
      + intros _. destruct Hg, G2, G3. apply step_len in Hq1. lia. }
  intros [ds errs] q [Hg Hl]. cbn [fst] in *. destruct ds as [|d ds]; [apply T_fail, er_make; discriminate|].
  assert (Hu : forall a b : unit, (fun _ _ : unit => true) a b = true <-> a = b) by (intros [] []; split; auto).
  apply T_or_panic. intros lists Hls. apply T_ret. destruct (process_depths_ok _ Hu tt (d :: ds)) as (ts & H1 & H2 & _).
  rewrite Hls in H1. injection H1 as ->. apply RP_len; [|apply Hl; discriminate]. cbn [su_item]. rewrite sl_map.
  replace (flat_map _ ts) with (quote_sl (d :: ds)); auto. rewrite <- H2. unfold reading_trees, quote_sl at 1. rewrite flat_map_flat_map.
  apply flat_map_ext. intros [[] items]. cbn [snd]. unfold build_blockquote. rewrite blockquote_of_said, blockquote_items_said. rewrite flat_map_flat_map. reflexivity.
Qed.

(** Definition lists. *)
Lemma strip_front_said es : sl (strip_front is_whitespace es) = sl es.
Proof.
  induction es as [|e es IH]; auto. cbn [strip_front]. destruct (is_whitespace e) eqn:Ew; auto. rewrite sl_cons, IH.
  destruct e; try discriminate Ew; [|reflexivity]. cbn [is_whitespace said] in *. rewrite letters_ws by auto. reflexivity.
Qed.
Lemma sl_rev es : forall f, (forall e, f e = letters (said1 e)) -> sl (rev es) = flat_map f (rev es).
Proof. intros f Hf. unfold sl. rewrite letters_flat. apply flat_map_ext. intro e. symmetry. apply Hf. Qed.
Lemma strip_back_said es : sl (strip_back is_whitespace es) = sl es.
Proof.
  destruct (strip_back_spec is_whitespace es) as (b & H & Hb & _). rewrite H at 2. rewrite sl_app.
  assert (X : sl b = []); [|rewrite X, app_nil_r; auto]. clear H. induction b as [|e b IH]; auto. inversion Hb as [|? ? He Hb']; subst. rewrite sl_cons, IH by auto.
  destruct e; try discriminate He; [|reflexivity]. cbn [is_whitespace said] in *. rewrite letters_ws by auto. reflexivity.
Qed.
Lemma strip_said es : sl (strip_whitespace es) = sl es.
Proof. unfold strip_whitespace. rewrite strip_back_said. apply strip_front_said. Qed.
Definition def_sl (d : def_item) : str := sl (df_key d) ++ sl (df_value d).
Lemma L_def_item p : pos p -> safe 100 p -> T (def_item_parse E consume) p (fun out p' => go p (def_sl (fst (su_item out))) p' /\ length (rem p') < length (rem p)) erp.
Proof.
  intros Hp Hs. unfold def_item_parse. apply T_gets_bind. destruct (start_of_line p); [cbn [negb]|apply T_fail, er_make; discriminate].
  apply T_gets_bind. destruct (is_tok TColon p && next_is 0 TWhitespace p) eqn:Eb; [cbn [negb]|apply T_fail, er_make; discriminate].
  apply andb_prop in Eb as [Eb Eb2]. apply tok_eqb_true in Eb.
  apply T_steps. apply T_step_bind; [|intros; apply er_make; discriminate]. intros q1 Hq1. apply T_steps. apply T_step_bind; [|intros; apply er_make; discriminate]. intros q2 Hq2. apply T_steps.
  pose proof (step_go _ _ Hp Hq1) as G1. rewrite silent in G1 by (auto; rewrite Eb; auto). pose proof (step_go _ _ (go_pos _ _ _ G1) Hq2) as G2.
  assert (Ew : cur_tok q1 = TWhitespace).
  { unfold next_is, look_ahead in Eb2. destruct Hq1 as [Hr _]. rewrite Hr in Eb2. cbn [nth_error] in Eb2. apply tok_eqb_true in Eb2. auto. }
  rewrite silent in G2 by (try apply G1; rewrite Ew; auto). pose proof (go_silent _ _ _ _ G1 G2) as G3.
  assert (S2 : safe 99 q2) by (eapply go_safe; [exact G2|]; eapply safe_step; eauto; rewrite Eb; auto).
  apply T_gets_bind. eapply T_bind_; [apply T_collect; [|apply G2|exact S2]| |].
  { shut. }
  { intros; eapply ec_er; eauto. }
  intros key q3 (G4 & last & qq & Hpq & Hev & <- & Hif). cbn [evaluate_any existsb evaluate] in Hev. rewrite orb_false_r in Hev. apply andb_prop in Hev as [Hev1 Hev2].
  apply tok_eqb_true in Hev1. unfold cur_tok in Hev1. rewrite Hev1 in Hif. cbn in Hif. unfold next_is, look_ahead in Hev2. rewrite Hif in Hev2. cbn [nth_error] in Hev2. apply tok_eqb_true in Hev2.
  apply T_gets_bind. apply T_steps. apply T_step_bind; [|intros; apply er_make; discriminate]. intros q4 Hq4. apply T_steps. apply T_step_bind; [|intros; apply er_make; discriminate]. intros q5 Hq5. apply T_steps.
  pose proof (step_go _ _ (go_pos _ _ _ G4) Hq4) as G5. rewrite silent in G5 by (try apply G4; unfold cur_tok; rewrite Hev2; auto).
  pose proof (step_go _ _ (go_pos _ _ _ G5) Hq5) as G6.
  assert (Hx : letters (t_slice (cur q4)) = []).
  { destruct Hpq as [pre Hpre]. rewrite Hif in Hpre. destruct Hq4 as [Hq4 _]. rewrite Hq4 in Hpre. eapply Hdef; eauto. }
  rewrite Hx in G6. pose proof (go_silent _ _ _ _ G5 G6) as G7. apply T_or_panic. intros ks _. eapply T_bind_; [apply T_collect_keep; [|apply G7|]| |].
  { shut. }
  { eapply go_safe; [exact G7|]. eapply go_safe; eauto. }
  { intros; eapply ec_er; eauto. }
  intros value q6 [G8 _]. destruct (su_item value) as [ves vlast]. cbn [fst] in G8.
  apply (T_bind _ _ _ (fun _ p' => p' = q6)); [destruct (t_token vlast); try apply T_panic; apply T_ret; auto|]. intros br q7 ->. apply T_ret. cbn [su_item fst]. unfold def_sl. cbn [df_key df_value].
  rewrite !strip_said. split.
  - eapply go_silent; [exact G3|]. eapply go_trans; [exact G4|]. eapply go_silent; eauto.
  - apply step_len in Hq1. destruct G2, G4, G7, G8. lia.
Qed.
Lemma T_on_clone {A B} (m : M A) (k : A + perr -> M B) p Q R V R' : T m p Q R -> (forall a q, Q a q -> T (k (inl a)) (update p q) V R') -> (forall e, T (k (inr e)) p V R') -> T (bind (on_clone m) k) p V R'.
Proof. intros Hm H1 H2 s. specialize (Hm s). unfold bind, on_clone. destruct (m p s) as [a p' s'|e p' s'|w|]; auto; [apply H1; auto|apply H2]. Qed.
Lemma go_update p w q : go p w q -> go p w (update p q).
Proof. intros [g1 g2 g3 g4 g5]. split; auto. Qed.
Lemma L_def_list p : pos p -> safe 100 p -> RT p (rule_def_list E consume).
Proof.
  intros Hp Hs. unfold RT, rule_def_list. eapply T_bind; [apply L_def_item; auto|]. intros first q [Hg Hl]. destruct (su_item first) as [item fin]. cbn [fst] in Hg.
  apply (T_bind _ _ _ (fun items p' => go p (flat_map def_sl items) p' /\ length (rem p') < length (rem p))).
  - destruct fin; [apply T_ret; split; auto; cbn [flat_map]; rewrite app_nil_r; auto|].
    apply (T_looping _ (fun items p' => go p (flat_map def_sl items) p' /\ length (rem p') < length (rem p))); [split; auto; cbn [flat_map]; rewrite app_nil_r; auto|].
    clear q Hg Hl. intros items q [Hg Hl]. eapply T_on_clone; [apply L_def_item; [apply Hg|eapply go_safe; eauto]| |].
    + intros out q' [G1 L1]. destruct (su_item out) as [it fin]. cbn [fst] in G1. apply go_update in G1.
      assert (X : go p (flat_map def_sl (items ++ [it])) (update q q') /\ length (rem (update q q')) < length (rem p)).
      { split; [rewrite flat_map_app; cbn [flat_map]; rewrite app_nil_r; eapply go_trans; eauto|]. cbn [update rem]. lia. }
      destruct fin; apply T_ret; auto.
    + intros e. apply T_ret. auto.
  - intros items p' [G1 L1]. apply T_derived. intros out Ho. apply RP_len; auto. rewrite Ho, sl_one. cbn [said].
    replace (letters _) with (flat_map def_sl items); auto. rewrite letters_flat. apply flat_map_ext. intro d. unfold def_sl, sl. rewrite !letters_app. reflexivity.
Qed.

(** The rule map. *)
Lemma L_rules p r : pos p -> safe 100 p -> In r (rules_for E consume (cur_tok p)) -> RT p (rd_fn r).
Proof.
  intros Hp Hs Hr. pose proof (Hbar _ (pos_in _ Hp)) as Hb. change (barred (cur_tok p) = false) in Hb.
  Ltac one_rule Hp Hs Et := match goal with
    | |- RT _ (rd_fn R_text) => exact (L_text _ Hp)
    | |- RT _ (rd_fn R_clear_float_) => exact (L_clear_float _ Hp)
    | |- RT _ (rd_fn R_double_angle) => exact (L_angle _ Hp)
    | |- RT _ (rd_fn (R_list _)) => exact (L_list _ Hp Hs)
    | |- RT _ (rd_fn (R_raw_ _)) => exact (L_raw _ Hp)
    | |- RT _ (rd_fn R_usl) => exact (L_usl _ Hp)
    | |- RT _ (rd_fn R_null) => apply L_null; [exact Hp|rewrite Et; tauto]
    | |- RT _ (rd_fn (RULE _ _ (rule_format _ _ _))) => apply L_format; [reflexivity|reflexivity|exact Hp|exact Hs]
    | |- RT _ (rd_fn (RULE _ _ rule_dash)) => exact (L_dash _ Hp Et)
    | |- RT _ (rd_fn (RULE _ _ rule_horizontal_rule)) => exact (L_hr _ Hp)
    | |- RT _ (rd_fn (RULE _ _ (rule_center _))) => exact (L_center _ Hp Hs)
    | |- RT _ (rd_fn (RULE _ _ (rule_def_list _ _))) => exact (L_def_list _ Hp Hs)
    | |- RT _ (rd_fn (RULE _ _ (rule_blockquote _))) => exact (L_blockquote _ Hp Hs)
    | |- RT _ (rd_fn (RULE _ _ (rule_header _ _))) => exact (L_header _ Hp Hs)
    | |- RT _ (rd_fn (RULE _ _ (rule_monospace _))) => exact (L_monospace _ Hp Hs)
    | |- RT _ (rd_fn (RULE _ _ rule_email)) => exact (L_email _ Hp)
    | |- RT _ (rd_fn (RULE _ _ rule_url)) => exact (L_url _ Hp)
    | |- RT _ (rd_fn (RULE _ _ rule_variable)) => exact (L_variable _ Hp)
    | |- RT _ (rd_fn (RULE _ _ (block_skip _ _))) => exact (L_block_skip _ Hp)
    | |- RT _ (rd_fn (RULE _ _ rule_def_skip)) => exact (L_def_skip _ Hp)
    | |- RT _ (rd_fn (RULE _ _ rule_line_break)) => apply L_line_break; [exact Hp|rewrite Et; tauto]
    end.
  destruct (cur_tok p) eqn:Et; try discriminate Hb; cbn [rules_for] in Hr;
    repeat (destruct Hr as [<-|Hr]; [try one_rule Hp Hs Et|]); try destruct Hr.
  intro s. unfold rd_fn, R_bibcite, rule_bibcite, check_step, bind, gets. unfold cur_tok in Et. rewrite Et. exact I.
Qed.

Lemma pos_rule r p : pos p -> pos (with_rule r p). Proof. auto. Qed.
Lemma L_try r p : pos p -> safe 100 p -> In r (rules_for E consume (cur_tok p)) ->
  T (try_consume r) p (fun out p' => RP p out p' /\ depth p' = depth p) (fun e p' => p' = p /\ er e).
Proof.
  intros Hp Hs Hr s. unfold try_consume. destruct (match rd_position r with AnyPosition => false | StartOfLine => negb (start_of_line p) end).
  { split; auto. apply er_make. discriminate. }
  pose proof (L_rules (with_rule (rd_name r) p) r Hp Hs Hr s) as H. destruct (rd_fn r (with_rule (rd_name r) p) s) as [out q s'|e q s'|w|]; auto.
  destruct (check_partials (su_item out) p) as [e|] eqn:Ec; [|split; auto; exact H].
  split; auto. right. revert Ec. generalize (su_item out). intro es0. induction es0 as [|x es IH]; cbn [check_partials]; [discriminate|].
  destruct x; auto. destruct (ap_matches _ _); auto. intro X. injection X as <-. cbn [make_err perr_new pe_kind]. destruct p0; discriminate.
Qed.
Lemma L_consume_rules rules : forall errs p, pos p -> safe 100 p -> 1 <= depth p -> incl rules (rules_for E consume (cur_tok p)) -> Forall er errs ->
  T (consume_rules rules errs) p (fun r p' => match r with
      | inl out => pos p' /\ S (depth p') = depth p /\ op p' <= op p /\ ls p = sl (su_item out) ++ ls p' /\ length (rem p') < length (rem p)
      | inr es => p' = p /\ Forall er es end) (fun _ _ => cur_tok p = TInputEnd).
Proof.
  induction rules as [|r rules IH]; intros errs p Hp Hs Hd Hi He; cbn [consume_rules]; [apply T_ret; auto|].
  apply T_gets_bind. eapply T_attempt; [apply L_try; auto; apply Hi; cbn; auto| |].
  - intros out q [[Hq Hrp] Hdq]. unfold step_if_same. apply T_assoc, T_gets_bind. unfold same_pointer. destruct (length (rem q) =? length (rem p)) eqn:El.
    + apply Nat.eqb_eq in El. destruct Hrp as [[_ Hsl]|[X _]]; [|lia]. destruct (pos_same q p Hq Hp El) as [Hcur Hrem].
      apply T_assoc, T_step_bind.
      * intros q' Hq'. apply T_ret_bind. pose proof (step_go q q' Hq Hq') as [g1 g2 g3 g4 g5]. apply T_bind with (Q := fun _ p' => p' = with_depth (depth q' - 1) q'); [intro s; reflexivity|].
        intros _ p' ->. apply T_ret. apply step_len in Hq'.
        assert (Hop : op q = op p) by (unfold op; rewrite Hcur, Hrem; auto). assert (Hls : ls q = ls p) by (unfold ls; rewrite Hcur, Hrem; auto).
        split; [exact g1|]. split; [cbn [with_depth depth]; lia|]. split; [change (op (with_depth (depth q' - 1) q')) with (op q'); lia|]. split; [|cbn [with_depth rem]; lia].
        change (ls (with_depth (depth q' - 1) q')) with (ls q'). rewrite Hsl, <- Hls, g4, Hcur. auto.
      * intros p' Hr. rewrite Hrem in Hr. apply at_end; auto.
    + apply Nat.eqb_neq in El. destruct Hrp as [[X _]|(L1 & L2 & L3)]; [lia|]. apply T_ret_bind.
      apply T_bind with (Q := fun _ p' => p' = with_depth (depth q - 1) q); [intro s; reflexivity|]. intros _ p' ->. apply T_ret.
      split; [exact Hq|]. split; [cbn [with_depth depth]; lia|]. split; [exact L2|]. split; [exact L3|exact L1].
  - intros e q [-> Hee]. eapply T_conseq; [apply IH; auto| |auto].
    + intros x Hx. apply Hi. right. auto.
    + apply Forall_app. auto.
    + cbn beta. auto.
Qed.
Lemma CS_with : CS (consume_with (rules_for E consume)).
Proof.
  intros p Hp Hs. unfold consume_with, depth_increment. apply T_assoc. apply T_bind with (Q := fun _ p' => p' = with_depth (depth p + 1) p); [intro s; reflexivity|]. intros _ p1 ->.
  apply T_assoc, T_gets_bind. destruct (MAX_RECURSION_DEPTH <? depth (with_depth (depth p + 1) p)) eqn:Ed.
  { apply T_fail_bind. left. destruct Hs as [Hs|Hs]; auto. exfalso. apply Nat.ltb_lt in Ed. cbn [with_depth depth] in Ed. unfold MAX_RECURSION_DEPTH in Ed. lia. }
  apply T_ret_bind. apply T_gets_bind. set (p1 := with_depth (depth p + 1) p) in *. assert (Hp1 : pos p1) by exact Hp.
  assert (Hs1 : safe 100 p1). { destruct Hs as [Hs|Hs]; [left; auto|right]. change (op p1) with (op p). unfold p1. cbn [with_depth depth]. lia. }
  eapply T_bind_; [apply (L_consume_rules (rules_for E consume (t_token (cur p1))) [] p1); auto; [unfold p1; cbn; lia|apply incl_refl]| |].
  - cbn beta. intros e _ H. right. exact H.
  - intros [out|es] p2; cbn beta iota.
    + intros (H1 & H2 & H3 & H4 & H5). apply T_ret. unfold p1 in H2. cbn [with_depth depth] in H2. split; [|exact H5]. split; auto. lia. cbn in H5. apply Nat.lt_le_incl. exact H5.
    + intros [-> Hes]. apply T_step_bind; [|intros p' Hr; right; exact (at_end p1 Hp1 Hr)]. intros q Hq.
      assert (K : T (depth_decrement ;; ok_derived [EText (t_slice (cur p1))] (es ++ [perr_new NoRulesMatch "fallback" (cur p1)])) q
        (fun out p' => go p (sl (su_item out)) p' /\ length (rem p') < length (rem p)) (fun _ _ => chainless \/ cur_tok p = TInputEnd)).
      { apply T_bind with (Q := fun _ p' => p' = with_depth (depth q - 1) q); [intro s; reflexivity|]. intros _ p' ->. apply T_derived. intros out Ho.
        pose proof (step_go p1 q Hp1 Hq) as [g1 g2 g3 g4 g5]. apply step_len in Hq. split; [|cbn [with_depth rem] in *; change (rem p1) with (rem p) in Hq; lia].
        split; auto. cbn [with_depth depth]. rewrite g2. unfold p1. cbn [with_depth depth]. lia. rewrite Ho, sl_one. exact g4. }
      destruct (rev es) as [|e r] eqn:Er; [apply T_ret_bind; exact K|]. destruct (kind_eqb (pe_kind e) RecursionDepthExceeded) eqn:Ek; [|apply T_ret_bind; exact K].
      intro s. left. assert (In e es) by (rewrite in_rev, Er; left; auto). rewrite Forall_forall in Hes. destruct (Hes e H) as [X|X]; auto.
      exfalso. apply X. unfold kind_eqb in Ek. destruct (error_kind_eq_dec (pe_kind e) RecursionDepthExceeded); auto. discriminate.
Qed.
End WithConsume.
Lemma CS_n n : CS (consume_n E n).
Proof.
  induction n as [|n IH]; cbn [consume_n]; [|apply CS_with; auto].
  intros p Hp Hs. unfold depth_increment. apply T_assoc. apply T_bind with (Q := fun _ p' => p' = with_depth (depth p + 1) p); [intro s; reflexivity|]. intros _ p1 ->.
  apply T_assoc, T_gets_bind. destruct (MAX_RECURSION_DEPTH <? depth (with_depth (depth p + 1) p)) eqn:Ed; [|intro s; exact I].
  apply T_fail_bind. left. destruct Hs as [Hs|Hs]; auto. exfalso. apply Nat.ltb_lt in Ed. cbn [with_depth depth] in Ed. unfold MAX_RECURSION_DEPTH in Ed. lia.
Qed.
(** The page. *)
Lemma L_gather p : pos p -> safe 99 p -> T (gather_paragraphs (consume E) "page" None) p (fun out _ => sl (su_item out) = ls p) (fun _ _ => True).
Proof.
  intros Hp Hs. unfold gather_paragraphs. apply T_bind with (Q := fun _ p' => p' = with_rule "page" p); [intro s; reflexivity|]. intros _ p0 ->.
  apply (T_bind _ _ _ (fun (r : pstack * list perr) _ => psl (fst r) = ls p)).
  - apply (T_looping _ (fun (st : pstack * list perr * bool) q => go p (psl (fst (fst st))) q)); [destruct (go_refl p Hp) as [g1 g2 g3 g4 g5]; split; [exact g1|exact g2|exact g3|exact g4|exact g5]|].
    intros [[st errs] first] q Hg. cbn [fst] in Hg. apply T_gets_bind.
    assert (K : cur_tok q <> TInputEnd -> T (let! closed := ret false in if closed : bool then ret (inr (st, errs)) else let! out := consume E in
       ret (inl (push_elements st (su_item out) (su_safe out), errs ++ su_errors out, false))) q
       (fun (r : pstack * list perr * bool + pstack * list perr) p' => match r with inl st' => go p (psl (fst (fst st'))) p' | inr a => psl (fst a) = ls p end) (fun _ _ => True)).
    { intro Hn. apply T_ret_bind. eapply T_bind_; [apply (CS_n _ q); [apply Hg|eapply go_safe; eauto]|auto|]. intros out p' [G1 _]. apply T_ret. cbn [fst]. rewrite push_elements_said. eapply go_trans; eauto. }
    destruct (cur_tok q) eqn:Et; try (apply K; discriminate).
    + apply T_step_bind; [|auto]. intros q' Hq'. apply T_ret. cbn [fst]. pose proof (step_go _ _ (go_pos _ _ _ Hg) Hq') as G1. rewrite silent in G1 by (try apply Hg; rewrite Et; auto).
      destruct (end_paragraph_said st) as [H1 H2]. unfold psl at 1. rewrite H1, H2, app_nil_r. eapply go_silent_r; eauto.
    + apply T_ret. cbn [fst]. destruct Hg as [g1 g2 g3 g4 g5]. rewrite g4. unfold ls. rewrite tl_cons, end_slice by (auto; apply pos_in; auto).
      assert (Hr : rem q = []).
      { destruct g1 as [pre Hpre]. destruct (extract_all_spec (en_text E)) as (mid & Hx & _ & _ & Hsh & _). rewrite Htoks in Hx. injection Hx as Hx. rewrite Hx in Hpre.
        destruct (rem q) as [|y ys] eqn:Er; auto. exfalso.
        assert (Hin : In (cur q) (XT TInputStart [] 0 0 :: mid)).
        { change (XT TInputStart [] 0 0 :: mid ++ [XT TInputEnd [] (blen (en_text E)) (blen (en_text E))])
            with ((XT TInputStart [] 0 0 :: mid) ++ [XT TInputEnd [] (blen (en_text E)) (blen (en_text E))]) in Hpre.
          destruct (exists_last (l := y :: ys)) as (ys' & z & Hz); [discriminate|]. rewrite Hz in Hpre. change (cur q :: ys' ++ [z]) with ((cur q :: ys') ++ [z]) in Hpre.
          rewrite app_assoc in Hpre. apply app_inj_tail in Hpre as [Hpre _]. rewrite Hpre. apply in_elt. }
        unfold cur_tok in Et. destruct Hin as [Hin|Hin]; [rewrite <- Hin in Et; discriminate|]. rewrite Forall_forall in Hsh. specialize (Hsh _ Hin). rewrite Et in Hsh.
        inversion Hsh as [? ? Hi| | | | | | | | | | | | | | |]. cbn in Hi. repeat (destruct Hi as [Hi|Hi]; [discriminate Hi|]). exact Hi. }
      rewrite Hr. cbn. rewrite app_nil_r. auto.
  - intros [st errs] q H. cbn [fst] in H. apply T_or_panic. intros [es sf] Hir. apply T_ret. cbn [su_item]. unfold into_result in Hir.
    destruct (all_paragraph_safe (into_elements st)); [|discriminate]. injection Hir as <- _. rewrite into_elements_said. exact H.
Qed.
Lemma toks_letters : tl toks = letters (en_text E).
Proof. unfold tl. destruct (toks_spans E toks Htoks) as [-> _]. auto. Qed.
Theorem parse_letters t : chainless \/ opc toks <= 99 -> parse E toks = Parsed t -> letters (flat_map said1 (tr_elements t)) = letters (en_text E).
Proof.
  intros Hs. unfold parse. destruct (parser_new toks) as [p|] eqn:Ep; [|discriminate]. unfold parser_new in Ep. destruct toks as [|t0 ts] eqn:Et; [discriminate|]. injection Ep as <-.
  set (p := PST t0 ts "page" 0 APNone false false true). rewrite <- Et in *.
  assert (Hp : pos p) by (exists []; rewrite Et; auto). assert (Hq : safe 99 p). { destruct Hs as [Hs|Hs]; [left; auto|right]. change (op p) with (opc (t0 :: ts)). rewrite <- Et. exact Hs. }
  pose proof (L_gather p Hp Hq shared_new) as H. destruct (gather_paragraphs _ _ _ p shared_new) as [out q s|e q s|w|]; try discriminate.
  - destruct (build_toc (sh_toc s)); [|discriminate]. intro X. injection X as <-. cbn [tr_elements]. rewrite flat_map_app, letters_app. change (letters (flat_map said1 (su_item out))) with (sl (su_item out)).
    rewrite H. unfold ls. change (cur p :: rem p) with (t0 :: ts). rewrite <- Et, toks_letters. destruct (has_footnote_block q); cbn; apply app_nil_r.
  - intro X. injection X as <-. cbn [tr_elements flat_map]. rewrite app_nil_r. reflexivity.
Qed.
End Letters.
