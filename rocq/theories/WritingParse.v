(** WritingParse.v -- what the parser makes of a page of SpecWriting.v. *)
From Verif Require Import Base BaseLemmas Strings Links Attr Lexer SpecLexer LexerLemmas Depth Tree Text Toc PState Blocks Rules Parse SpecParse SpecPage ParseInv SpecWriting ProseLemmas WritingLex.

Definition ct_of (m : mark) : container_type :=
  match m with
  | Bold => CBold | Italics => CItalics | Underline => CUnderline | Superscript => CSuperscript | Subscript => CSubscript
  | StrikeTilde | StrikeDash => CStrikethrough | Monospace => CMonospace
  end.
Inductive reads : list span -> elements -> Prop :=
| rd_nil : reads [] []
| rd_words s cs l es : concat cs = s -> reads l es -> reads (Words s :: l) (map EText cs ++ es)
| rd_newline l es : reads l es -> reads (Newline :: l) (ELineBreak :: es)
| rd_marked m inside es0 l es : reads inside es0 -> reads l es -> reads (Marked m inside :: l) (EContainer (ct_of m) [] es0 :: es).

(** A parser state: that of [p], at the tokens [T]. *)
Definition at_ (p : pstate) (sol : bool) (T : list xtoken) : pstate :=
  match T with
  | c :: r => PST c r (rule_ p) (depth p) (accepts_partial p) (in_footnote p) (has_footnote_block p) sol
  | [] => p
  end.
Lemma at_at p sol T sol' T' : T' <> [] -> at_ (at_ p sol T) sol' T' = at_ p sol' T'.
Proof. destruct T, T'; auto; congruence. Qed.
Lemma adv_at p sol c t r : adv (at_ p sol (c :: t :: r)) t r = at_ p (line_start_token (t_token c)) (t :: r). Proof. reflexivity. Qed.

(** Consecutive calls to consume that return no errors. *)
Section Steps.
Variables (E : env) (n : nat) (s : shared) (G : pstate -> Prop).
Inductive steps : pstate -> elements -> pstate -> Prop :=
| st_nil p : steps p [] p
| st_cons p es p1 es' p2 : G p -> consume_n E n p s = ROk (PSu es [] true) p1 s -> length (rem p1) < length (rem p) ->
    steps p1 es' p2 -> steps p (es ++ es') p2.
Lemma steps_app p es p1 es' p2 : steps p es p1 -> steps p1 es' p2 -> steps p (es ++ es') p2.
Proof. induction 1; intro; auto. rewrite <- app_assoc. econstructor; eauto. Qed.
Lemma steps_one p es p1 : G p -> consume_n E n p s = ROk (PSu es [] true) p1 s -> length (rem p1) < length (rem p) -> steps p es p1.
Proof. intros. rewrite <- (app_nil_r es). econstructor; eauto. constructor. Qed.
End Steps.

(** Where a mark's contents go on. *)
Definition open_tok (m : mark) : token := mark_token true m.
Definition close_tok (m : mark) : token := mark_token false m.
Inductive context : Type := OnPage | InLine | InMark (m : mark).
Definition goes_on (ctx : context) (p : pstate) : Prop :=
  cur_tok p <> TInputEnd /\ cur_tok p <> TParagraphBreak /\
  match ctx with
  | OnPage => True
  | InLine => cur_tok p <> TLineBreak
  | InMark m => cur_tok p <> close_tok m /\ ~ (cur_tok p = open_tok m /\ next_is 0 TWhitespace p = true) /\
      ~ (cur_tok p = TWhitespace /\ next_is 0 (close_tok m) p = true)
  end.
Definition close_of (m : mark) : list condition_ := [IsToken (close_tok m)].
Definition invalid_of (m : mark) : list condition_ := [tok_pb; IsPair (open_tok m) TWhitespace; IsPair TWhitespace (close_tok m)].
Lemma goes_on_close m p : goes_on (InMark m) p -> evaluate_any (close_of m) p = false.
Proof.
  intros (_ & _ & H & _). unfold evaluate_any, close_of. cbn [existsb evaluate]. rewrite orb_false_r. unfold is_tok.
  destruct (tok_eqb (cur_tok p) (close_tok m)) eqn:X; auto. apply tok_eqb_true in X. contradiction.
Qed.
Lemma goes_on_invalid m p : goes_on (InMark m) p -> evaluate_any (invalid_of m) p = false.
Proof.
  intros (_ & H & _ & H1 & H2). unfold evaluate_any, invalid_of, tok_pb. cbn [existsb evaluate]. rewrite orb_false_r. unfold is_tok.
  apply orb_false_intro; [|apply orb_false_intro].
  - destruct (tok_eqb (cur_tok p) TParagraphBreak) eqn:X; auto. apply tok_eqb_true in X. contradiction.
  - destruct (tok_eqb (cur_tok p) (open_tok m)) eqn:X; auto. apply tok_eqb_true in X. cbn [andb]. destruct (next_is 0 TWhitespace p) eqn:Y; auto. exfalso. auto.
  - destruct (tok_eqb (cur_tok p) TWhitespace) eqn:X; auto. apply tok_eqb_true in X. cbn [andb]. destruct (next_is 0 (close_tok m) p) eqn:Y; auto. exfalso. auto.
Qed.
Lemma collect_steps E n s m p es p' t r : steps E n s (goes_on (InMark m)) p es p' ->
  cur_tok p' = close_tok m -> rem p' = t :: r ->
  collect_consume_keep (consume_n E n) (close_of m) (invalid_of m) None p s = ROk (PSu (es, cur p') [] true) (adv p' t r) s.
Proof.
  intros H Hc Hr. unfold collect_consume_keep, collect, looping.
  assert (X : forall k acc, length (rem p) < k ->
    loop k (fun '(st, errs, safe) =>
      let! closing := gets (evaluate_any (close_of m)) in
      if closing then let! last := gets cur in (if tok_eqb (t_token last) TInputEnd then ret tt else step ;; ret tt) ;; ret (inr (PSu (st, last) errs safe))
      else let! bad := gets (evaluate_any (invalid_of m)) in
      if bad then fail RuleFailed
      else let! at_end := gets (is_tok TInputEnd) in
      if at_end then fail EndOfInput
      else let! old := gets rem in
           let! out := (let! out := consume_n E n in ret (PSu (st ++ su_item out) (su_errors out) (su_safe out))) in
           step_if_same old ;; ret (inl (su_item out, errs ++ su_errors out, safe && su_safe out))) (acc, [], true) p s =
    ROk (PSu (acc ++ es, cur p') [] true) (adv p' t r) s).
  { induction H as [p|p es p1 es' p2 Hg Hco Hlt H IH]; intros k acc Hk.
    - destruct k as [|k]; [lia|]. cbn [loop]. unfold bind at 1 2. unfold gets at 1. unfold evaluate_any at 1, close_of at 1. cbn [existsb evaluate]. unfold is_tok. rewrite Hc.
      rewrite (proj2 (tok_eqb_true (close_tok m) (close_tok m)) eq_refl). cbn [orb]. unfold bind, gets. unfold cur_tok in Hc. rewrite Hc.
      assert (X : tok_eqb (close_tok m) TInputEnd = false) by (destruct m; reflexivity). rewrite X. rewrite (run_step _ _ _ _ Hr). unfold ret. rewrite app_nil_r. reflexivity.
    - destruct k as [|k]; [lia|]. cbn [loop]. unfold bind at 1 2. unfold gets at 1. rewrite (goes_on_close m p Hg). unfold bind at 1. unfold gets at 1. rewrite (goes_on_invalid m p Hg).
      unfold bind at 1. unfold gets at 1. destruct Hg as (Hg & _). unfold is_tok at 1. destruct (tok_eqb (cur_tok p) TInputEnd) eqn:X; [apply tok_eqb_true in X; contradiction|].
      unfold bind at 1. unfold gets at 1. unfold bind at 1 2. rewrite Hco. unfold ret at 1. cbn [su_item su_errors su_safe].
      unfold step_if_same, bind, gets, same_pointer. destruct (length (rem p1) =? length (rem p)) eqn:Y; [apply Nat.eqb_eq in Y; lia|]. unfold ret. cbn [app andb].
      rewrite app_assoc. apply IH; auto. lia. }
  exact (X (S (length (rem p))) [] ltac:(lia)).
Qed.
Definition name_of (m : mark) : rule_name :=
  match m with
  | Bold => "bold" | Italics => "italics" | Underline => "underline" | Superscript => "superscript" | Subscript => "subscript"
  | StrikeTilde => "strikethrough-tilde" | StrikeDash => "strikethrough-dash" | Monospace => "monospace"
  end%string.
Definition rule_of (con : M (success elements)) (m : mark) : M (success elements) :=
  check_step (open_tok m) ;; collect_container con (ct_of m) (close_of m) (invalid_of m) None.
Lemma rules_mark E con m : exists rs, rules_for E con (open_tok m) = RULE (name_of m) AnyPosition (rule_of con m) :: rs.
Proof. destruct m; eexists; reflexivity. Qed.
Definition inner (m : mark) (p : pstate) : pstate := with_rule (name_of m) (pushed p).
Lemma mark_consume E n s m p0 sol tm u T es c t r sol' : let p := at_ p0 sol (tm :: u :: T) in
  t_token tm = open_tok m -> depth p0 < MAX_RECURSION_DEPTH ->
  steps E n s (goes_on (InMark m)) (at_ (inner m p0) false (u :: T)) es (at_ (inner m p0) sol' (c :: t :: r)) ->
  t_token c = close_tok m -> length (t :: r) < length (u :: T) ->
  consume_n E (S n) p s = ROk (PSu [EContainer (ct_of m) [] es] [] true) (at_ p0 false (t :: r)) s.
Proof.
  intros p Htm Hd Hst Hc Hlen. rewrite consume_S by exact Hd. unfold p at 1, cur_tok. cbn [at_ cur]. rewrite Htm.
  destruct (rules_mark E (consume_n E n) m) as [rs ->]. cbn [consume_rules]. unfold bind at 1. unfold gets at 1. unfold bind at 1. unfold attempt, try_consume. cbn [rd_position rd_fn rd_name].
  assert (X : check_step (open_tok m) (with_rule (name_of m) (with_depth (S (depth p)) p)) s = ROk tm (at_ (inner m p0) false (u :: T)) s).
  { unfold check_step, bind, gets, p. cbn [at_ with_depth with_rule cur rem]. rewrite Htm. rewrite (proj2 (tok_eqb_true (open_tok m) (open_tok m)) eq_refl).
    rewrite (run_step _ _ u T) by reflexivity. unfold ret. f_equal. unfold adv, inner, pushed, cur_tok. cbn. rewrite Htm. f_equal. destruct m; reflexivity. }
  unfold rule_of, bind at 1. rewrite X. unfold collect_container, collect_consume, bind at 1 2.
  rewrite (collect_steps E n s m _ es _ t r Hst Hc eq_refl). unfold ret at 1. cbn [su_item su_errors su_safe fst].
  unfold ok_flag, ret at 1. cbn [su_item check_partials andb]. unfold bind at 1. unfold step_if_same, bind at 1. unfold gets at 1.
  unfold update, same_pointer. cbn [rem adv at_ with_depth p]. destruct (length r =? length (u :: T)) eqn:Y; [apply Nat.eqb_eq in Y; cbn in Hlen; cbn in Y; lia|].
  unfold ret, depth_decrement, modify, bind. f_equal.
  - f_equal. destruct m; reflexivity.
  - unfold p, adv, inner, pushed, cur_tok. cbn. rewrite Hc, ?Nat.sub_0_r. f_equal. destruct m; reflexivity.
Qed.

(** Words. *)
Lemma concat_head_ne (ts : list xtoken) t : inside_words t -> t_slice t <> [].
Proof. intros (H & _). eapply shape_nonempty; eauto. Qed.
(** A token of one of these kinds starts with one of the characters that may not start a line. *)
Definition line_kind (k : token) : bool :=
  match k with TColon | TEquals | THeading | TBulletItem | TNumberedItem | TQuote => true | _ => false end.
Lemma line_kind_head k sl : shape k sl -> line_kind k = true -> exists c r, sl = c :: r /\ In c (lit "*#:=>+").
Proof.
  intros Hs Hk. destruct Hs as [k z Hz| | | | | | | | |n Hn|n Hn|n Hn| | | |]; try discriminate.
  - assert (X : forallb (fun kz => negb (line_kind (fst kz)) || cmem (hd 0%N (snd kz)) (lit "*#:=>+")) symbols = true) by (vm_compute; reflexivity).
    rewrite forallb_forall in X. specialize (X _ Hz). cbn [fst snd] in X. rewrite Hk in X. cbn [negb orb] in X. apply cmem_In in X.
    destruct z as [|c z]; [cbn in X; intuition discriminate|]. exists c, z. auto.
  - destruct n; [lia|]. eexists; eexists. split; [reflexivity|]. cbn. tauto.
  - destruct n; [lia|]. eexists; eexists. split; [reflexivity|]. cbn. tauto.
  - destruct n; [lia|]. eexists; eexists. split; [reflexivity|]. cbn. tauto.
Qed.
Lemma ws_blank sl : shape TWhitespace sl -> sl <> [] /\ Forall blank sl.
Proof.
  intro H. remember TWhitespace as k. destruct H as [k z Hz| | | | | | | | | | | | | |z Hz Hz'|]; try discriminate; auto.
  exfalso. subst k. cbn in Hz. repeat (destruct Hz as [Hz|Hz]; [discriminate|]). destruct Hz.
Qed.
Lemma underscore_slice sl : shape TUnderscore sl -> sl = [95%N].
Proof.
  intro H. remember TUnderscore as k. destruct H as [k z Hz| | | | | | | | | | | | | | |]; try discriminate; auto.
  subst k. cbn in Hz. repeat (destruct Hz as [Hz|Hz]; [try discriminate; injection Hz as <-; reflexivity|]). destruct Hz.
Qed.
Lemma starts_not t s' : inside_words t -> starts_line (t_slice t ++ s') -> line_kind (t_token t) = false.
Proof.
  intros (Hs & _) H. destruct (line_kind (t_token t)) eqn:E; auto. exfalso. destruct (line_kind_head _ _ Hs E) as (c & r & Er & Hc). rewrite Er in H.
  apply (H [] c (r ++ s')) in Hc; auto.
Qed.
Lemma starts_not2 t u s' : inside_words t -> inside_words u -> t_token t = TWhitespace -> starts_line (t_slice t ++ t_slice u ++ s') -> line_kind (t_token u) = false.
Proof.
  intros (Ht & _) (Hu & _) Ek H. rewrite Ek in Ht. apply ws_blank in Ht as [_ Ht]. destruct (line_kind (t_token u)) eqn:E; auto. exfalso.
  destruct (line_kind_head _ _ Hu E) as (c & r & Er & Hc). rewrite Er in H. apply (H (t_slice t) c (r ++ s')) in Hc; auto.
Qed.
Lemma kind_at_0 (t : xtoken) r : kind_at (t :: r) 0 = Some (t_token t). Proof. reflexivity. Qed.
(** What stands after the words. *)
Definition after_words (T : list xtoken) : Prop := match T with t :: _ => plain_kind (t_token t) = false | [] => False end.
Lemma words_steps E n p0 ctx s ts : forall sol T, 
  Forall inside_words ts -> after_words T -> depth p0 < MAX_RECURSION_DEPTH ->
  (sol = true -> starts_line (slices ts)) -> (breaks (kind_at T 0) = true -> ends_line (slices ts)) ->
  (forall m, ctx = InMark m -> kind_at T 0 = Some (close_tok m) -> forall z c, slices ts = z ++ [c] -> ~ blank c) ->
  steps E (S n) s (goes_on ctx) (at_ p0 sol (ts ++ T)) (map EText (map t_slice ts)) (at_ p0 (match ts with [] => sol | _ => false end) T).
Proof.
  induction ts as [|t ts IH]; intros sol T Hw Ha Hd Hsol Hend Hctx; [constructor|].
  inversion Hw as [|? ? Ht Hts]; subst. cbn [app map]. pose proof Ht as (Hsh & Hpk & Hq).
  assert (Hrest : exists u r, ts ++ T = u :: r). { destruct ts; [|cbn; eauto]. destruct T; [destruct Ha|cbn; eauto]. }
  destruct Hrest as (u & r & Eur). rewrite Eur.
  assert (Hlast : slices (t :: ts) = t_slice t ++ slices ts) by reflexivity.
  assert (Hsuf : forall z, slices ts = z -> ts <> [] -> z <> []).
  { intros z <- Hne. destruct ts as [|v ts]; [congruence|]. inversion Hts as [|? ? (Hv & _) _]; subst. apply shape_ne in Hv as (c & w & Ew). unfold slices. cbn [map concat]. rewrite Ew. discriminate. }
  change (EText (t_slice t) :: map EText (map t_slice ts)) with ([EText (t_slice t)] ++ map EText (map t_slice ts)).
  apply st_cons with (p1 := at_ p0 false (u :: r)).
  - (* goes on *)
    unfold goes_on, cur_tok. cbn [at_ cur]. repeat split.
    + intro X. rewrite X in Hpk. discriminate.
    + intro X. rewrite X in Hpk. discriminate.
    + destruct ctx as [| |m]; auto; [intro X; rewrite X in Hpk; discriminate|]. repeat split.
      * intro X. rewrite X in Hpk. destruct m; discriminate.
      * intros [X _]. rewrite X in Hpk. destruct m; discriminate.
      * intros [X Y]. unfold next_is, look_ahead in Y. cbn [at_ rem nth_error] in Y. apply tok_eqb_true in Y.
        destruct ts as [|v ts].
        -- cbn [app] in Eur. rewrite Eur in Hctx. assert (Hn := Hctx m eq_refl). rewrite kind_at_0, Y in Hn. specialize (Hn eq_refl).
           rewrite X in Hsh. apply ws_blank in Hsh as [Hne Hbl]. destruct (snoc_ex _ Hne) as (z & c & Ez). apply (Hn z c); [rewrite Hlast, Ez; unfold slices; cbn [map concat]; rewrite app_nil_r; auto|].
           rewrite Ez in Hbl. apply Forall_app in Hbl as [_ Hbl]. inversion Hbl; auto.
        -- injection Eur as <- <-. inversion Hts as [|? ? (_ & Hv & _) _]; subst. rewrite Y in Hv. destruct m; discriminate.
  - (* the token is plain *)
    assert (Hu : forall v r', u = v -> r' = r -> ts <> [] -> inside_words u).
    { intros v r' _ _ Hne. destruct ts as [|w ts]; [congruence|]. injection Eur as <- <-. inversion Hts; auto. }
    assert (Hpl : plain_at sol t (u :: r)).
    { unfold plain_at. assert (Hls : sol = true -> line_kind (t_token t) = false) by (intro X; eapply starts_not; eauto; rewrite <- Hlast; auto).
      assert (Hus : forall u0 r0, u :: r = u0 :: r0 -> t_token u0 = TUnderscore -> breaks (kind_at r0 0) = false).
      { intros u0 r0 X Y. injection X as -> ->. destruct (breaks (kind_at r0 0)) eqn:Z; auto. exfalso. destruct ts as [|w ts].
        - cbn [app] in Eur. subst T. cbn in Ha. rewrite Y in Ha. discriminate.
        - injection Eur as -> Er. destruct ts as [|w2 ts].
          + cbn [app] in Er. subst T. specialize (Hend Z). inversion Hts as [|? ? (Hw1 & _) _]; subst. rewrite Y in Hw1. apply underscore_slice in Hw1.
            apply (Hend (t_slice t)). rewrite Hlast. unfold slices. cbn. rewrite Hw1. auto.
          + subst r0. inversion Hts as [|? ? _ Hts2]; subst. inversion Hts2 as [|? ? (_ & Hw2 & _) _]; subst. cbn [app] in Z. rewrite kind_at_0 in Z. cbn in Z. destruct (t_token w2); discriminate. }
      destruct (t_token t) eqn:Ek; try rewrite Ek in Hpk, Hls; try discriminate Hpk; auto;
        try (destruct sol; auto; exfalso; specialize (Hls eq_refl); discriminate Hls).
      - destruct (breaks (kind_at (u :: r) 0)) eqn:Z; auto. exfalso. destruct ts as [|w ts].
        + cbn [app] in Eur. subst T. specialize (Hend Z). apply (Hend []). rewrite Hlast. unfold slices. cbn. rewrite app_nil_r. apply underscore_slice; auto.
        + injection Eur as -> Er. inversion Hts as [|? ? (_ & Hw2 & _) _]; subst. rewrite kind_at_0 in Z. cbn in Z. destruct (t_token u); discriminate.
      - split.
        + rewrite kind_at_0. intro X. injection X as X. unfold kind_at at 1. cbn [nth_error]. apply (Hus u r eq_refl X).
        + intro X. specialize (Hsol X). rewrite kind_at_0. destruct ts as [|w ts].
          * cbn [app] in Eur. subst T. cbn in Ha. split; intro Y; injection Y as Y; rewrite Y in Ha; discriminate.
          * injection Eur as -> Er. inversion Hts as [|? ? Hw1 _]; subst. assert (Z := starts_not2 t u (slices ts) Ht Hw1 Ek Hsol).
            split; intro Y; injection Y as Y; rewrite Y in Z; discriminate. }
    assert (Herr : plain_errors t = []) by (unfold plain_errors; destruct (t_token t); try discriminate Hpk; auto).
    rewrite (plain_consume E n (at_ p0 sol (t :: u :: r)) s u r Hd eq_refl Hpl). cbn [at_ cur]. rewrite Herr.
    assert (Hf : line_start_token (t_token t) = false) by (destruct (t_token t); try discriminate Hpk; auto). unfold adv. cbn [at_ cur cur_tok rule_ depth accepts_partial in_footnote has_footnote_block]. unfold cur_tok. cbn [cur]. rewrite Hf. reflexivity.
  - cbn. lia.
  - rewrite <- Eur. replace false with (match ts with [] => false | _ => false end) at 2 by (destruct ts; auto).
    apply IH; auto.
    + discriminate.
    + intros X z Hz. apply (Hend X (t_slice t ++ z)). rewrite Hlast, Hz, app_assoc. auto.
    + intros m Hm X z c Hz. apply (Hctx m Hm X (t_slice t ++ z) c). rewrite Hlast, Hz, app_assoc. auto.
Qed.
Definition sol_of (a : option item) : bool := match a with None | Some INewline | Some (IBreak _) => true | _ => false end.
Lemma lexed_words s ts : lexed (IWords s) ts -> slices ts = s /\ ts <> [] /\ Forall inside_words ts.
Proof.
  intro H. inversion H as [s0 ts0 H1 H2 H3| | | | | | |]; subst. split; [reflexivity|]. split; [|exact H3]. intros ->. apply H2. reflexivity.
Qed.
Lemma lexed_newline ts : lexed INewline ts -> exists t, ts = [t] /\ t_token t = TLineBreak. Proof. intro H; inversion H; eauto. Qed.
Lemma lexed_break k ts : lexed (IBreak k) ts -> exists t, ts = [t] /\ t_token t = (if k =? 1 then TLineBreak else TParagraphBreak). Proof. intro H; inversion H; eauto. Qed.
Lemma lexed_mark o m ts : lexed (IMark o m) ts -> exists t, ts = [t] /\ t_token t = mark_token o m. Proof. intro H; inversion H; eauto. Qed.
Lemma lexed_head n b ts : lexed (IHead n b) ts -> exists t w, ts = [t; w] /\ t_token t = THeading /\ t_slice t = repeat 43%N n ++ (if b then [] else [42%N]) /\ t_token w = TWhitespace.
Proof. intro H; inversion H; subst. exists t, w. auto. Qed.
Lemma lexed_rule k ts : lexed (IRule k) ts -> exists t, ts = [t] /\ t_token t = TTripleDash. Proof. intro H; inversion H; eauto. Qed.
Lemma lexed_bullet d (b : bool) ts : lexed (IBullet d b) ts -> exists v t w, ts = v ++ [t; w] /\ match d with 0 => v = [] | _ => exists x, v = [x] /\ t_token x = TWhitespace /\ t_slice x = repeat 32%N d end /\
  t_token t = (if b then TNumberedItem else TBulletItem) /\ t_token w = TWhitespace.
Proof. intro H; inversion H; subst. exists v, t, w. auto. Qed.
Lemma lexed_quote d ts : lexed (IQuote d) ts -> exists t w, ts = [t; w] /\ t_token t = TQuote /\ t_slice t = repeat 62%N d /\ t_token w = TWhitespace.
Proof. intro H; inversion H; subst. exists t, w. auto. Qed.
(** What can come after words. *)
Lemma after_kind s i ts : lexed i ts -> beside (Some (IWords s)) (Some i) -> exists t, ts = [t] /\
  match i with IMark o m => t_token t = mark_token o m | _ => t_token t = TLineBreak \/ t_token t = TParagraphBreak end /\
  match i with IMark _ _ => True | _ => ends_line s end /\ match i with INewline | IBreak _ | IMark _ _ => True | _ => False end.
Proof.
  intros Hi Hb. destruct i as [s'| |k|o m|n b|k|d b|d]; cbn [beside] in Hb; try contradiction.
  - apply lexed_newline in Hi as (t & -> & X). exists t. auto.
  - apply lexed_break in Hi as (t & -> & X). exists t. conj; auto. destruct (k =? 1); auto.
  - apply lexed_mark in Hi as (t & -> & X). exists t. auto.
Qed.
Lemma words_then I tss e s : Forall2 lexed I tss -> t_token e = TInputEnd -> all_beside (Some (IWords s)) I None -> after_words (concat tss ++ [e]).
Proof.
  intros H He Hb. destruct H as [|i ts I tss Hi H]; [cbn; rewrite He; auto|]. cbn [all_beside] in Hb. destruct Hb as [Hb _].
  destruct (after_kind _ _ _ Hi Hb) as (t & -> & X & _ & Hc). cbn. destruct i as [s'| |k|o m|n b|k|d b|d]; try contradiction; try (destruct X as [X|X]; rewrite X; auto).
  rewrite X. destruct o, m; reflexivity.
Qed.
Lemma words_break I tss e s : Forall2 lexed I tss -> t_token e = TInputEnd -> all_beside (Some (IWords s)) I None ->
  breaks (kind_at (concat tss ++ [e]) 0) = true -> ends_line s.
Proof.
  intros H He Hb. destruct H as [|i ts I tss Hi H]; [cbn; rewrite He; discriminate|]. cbn [all_beside] in Hb. destruct Hb as [Hb _].
  destruct (after_kind _ _ _ Hi Hb) as (t & -> & X & X2 & Hc). cbn. destruct i as [s'| |k|o m|n b|k|d b|d]; try contradiction; auto. rewrite X. destruct o, m; discriminate.
Qed.
Lemma words_close I tss e s m : Forall2 lexed I tss -> t_token e = TInputEnd -> all_beside (Some (IWords s)) I None ->
  kind_at (concat tss ++ [e]) 0 = Some (close_tok m) -> exists I', I = IMark false m :: I' \/ I = IMark true m :: I' /\ m <> Monospace.
Proof.
  intros H He Hb. destruct H as [|i ts I tss Hi H]; [cbn; rewrite He; destruct m; discriminate|]. cbn [all_beside] in Hb. destruct Hb as [Hb _].
  destruct (after_kind _ _ _ Hi Hb) as (t & -> & X & X2 & Hc). cbn. destruct i as [s'| |k|o m'|n b|k|d b|d]; try contradiction;
    try (destruct X as [X|X]; rewrite X; destruct m; discriminate).
  rewrite X. intro Y. injection Y as Y. exists I. destruct o, m', m; try discriminate; auto; right; split; auto; discriminate.
Qed.
Lemma words_starter ts s : ts <> [] -> Forall inside_words ts -> slices ts = s -> starts_line s ->
  match ts with
  | t :: r => line_kind (t_token t) = false /\ plain_kind (t_token t) = true /\
              (t_token t = TWhitespace -> match r with u :: _ => line_kind (t_token u) = false /\ plain_kind (t_token u) = true | [] => True end)
  | [] => True
  end.
Proof.
  intros Hne Hw <- Hs. destruct ts as [|t r]; auto. inversion Hw as [|? ? Ht Hr]; subst. split; [apply (starts_not t (slices r)); auto|]. split; [apply Ht|].
  intro Hk. destruct r as [|u r]; auto. inversion Hr as [|? ? Hu _]; subst. split; [|apply Hu]. apply (starts_not2 t u (slices r)); auto.
Qed.
Lemma starter_kinds k : starter k = true -> plain_kind k = true -> line_kind k = true. Proof. destruct k; auto; discriminate. Qed.
Lemma newline_then I tss e : Forall2 lexed I tss -> t_token e = TInputEnd -> all_beside (Some INewline) I None -> line_goes_on (concat tss ++ [e]).
Proof.
  intros H He Hb. destruct H as [|i ts I tss Hi H].
  - cbn. rewrite He. conj; auto; discriminate.
  - cbn [all_beside] in Hb. destruct Hb as [Hb Hb']. destruct i as [s| |k|o m|? ?|?|? ?|?]; try (cbn in Hb; contradiction).
    + cbn in Hb. apply lexed_words in Hi as (Hsl & Hne & Hw). pose proof (words_starter ts s Hne Hw Hsl Hb) as X.
      destruct ts as [|t r]; [congruence|]. destruct X as (X1 & X2 & X3). cbn [concat app]. unfold line_goes_on.
      split; [destruct (t_token t); auto; discriminate|]. split; [destruct (starter (t_token t)) eqn:Y; auto; apply starter_kinds in Y; congruence|].
      intro Ek. specialize (X3 Ek). destruct r as [|u r].
      * cbn [app]. pose proof (words_then I tss e s H He Hb') as Z. destruct (concat tss ++ [e]) as [|u r] eqn:Et; auto.
        destruct (starter (t_token u)) eqn:Y; auto. exfalso.
        destruct H as [|i2 ts2 I tss Hi2 H]; [cbn in Et; injection Et as <- _; rewrite He in Y; discriminate|]. destruct Hb' as [Hb' _].
        destruct (after_kind _ _ _ Hi2 Hb') as (u' & -> & W & _ & Hc). cbn in Et. injection Et as <- _. destruct i2; try contradiction; try (destruct W as [W|W]; rewrite W in Y; discriminate).
        rewrite W in Y. destruct opens, m; discriminate.
      * cbn [app]. destruct X3 as [X3 X4]. destruct (starter (t_token u)) eqn:Y; auto. apply starter_kinds in Y; congruence.
    + apply lexed_mark in Hi as (t & -> & W). cbn. rewrite W. destruct o, m; cbn; conj; auto; discriminate.
Qed.

(** Conditions on the pieces directly inside a mark. *)
Definition fits (ctx : context) (l : list span) : Prop :=
  match ctx with
  | OnPage => True
  | InLine => ~ In Newline l
  | InMark m => (forall l', ~ In (Marked m l') l) /\ (forall before s c, l = before ++ [Words (s ++ [c])] -> ~ blank c)
  end.
Lemma fits_tail ctx x l : fits ctx (x :: l) -> fits ctx l.
Proof.
  destruct ctx as [| |m]; [auto|intros H X; apply H; right; auto|]. intros [H1 H2]. split; [intros l' X; apply (H1 l'); right; auto|]. intros b s c ->. apply (H2 (x :: b) s c). auto.
Qed.
Fixpoint all_nests (l : list span) : Prop := match l with [] => True | y :: l' => nests y /\ all_nests l' end.
Fixpoint heights (l : list span) : nat := match l with [] => 0 | y :: l' => Nat.max (height y) (heights l') end.
Lemma nests_marked m l : nests (Marked m l) <-> l <> [] /\ fits (InMark m) l /\ all_nests l.
Proof.
  cbn [nests fits]. split.
  - intros (H1 & H2 & H3 & H4). conj; auto.
  - intros (H1 & (H2 & H3) & H4). conj; auto.
Qed.
Lemma height_marked m l : height (Marked m l) = S (heights l). Proof. reflexivity. Qed.
Lemma all_beside_app a l r z : all_beside a (l ++ r) z -> l <> [] -> all_beside (Some (last l INewline)) r z.
Proof.
  revert a. induction l as [|x l IH]; intros a H Hne; [congruence|]. cbn [app all_beside] in H. destruct H as [_ H].
  destruct l as [|y l]; [exact H|]. apply (IH (Some x) H). discriminate.
Qed.
Definition last_item (a : option item) (l : list item) : option item := match l with [] => a | _ => Some (last l INewline) end.
Lemma all_beside_last a l r z : all_beside a (l ++ r) z -> all_beside (last_item a l) r z.
Proof. destruct l as [|x l]; [auto|]. intro H. apply (all_beside_app a (x :: l) r z H). discriminate. Qed.
Lemma last_item_app a l r : last_item (last_item a l) r = last_item a (l ++ r).
Proof.
  destruct r as [|y r]; [rewrite app_nil_r; auto|]. destruct l as [|x l]; [reflexivity|]. unfold last_item at 1. unfold last_item. cbn [app].
  f_equal. clear. revert x. induction l as [|z l IH]; intro x; [reflexivity|]. change (last ((x :: z :: l) ++ y :: r) INewline) with (last ((z :: l) ++ y :: r) INewline). apply IH.
Qed.
Lemma Forall2_app_split {A B} (R : A -> B -> Prop) l1 l2 m : Forall2 R (l1 ++ l2) m -> exists m1 m2, m = m1 ++ m2 /\ Forall2 R l1 m1 /\ Forall2 R l2 m2.
Proof. intro H. apply Forall2_app_inv_l in H as (m1 & m2 & H1 & H2 & ->). eauto. Qed.
Lemma tail_ne (tss : list (list xtoken)) e : concat tss ++ [e] <> []. Proof. destruct (concat tss); discriminate. Qed.
Lemma head_ex (tss : list (list xtoken)) e : exists u r, concat tss ++ [e] = u :: r. Proof. destruct (concat tss); cbn; eauto. Qed.
Lemma lexed_len i ts : lexed i ts -> 1 <= length ts.
Proof. destruct 1; rewrite ?app_length; cbn; try lia. destruct ts; [cbn in H; congruence|cbn; lia]. Qed.

Lemma spans_steps E s k : forall l, length (flat_map items l) <= k -> forall ctx n p a after tss1 tss2 e,
  Forall2 lexed (flat_map items l) tss1 -> Forall2 lexed after tss2 -> t_token e = TInputEnd ->
  all_beside a (flat_map items l ++ after) None -> all_nests l -> heights l < n -> depth p + n <= MAX_RECURSION_DEPTH ->
  fits ctx l ->
  exists es, reads l es /\
    steps E n s (goes_on ctx) (at_ p (sol_of a) (concat tss1 ++ concat tss2 ++ [e])) es
      (at_ p (sol_of (last_item a (flat_map items l))) (concat tss2 ++ [e])).
Proof.
  induction k as [|k IHk].
  { intros l Hl. destruct l as [|x l]; [|destruct x; cbn in Hl; lia]. intros. cbn in H. inversion H; subst. exists []. split; [constructor|]. cbn. constructor. }
  induction l as [|x l IH]; intros Hlen ctx n p a after tss1 tss2 e Hl1 Hl2 He Hb Hn Hh Hd Hf.
  - cbn in Hl1. inversion Hl1; subst. exists []. split; [constructor|]. cbn. constructor.
  - destruct n as [|n]; [lia|]. cbn [flat_map] in Hl1, Hb, Hlen. apply Forall2_app_split in Hl1 as (tx & tl & -> & Hx & Hl). rewrite concat_app, <- app_assoc.
    destruct Hn as [Hnx Hnl]. cbn [heights] in Hh. rewrite app_length in Hlen. rewrite <- app_assoc in Hb.
    assert (Hll : length (flat_map items l) <= S k) by lia.
    assert (HI : Forall2 lexed (flat_map items l ++ after) (tl ++ tss2)) by (apply Forall2_app; auto).
    assert (HT : concat tl ++ concat tss2 ++ [e] = concat (tl ++ tss2) ++ [e]) by (rewrite concat_app, app_assoc; auto).
    specialize (IH Hll ctx (S n) p (last_item a (items x)) after tl tss2 e Hl Hl2 He (all_beside_last _ _ _ _ Hb) Hnl ltac:(lia) Hd (fits_tail _ _ _ Hf)) as (es & Hes & Hst).
    rewrite last_item_app in Hst. change (items x ++ flat_map items l) with (flat_map items (x :: l)) in Hst.
    destruct x as [w| |m inside].
    + cbn [items] in Hx. inversion Hx as [|? ts ? ? Hx1 Hx2]; subst. inversion Hx2; subst. cbn [concat]. rewrite app_nil_r.
      apply lexed_words in Hx1 as (Hsl & Hne & Hw). exists (map EText (map t_slice ts) ++ es). split; [constructor; auto|].
      pose proof (all_beside_last _ _ _ _ Hb) as Hb'. cbn [items last_item last] in Hb', Hst.
      eapply steps_app; [|exact Hst]. rewrite HT.
      replace (sol_of (Some (IWords w))) with (match ts with [] => sol_of a | _ => false end) by (destruct ts; [congruence|auto]).
      apply words_steps; auto.
      * eapply words_then; eauto.
      * lia.
      * intro Hs. rewrite Hsl. cbn [items app all_beside] in Hb. destruct Hb as [Hb _]. destruct a as [[| | | | | | |]|]; try discriminate Hs; exact Hb.
      * rewrite Hsl. eapply words_break; eauto.
      * intros m -> Hk. rewrite Hsl. intros z c ->. destruct (words_close _ _ _ _ m HI He Hb' Hk) as (I' & HX).
        destruct Hf as [Hf1 Hf2]. destruct l as [|y l].
        -- apply (Hf2 [] z c). reflexivity.
        -- exfalso. cbn [flat_map] in HX. destruct y as [w2| |m2 i2]; cbn [items app] in HX; destruct HX as [HX|[HX _]]; try discriminate HX.
           injection HX as HX _. subst m2. apply (Hf1 i2). right. left. auto.
    + cbn [items] in Hx. inversion Hx as [|? ts ? ? Hx1 Hx2]; subst. inversion Hx2; subst. apply lexed_newline in Hx1 as (t & -> & Ht1). cbn [concat app].
      exists ([ELineBreak] ++ es). split; [constructor; auto|]. pose proof (all_beside_last _ _ _ _ Hb) as Hb'. cbn [items last_item last] in Hb', Hst.
      eapply steps_app; [|exact Hst]. pose proof (newline_then _ _ _ HI He Hb') as Hg. rewrite HT. destruct (head_ex (tl ++ tss2) e) as (u & r & Eu). rewrite Eu in Hg |- *.
      apply steps_one.
      * unfold goes_on, cur_tok. cbn [at_ cur]. rewrite Ht1. split; [discriminate|]. split; [discriminate|]. destruct ctx as [| |m]; auto; [exfalso; apply Hf; left; auto|]. split; [destruct m; discriminate|]. split; intros [X _]; [destruct m; discriminate|discriminate].
      * assert (Hdp : depth (at_ p (sol_of a) (t :: u :: r)) < MAX_RECURSION_DEPTH) by (cbn; lia).
        rewrite (break_consume E n (at_ p (sol_of a) (t :: u :: r)) s u r Hdp eq_refl Ht1 Hg). rewrite adv_at, Ht1. reflexivity.
      * cbn. lia.
    + rewrite height_marked in Hh. apply nests_marked in Hnx as (Hne & Hfi & Hni).
      cbn [items] in Hx. inversion Hx as [|? ts ? tx' Hx1 Hx2]; subst. apply Forall2_app_split in Hx2 as (ti & tc & -> & Hx2 & Hx3).
      inversion Hx3 as [|? ts' ? ? Hx4 Hx5]; subst. inversion Hx5; subst. apply lexed_mark in Hx1 as (tm & -> & Htm). apply lexed_mark in Hx4 as (c & -> & Hcm).
      assert (Hlen2 : length (flat_map items inside) <= k). { cbn [items length] in Hlen. rewrite app_length in Hlen. cbn in Hlen. lia. }
      assert (Haft : Forall2 lexed (IMark false m :: flat_map items l ++ after) ([c] :: tl ++ tss2)) by (constructor; [apply lx_mark; exact Hcm|auto]).
      assert (Hbi : all_beside (Some (IMark true m)) (flat_map items inside ++ IMark false m :: flat_map items l ++ after) None).
      { cbn [items app all_beside] in Hb. destruct Hb as [_ Hb]. rewrite <- app_assoc in Hb. exact Hb. }
      assert (Hdi : depth (inner m p) + n <= MAX_RECURSION_DEPTH) by (cbn; lia).
      destruct (IHk inside Hlen2 (InMark m) n (inner m p) (Some (IMark true m)) _ ti _ e Hx2 Haft He Hbi Hni ltac:(lia) Hdi Hfi) as (esi & Hei & Hsti).
      exists ([EContainer (ct_of m) [] esi] ++ es). split; [constructor; auto|].
      cbn [concat app]. rewrite concat_app. cbn [concat app]. rewrite <- !app_assoc. cbn [app]. rewrite HT.
      replace (concat ([c] :: tl ++ tss2) ++ [e]) with (c :: concat (tl ++ tss2) ++ [e]) in Hsti by reflexivity.
      rewrite HT in Hst. cbn [last_item items] in Hst.
      assert (Hlst : sol_of (last_item a (items (Marked m inside))) = false). { cbn [items last_item]. rewrite app_comm_cons, last_last. reflexivity. }
      change (at_ p (sol_of (Some (last (IMark true m :: flat_map items inside ++ [IMark false m]) INewline)))) with (at_ p (sol_of (last_item a (items (Marked m inside))))) in Hst.
      rewrite Hlst in Hst.
      destruct (head_ex (tl ++ tss2) e) as (t & r & Et). rewrite Et in Hsti, Hst |- *.
      assert (Hti : exists u T, concat ti ++ c :: t :: r = u :: T) by (destruct (concat ti); cbn; eauto). destruct Hti as (u & T & Eu). rewrite Eu in Hsti |- *.
      assert (Hshort : length (t :: r) < length (u :: T)) by (rewrite <- Eu, app_length; cbn; lia).
      refine (steps_app E (S n) s (goes_on ctx) _ [EContainer (ct_of m) [] esi] _ _ _ _ Hst). apply steps_one.
      * unfold goes_on, cur_tok. cbn [at_ cur]. rewrite Htm. split; [destruct m; discriminate|]. split; [destruct m; discriminate|]. destruct ctx as [| |m']; [auto|destruct m; discriminate|].
        destruct Hf as [Hf1 _]. assert (Hmm : m <> m') by (intros ->; apply (Hf1 inside); left; auto).
        split; [destruct m, m'; try discriminate; congruence|]. split; intros [X _]; destruct m, m'; try discriminate X; congruence.
      * eapply mark_consume; eauto. lia.
      * cbn in Hshort |- *. lia.
Qed.

(** The whole page. *)
Section Gather.
Variables (E : env) (n : nat) (s : shared).
Definition gather_body : pstack * list perr * bool -> M ((pstack * list perr * bool) + (pstack * list perr)) :=
  fun '(stack, errs, first) =>
    let! t := gets cur_tok in
    match t with
    | TInputEnd => ret (inr (stack, errs))
    | TParagraphBreak => step ;; ret (inl (end_paragraph stack, errs, first))
    | _ =>
        let! closed := ret false in
        if (closed : bool) then ret (inr (stack, errs))
        else let! out := consume_n E n in
             ret (inl (push_elements stack (su_item out) (su_safe out), errs ++ su_errors out, false))
    end.
Lemma push_elements_app st a b f : push_elements st (a ++ b) f = push_elements (push_elements st a f) b f.
Proof. revert st. induction a as [|x a IH]; intro st; auto. cbn [app push_elements]. destruct (match ps_current st with [] => is_line_break x | _ => false end); apply IH. Qed.
Lemma gather_go p es p' : steps E n s (goes_on OnPage) p es p' -> forall k st first, length (rem p) < k ->
  exists k' first', length (rem p') < k' /\ loop k gather_body (st, [], first) p s = loop k' gather_body (push_elements st es true, [], first') p' s.
Proof.
  induction 1 as [p|p es p1 es' p2 Hg Hco Hlt H IH]; intros k st first Hk; [exists k, first; auto|].
  destruct k as [|k]; [lia|]. destruct (IH k (push_elements st es true) false ltac:(lia)) as (k' & f' & Hk' & Hl). exists k', f'. split; auto.
  rewrite push_elements_app, <- Hl. destruct Hg as (Hg1 & Hg2 & _). cbn [loop]. unfold bind at 1. unfold gather_body at 1, bind at 1. unfold gets at 1.
  destruct (cur_tok p); try congruence; unfold bind, ret; rewrite Hco; reflexivity.
Qed.
End Gather.
Definition line_break_first (es : elements) : bool := match es with ELineBreak :: _ => true | [] => true | _ => false end.
Lemma push_new f es : line_break_first es = false -> push_elements (PS [] f) es true = PS es f.
Proof.
  destruct es as [|x es]; [discriminate|]. intro H. cbn [push_elements ps_current]. assert (X : is_line_break x = false) by (destruct x; auto; discriminate). rewrite X.
  unfold push_element. cbn [ps_current ps_finished app].
  assert (Y : forall es acc, acc <> [] -> push_elements (PS acc f) es true = PS (acc ++ es) f).
  { clear. induction es as [|y es IH]; intros acc Hne; [rewrite app_nil_r; auto|]. cbn [push_elements ps_current]. destruct acc as [|z acc]; [congruence|].
    unfold push_element. cbn [ps_current ps_finished]. rewrite IH by discriminate. f_equal. rewrite <- app_assoc. auto. }
  rewrite Y by discriminate. reflexivity.
Qed.
Lemma reads_first p es : (exists x l, p = x :: l /\ x <> Newline /\ nests x) -> reads p es -> line_break_first es = false.
Proof.
  intros (x & l & -> & Hx & Hn) H. inversion H as [|s cs l0 es0 Hc Hr|l0 es0 Hr|m i es1 l0 es0 Hi Hr]; subst; [|congruence|reflexivity].
  destruct Hn as (Hn & _). destruct cs as [|c cs]; [cbn in Hn; congruence|reflexivity].
Qed.
Lemma all_nests_in p : (forall x, In x p -> nests x /\ height x < 100) -> all_nests p /\ heights p < 100.
Proof.
  induction p as [|x p IH]; intro H; [cbn; split; auto; lia|]. destruct (H x (or_introl eq_refl)) as [H1 H2]. destruct IH as [H3 H4]; [intros y Hy; apply H; right; auto|].
  cbn [all_nests heights]. split; auto. lia.
Qed.
Lemma good_first p : good_paragraph p -> exists x l, p = x :: l /\ x <> Newline /\ nests x.
Proof. intros [(x & l & -> & Hx) H]. exists x, l. conj; auto. apply H. left. auto. Qed.
Lemma items_ne x : items x <> []. Proof. destruct x; discriminate. Qed.
Lemma page_items_ne p : good_paragraph p -> flat_map items p <> [].
Proof. intros [(x & l & -> & _) _]. cbn [flat_map]. destruct (items x) eqn:X; [destruct (items_ne x X)|discriminate]. Qed.
Lemma flush st es : ps_finished (end_paragraph (PS es st)) = (if line_break_first es then ps_finished (end_paragraph (PS es st)) else st ++ [paragraph es]).
Proof. destruct es as [|x es]; [reflexivity|]. destruct (line_break_first (x :: es)); reflexivity. Qed.
