(** LexerLemmas.v -- facts about Lexer.v. *)
From Verif Require Import Base BaseLemmas Peg PegLemmas Lexer SpecLexer.

Lemma contiguous_app a ts b us c : contiguous a ts b -> contiguous b us c -> contiguous a (ts ++ us) c.
Proof. induction 1; simpl; intros; auto. constructor; auto. Qed.
Lemma convert_pairs_app ps qs : convert_pairs (ps ++ qs) =
  match convert_pairs ps, convert_pairs qs with Some a, Some b => Some (a ++ b) | _, _ => None end.
Proof.
  induction ps as [|p ps IH]; simpl; [destruct (convert_pairs qs); reflexivity|].
  rewrite IH. destruct (convert_pair p); [|reflexivity].
  destruct (convert_pairs ps), (convert_pairs qs); reflexivity.
Qed.

(** *** Single characters *)
Lemma run_str1 c pos s : run (R:=rule) (PStr [c]) pos s =
  match s with x :: r => if ceqb c x then Some ([], [c], r) else None | [] => None end.
Proof. destruct s as [|x s]; [reflexivity|]. simpl. destruct (ceqb c x); reflexivity. Qed.

Lemma run_TK r s pos t ps m rest : run (TK r s) pos t = Some (ps, m, rest) ->
  ps = [Pair r pos (lit s) []] /\ m = lit s /\ t = lit s ++ rest.
Proof.
  unfold TK. cbn [run]. destruct (strip_prefix (lit s) t) eqn:E; [|discriminate].
  intros H. injection H as <- <- <-. apply strip_prefix_inv in E. auto.
Qed.
Lemma run_TK_some r s pos rest : run (TK r s) pos (lit s ++ rest) = Some ([Pair r pos (lit s) []], lit s, rest).
Proof. unfold TK. cbn [run]. rewrite strip_prefix_app. reflexivity. Qed.

(** Repetition of one character. *)
Fixpoint count (c : char) (s : str) : nat := match s with x :: r => if ceqb c x then S (count c r) else 0 | [] => 0 end.
Lemma take_while_count c s : take_while (ceqb c) s = repeat c (count c s).
Proof.
  induction s as [|x s IH]; [reflexivity|]. simpl. destruct (ceqb c x) eqn:E; [|reflexivity].
  apply ceqb_eq in E. subst. simpl. f_equal; auto.
Qed.
Lemma run_star_char c pos s : run (R:=rule) (PStar (PStr [c])) pos s = Some ([], repeat c (count c s), drop_while (ceqb c) s).
Proof.
  rewrite <- take_while_count. apply run_star_set.
  intros p t. rewrite run_str1. destruct t as [|x t]; [reflexivity|].
  destruct (ceqb c x) eqn:E; [|reflexivity]. apply ceqb_eq in E. subst; reflexivity.
Qed.
Lemma repeat_app_S {A} (c : A) n k : repeat c n ++ repeat c k = repeat c (n + k).
Proof. symmetry. apply repeat_app. Qed.
Lemma drop_while_not_head c s u : drop_while (ceqb c) s <> c :: u.
Proof. intros H. apply drop_while_head in H. apply ceqb_neq in H. congruence. Qed.

Ltac inv_run :=
  match goal with
  | H : run (PSeq _ _) _ _ = Some (_, _, _) |- _ =>
      apply run_seq_inv in H; destruct H as (? & ? & ? & ? & ? & ? & ? & ? & ?); subst
  | H : run (PStr _) _ _ = Some (_, _, _) |- _ => apply run_str_inv in H; destruct H as (? & ? & ?); subst
  | H : run ANY _ _ = Some (_, _, _) |- _ => unfold ANY in H
  | H : run (PSet _) _ _ = Some (_, _, _) |- _ => apply run_set_inv in H; destruct H as (? & ? & ? & ? & ?); subst
  | H : run (PStar (PStr [_])) _ _ = Some (_, _, _) |- _ => rewrite run_star_char in H; injection H as <- <- <-
  | H : run (PAtom _ _) _ _ = Some (_, _, _) |- _ => apply run_atom_inv in H; destruct H as ((? & ?) & ?); subst
  | H : run (PNot _) _ _ = Some (_, _, _) |- _ => apply run_not_inv in H; destruct H as [? H]; injection H as ? ? ?; subst
  end.

Lemma run_PMin_char k c pos s ps m r : 1 <= k -> run (R:=rule) (PMin k (PStr [c])) pos s = Some (ps, m, r) ->
  exists n, k <= n /\ m = repeat c n /\ (forall u, r <> c :: u).
Proof.
  intros Hk H. unfold PMin in H. inv_run.
  rewrite run_star_char in H0. injection H0 as <- <- <-.
  assert (Ht : forall k pos s ps m r, 1 <= k -> run (R:=rule) (PTimes k (PStr [c])) pos s = Some (ps, m, r) -> m = repeat c k).
  { clear. induction k as [|k IH]; intros pos s ps m r Hk H; [lia|]. destruct k as [|k].
    - cbn [PTimes] in H. inv_run. reflexivity.
    - change (PTimes (S (S k)) (PStr [c])) with (PSeq (R:=rule) (PStr [c]) (PTimes (S k) (PStr [c]))) in H.
      inv_run. inv_run. simpl. f_equal. eapply IH; [lia|eassumption]. }
  apply Ht in H; auto. subst x0. eexists. split; [|split]; [|apply repeat_app_S|apply drop_while_not_head]. lia.
Qed.

(** *** One step of the lexer *)
Definition head_not (f : char -> bool) (s : str) : Prop := match s with [] => True | c :: _ => f c = false end.
Definition is_nl (c : char) : bool := ceqb c 10 || ceqb c 13.
Definition is_sp (c : char) : bool := ceqb 32 c || ceqb 9 c.
Definition follow_ok (t : token) (r : str) : Prop :=
  match t with
  | TIdentifier => head_not is_alnum r
  | TWhitespace => head_not is_sp r
  | TLineBreak | TParagraphBreak => head_not is_nl r
  | TQuote => head_not (ceqb 62) r
  | TTripleDash => head_not (ceqb 45) r
  | _ => True
  end.
Definition step_ok (pos : nat) (ts : list xtoken) (m r : str) : Prop :=
  contiguous pos ts (pos + blen m) /\ concat (map t_slice ts) = m /\
  Forall (fun t => shape (t_token t) (t_slice t)) ts /\
  (exists t0, ts = [t0] /\ follow_ok (t_token t0) r \/
   exists t1, ts = [t0; t1] /\ ((t_token t0 = TLeftBracket /\ t_token t1 = TLeftLink) \/
                                (t_token t0 = TRightLink /\ t_token t1 = TRightBracket))).

Lemma step_one q t pos m r : get_from_rule q = Some t -> shape t m -> m <> [] -> follow_ok t r ->
  exists ts, convert_pairs [Pair q pos m []] = Some ts /\ step_ok pos ts m r.
Proof.
  intros Hq Hs Hm Hf. unfold convert_pairs, convert_pair. simpl. rewrite Hq.
  eexists. split; [reflexivity|]. split; [|split; [|split]].
  - apply ct_cons; auto. apply ct_nil.
  - simpl. apply app_nil_r.
  - constructor; [exact Hs|constructor].
  - eexists. left. split; [reflexivity|]. exact Hf.
Qed.
Lemma step_symbol q t s pos r : get_from_rule q = Some t -> In (t, lit s) symbols -> lit s <> [] -> follow_ok t r ->
  exists ts, convert_pairs [Pair q pos (lit s) []] = Some ts /\ step_ok pos ts (lit s) r.
Proof. intros. eapply step_one; eauto. apply sh_symbol; auto. Qed.

Lemma step_two q1 t1 s1 q2 t2 s2 pos r : get_from_rule q1 = Some t1 -> get_from_rule q2 = Some t2 ->
  In (t1, lit s1) symbols -> In (t2, lit s2) symbols -> lit s1 <> [] -> lit s2 <> [] ->
  ((t1 = TLeftBracket /\ t2 = TLeftLink) \/ (t1 = TRightLink /\ t2 = TRightBracket)) ->
  exists ts, convert_pairs [Pair q1 pos (lit s1) []; Pair q2 (pos + blen (lit s1)) (lit s2) []] = Some ts /\
             step_ok pos ts (lit s1 ++ lit s2) r.
Proof.
  intros H1 H2 I1 I2 N1 N2 Hor. unfold convert_pairs, convert_pair. simpl. rewrite H1, H2.
  eexists. split; [reflexivity|]. split; [|split; [|split]].
  - apply ct_cons; auto. apply ct_cons; auto. rewrite blen_app, Nat.add_assoc. apply ct_nil.
  - simpl. rewrite app_nil_r. reflexivity.
  - constructor; [apply sh_symbol; auto|]. constructor; [apply sh_symbol; auto|constructor].
  - eexists. right. eexists. split; [reflexivity|]. exact Hor.
Qed.

Lemma head_not_take f s : head_not f (drop_while f s).
Proof. destruct (drop_while f s) eqn:E; simpl; auto. eapply drop_while_head; eauto. Qed.
Lemma take_while_Forall f s : Forall (fun c => f c = true) (take_while f s).
Proof. apply Forall_forall. intros x Hx. pose proof (take_while_all f s) as H. rewrite forallb_forall in H. auto. Qed.

Lemma run_ident_body pos s : run (R:=rule) (PPlus (PAlt ASCII_ALPHANUMERIC ASCII_DIGIT)) pos s =
  match s with c :: r => if is_alnum c then Some ([], c :: take_while is_alnum r, drop_while is_alnum r) else None | [] => None end.
Proof.
  apply run_PPlus_set. intros p t. destruct t as [|c t]; [reflexivity|].
  unfold ASCII_ALPHANUMERIC, ASCII_DIGIT. cbn [run].
  destruct (is_alnum c) eqn:E; [reflexivity|].
  unfold is_alnum in E. apply orb_false_elim in E. destruct E as [_ ->]. reflexivity.
Qed.
Lemma run_space_body pos s : run (R:=rule) (PPlus (PAlt (PStr [32%N]) (PStr [9%N]))) pos s =
  match s with c :: r => if is_sp c then Some ([], c :: take_while is_sp r, drop_while is_sp r) else None | [] => None end.
Proof.
  apply run_PPlus_set. intros p t. destruct t as [|c t]; [reflexivity|]. unfold is_sp. cbn [run strip_prefix].
  destruct (ceqb 32 c) eqn:E; [apply ceqb_eq in E; subst; reflexivity|].
  simpl. destruct (ceqb 9 c) eqn:E'; [apply ceqb_eq in E'; subst; reflexivity|]. reflexivity.
Qed.
Lemma run_NEWLINE pos s : run (R:=rule) NEWLINE pos s =
  match s with
  | [] => None
  | c :: r => if ceqb 10 c then Some ([], [10%N], r)
              else if ceqb 13 c then
                match r with
                | [] => Some ([], [13%N], [])
                | d :: r' => if ceqb 10 d then Some ([], [13%N; 10%N], r') else Some ([], [13%N], r)
                end
              else None
  end.
Proof.
  unfold NEWLINE. cbn [PAlts]. cbn [run strip_prefix]. destruct s as [|c s]; [reflexivity|].
  destruct (ceqb 10 c); [reflexivity|]. destruct (ceqb 13 c); [|reflexivity].
  destruct s as [|d s]; [reflexivity|]. destruct (ceqb 10 d); reflexivity.
Qed.
Lemma newline_none pos c r : run (R:=rule) NEWLINE pos (c :: r) = None <-> is_nl c = false.
Proof.
  rewrite run_NEWLINE. unfold is_nl, ceqb. rewrite (N.eqb_sym 10), (N.eqb_sym 13).
  destruct (N.eqb c 10); cbn [orb]; [split; intros; congruence|]. destruct (N.eqb c 13); [|split; auto].
  split; [|congruence]. destruct r as [|d r]; [congruence|]. destruct (N.eqb 10 d); congruence.
Qed.
(** A set of characters read one at a time after a failed lookahead. *)
Lemma run_atom_eq {R} q (a : peg R) pos s : run (PAtom q a) pos s =
  match run a pos s with Some (_, m, rest) => Some ([Pair q pos m []], m, rest) | None => None end.
Proof. reflexivity. Qed.
Lemma run_ident_none pos c r : run g_identifier pos (c :: r) = None -> is_alnum c = false.
Proof.
  unfold g_identifier. rewrite run_atom_eq, run_ident_body. destruct (is_alnum c); congruence.
Qed.
Lemma run_TK_none r s pos t : run (TK r s) pos t = None -> forall u, t <> lit s ++ u.
Proof. intros H u ->. rewrite run_TK_some in H. discriminate. Qed.

(** A repetition of "not one of these, then any character". *)
Lemma run_not_any (a : peg rule) (f : char -> bool) :
  (forall pos c r, run a pos (c :: r) = None <-> f c = true) ->
  forall pos s, run (PSeq (PNot a) ANY) pos s =
    match s with c :: r => if f c then Some ([], [c], r) else None | [] => None end.
Proof.
  intros Ha pos s. unfold ANY. cbn [run]. destruct s as [|c s].
  - destruct (run a pos []); reflexivity.
  - pose proof (Ha pos c s) as H. destruct (run a pos (c :: s)) eqn:E.
    + destruct (f c); [|reflexivity]. destruct H as [_ H]. specialize (H eq_refl). discriminate.
    + destruct H as [H _]. rewrite H by reflexivity. reflexivity.
Qed.
Definition url_char (c : char) : bool := negb (is_nl c) && negb (ceqb 32 c) && negb (ceqb 124 c) && negb (ceqb 91 c) && negb (ceqb 93 c).
Lemma run_alt_none {R} (a b : peg R) pos s : run (PAlt a b) pos s = None <-> run a pos s = None /\ run b pos s = None.
Proof. cbn [run]. destruct (run a pos s); split; try tauto; try discriminate; intros [? ?]; discriminate. Qed.
Lemma run_str1_none c pos x r : run (R:=rule) (PStr [c]) pos (x :: r) = None <-> ceqb c x = false.
Proof. rewrite run_str1. destruct (ceqb c x); split; congruence. Qed.
Lemma url_stop pos c r :
  run (R:=rule) (PAlts [NEWLINE; PStr [32%N]; PStr [124%N]; PStr [91%N]; PStr [93%N]]) pos (c :: r) = None <-> url_char c = true.
Proof.
  unfold PAlts. rewrite !run_alt_none, newline_none, !run_str1_none. unfold url_char.
  rewrite !andb_true_iff, !negb_true_iff. tauto.
Qed.
Lemma url_char_spec c : url_char c = true -> ~ In c [10; 13; 32; 124; 91; 93]%N.
Proof.
  unfold url_char, is_nl. rewrite !andb_true_iff, !negb_true_iff, orb_false_iff, !ceqb_neq.
  intros H Hin. simpl in Hin. intuition.
Qed.
Definition char_plain (c : char) : bool := negb (is_nl c) && negb (ceqb 34 c) && negb (ceqb 92 c).
Lemma plain_stop pos c r : run (R:=rule) (PAlts [NEWLINE; PStr [34%N]; PStr [92%N]]) pos (c :: r) = None <-> char_plain c = true.
Proof.
  unfold PAlts. rewrite !run_alt_none, newline_none, !run_str1_none. unfold char_plain.
  rewrite !andb_true_iff, !negb_true_iff. tauto.
Qed.
Lemma g_char_inv pos s ps m r : run g_char pos s = Some (ps, m, r) ->
  ps = [] /\ ((exists c, m = [c] /\ ~ In c [10; 13; 34; 92]%N) \/ (exists c, m = [92%N; c] /\ ~ In c [10; 13]%N)).
Proof.
  unfold g_char. intros H. apply run_alt_inv in H. destruct H as [H|[_ H]].
  - rewrite (run_not_any _ _ plain_stop) in H. destruct s as [|c s]; [discriminate|].
    destruct (char_plain c) eqn:E; [|discriminate]. injection H as <- <- <-. split; auto. left. exists c. split; auto.
    unfold char_plain, is_nl in E. rewrite !andb_true_iff, !negb_true_iff, orb_false_iff, !ceqb_neq in E.
    intros Hin. simpl in Hin. intuition.
  - cbn [PSeqs] in H. apply run_seq_inv in H. destruct H as (? & ? & ? & ? & ? & H & H0 & -> & ->).
    apply run_str_inv in H. destruct H as (-> & -> & ->).
    rewrite (run_not_any _ (fun c => negb (is_nl c))) in H0.
    + destruct x1 as [|c x1]; [discriminate|]. destruct (is_nl c) eqn:E; [discriminate|]. simpl in H0.
      injection H0 as <- <- <-. split; auto. right. exists c. split; auto. unfold is_nl in E.
      rewrite orb_false_iff, !ceqb_neq in E. intros Hin; simpl in Hin; intuition.
    + intros. rewrite newline_none, negb_true_iff. tauto.
Qed.
Lemma string_body_app a b : string_body a -> string_body b -> string_body (a ++ b).
Proof. intros H Hb. induction H; simpl; auto; [apply sb_char|apply sb_esc]; auto. Qed.
Lemma g_char_star pos s ps m r : run (PStar g_char) pos s = Some (ps, m, r) -> string_body m.
Proof.
  intros H. apply run_star_rel in H.
  - remember (run g_char) as f. revert Heqf. induction H; intros ->; [constructor|].
    apply string_body_app; auto. apply g_char_inv in H. destruct H as [_ [(c & -> & Hc)|(c & -> & Hc)]].
    + apply sb_char; [auto|constructor].
    + apply sb_esc; [auto|constructor].
  - intros p t qs n u Hr. apply g_char_inv in Hr. destruct Hr as [_ [(c & -> & _)|(c & -> & _)]]; discriminate.
Qed.

(** Newlines. *)
Lemma newline_inv pos s ps m r : run (R:=rule) NEWLINE pos s = Some (ps, m, r) ->
  ps = [] /\ s = m ++ r /\ (m = [10%N] \/ m = [13%N; 10%N] \/ (m = [13%N] /\ forall u, r <> 10%N :: u)).
Proof.
  intros H. pose proof (run_split _ _ _ _ _ _ H) as Hs. rewrite run_NEWLINE in H.
  destruct s as [|c s]; [discriminate|].
  destruct (ceqb 10 c); [injection H as <- <- <-; auto|].
  destruct (ceqb 13 c); [|discriminate].
  destruct s as [|d s]; [injection H as <- <- <-; split; auto; split; auto; right; right; split; congruence|].
  destruct (ceqb 10 d) eqn:E; injection H as <- <- <-; auto. split; auto. split; auto. right; right. split; auto.
  apply ceqb_neq in E. congruence.
Qed.
Lemma newlines_star pos s ps m r : run (R:=rule) (PStar NEWLINE) pos s = Some (ps, m, r) ->
  (exists n, newlines n m) /\ head_not is_nl r.
Proof.
  intros H. apply run_star_rel in H.
  - remember (run NEWLINE) as f. revert Heqf. induction H; intros ->.
    + split; [exists 0; constructor|]. destruct s as [|c s]; simpl; auto. eapply newline_none; eauto.
    + destruct (IHstar_rel eq_refl) as [(n & Hn) Hr]. pose proof (star_rel_split _ _ _ _ _ _ H1) as Hsp. split; auto. exists (S n).
      apply newline_inv in H. destruct H as (_ & _ & [->|[->|[-> Hu]]]); simpl; constructor; auto.
      intros u ->. apply (Hu (u ++ r')). auto.
  - intros p t qs n u Hr. apply newline_inv in Hr. destruct Hr as (_ & _ & [->|[->|[-> _]]]); discriminate.
Qed.
Lemma newlines_cons m m' r n : (m = [10%N] \/ m = [13%N; 10%N] \/ (m = [13%N] /\ forall u, r <> 10%N :: u)) ->
  (exists r', r = m' ++ r') -> newlines n m' -> newlines (S n) (m ++ m').
Proof.
  intros [->|[->|[-> Hu]]] (r' & ->) Hn; simpl; constructor; auto. intros u ->. apply (Hu (u ++ r')). reflexivity.
Qed.
Lemma paragraph_break_inv pos s ps m r : run (R:=rule) (PMin 2 NEWLINE) pos s = Some (ps, m, r) ->
  (exists n, 2 <= n /\ newlines n m) /\ head_not is_nl r.
Proof.
  unfold PMin. cbn [PTimes]. intros H.
  apply run_seq_inv in H. destruct H as (p1 & m1 & r1 & p2 & m2 & H & H2 & -> & ->).
  apply run_seq_inv in H. destruct H as (p3 & m3 & r3 & p4 & m4 & H3 & H4 & -> & ->).
  pose proof (run_split _ _ _ _ _ _ H2) as S2.
  destruct (newlines_star _ _ _ _ _ H2) as [(n & Hn) Hr]. split; auto.
  apply newline_inv in H3, H4. destruct H3 as (_ & -> & H3). destruct H4 as (_ & -> & H4).
  exists (S (S n)). split; [lia|]. rewrite <- app_assoc.
  eapply newlines_cons; [exact H3| |eapply newlines_cons; eauto].
  exists r. rewrite S2, app_assoc. reflexivity.
Qed.
Lemma two_newlines pos c r : is_nl c = true -> run g_paragraph_break pos (c :: r) = None ->
  run g_line_break pos (c :: r) <> None -> forall ps m r', run g_line_break pos (c :: r) = Some (ps, m, r') -> head_not is_nl r'.
Proof.
  intros Hc Hp _ ps m r' H. unfold g_paragraph_break in Hp. rewrite run_atom_eq in Hp.
  unfold g_line_break in H. apply run_atom_inv in H. destruct H as ((ps' & H) & _).
  unfold PMin in Hp. cbn [PTimes] in Hp. destruct r' as [|d r']; simpl; auto.
  destruct (is_nl d) eqn:E; auto. exfalso.
  assert (Hn : run (R:=rule) NEWLINE (pos + blen m) (d :: r') <> None).
  { intros Hn. apply newline_none in Hn. congruence. }
  destruct (run (R:=rule) NEWLINE (pos + blen m) (d :: r')) as [[[p2 m2] r2]|] eqn:E2; [|congruence].
  assert (X : run (R:=rule) (PSeq (PSeq NEWLINE NEWLINE) (PStar NEWLINE)) pos (c :: r) <> None).
  { remember (PStar (R:=rule) NEWLINE) as st eqn:Est.
    change (run (PSeq (PSeq NEWLINE NEWLINE) st) pos (c :: r)) with
      (match (match run (R:=rule) NEWLINE pos (c :: r) with
              | None => None
              | Some (p1, m1, r1) => match run NEWLINE (pos + blen m1) r1 with
                                     | None => None
                                     | Some (p2, m2, r2) => Some (p1 ++ p2, m1 ++ m2, r2) end end) with
       | None => None
       | Some (p1, m1, r1) => match run st (pos + blen m1) r1 with
                              | None => None
                              | Some (p2, m2, r2) => Some (p1 ++ p2, m1 ++ m2, r2) end end).
    rewrite H, E2. subst st. cbn [run]. destruct (star _ _ _ _) as [[? ?] ?]. discriminate. }
  destruct (run (PSeq (PSeq NEWLINE NEWLINE) (PStar NEWLINE)) pos (c :: r)) as [[[? ?] ?]|]; [discriminate|congruence].
Qed.

Definition nonspace (c : char) : bool := negb (ceqb 32 c) && negb (ceqb 9 c) && negb (is_nl c).
Lemma nonspace_stop pos c r : run (R:=rule) (PAlts [PStr [32%N]; PStr [9%N]; NEWLINE]) pos (c :: r) = None <-> nonspace c = true.
Proof.
  unfold PAlts. rewrite !run_alt_none, newline_none, !run_str1_none. unfold nonspace.
  rewrite !andb_true_iff, !negb_true_iff. tauto.
Qed.
(** The email rule cannot match: its first repetition takes the @ sign too. *)
Lemma email_never pos s : run g_email pos s = None.
Proof.
  destruct (run g_email pos s) as [[[ps m] r]|] eqn:E; auto. exfalso.
  unfold g_email in E. apply run_atom_inv in E. destruct E as ((? & E) & _). cbn [PSeqs] in E.
  apply run_seq_inv in E. destruct E as (p1 & m1 & r1 & p2 & m2 & H1 & H2 & _).
  apply run_seq_inv in H2. destruct H2 as (? & ? & ? & ? & ? & H2 & _).
  unfold g_nonspace in H1.
  rewrite (run_PPlus_set _ _ (run_not_any _ _ nonspace_stop)) in H1.
  destruct s as [|c s]; [discriminate|]. destruct (nonspace c); [|discriminate]. injection H1 as <- <- <-.
  apply run_str_inv in H2. destruct H2 as (_ & _ & H2).
  apply drop_while_head in H2. discriminate.
Qed.

Lemma run_PUpTo n c pos s ps m r : run (R:=rule) (PUpTo n (PStr [c])) pos s = Some (ps, m, r) -> exists k, k <= n /\ m = repeat c k.
Proof.
  revert pos s ps m r. induction n as [|n IH]; intros pos s ps m r H; cbn [PUpTo] in H.
  - apply run_str_inv in H. destruct H as (_ & -> & _). exists 0. auto.
  - apply run_opt_inv in H. destruct H as [H|[_ H]].
    + apply run_seq_inv in H. destruct H as (? & ? & ? & ? & ? & H1 & H2 & -> & ->).
      apply run_str_inv in H1. destruct H1 as (_ & -> & _). apply IH in H2. destruct H2 as (k & Hk & ->).
      exists (S k). split; [lia|reflexivity].
    + injection H as _ -> _. exists 0. split; [lia|reflexivity].
Qed.
Lemma heading_inv pos s ps m r : run g_heading pos s = Some (ps, m, r) -> ps = [Pair R_heading pos m []] /\ shape THeading m.
Proof.
  unfold g_heading. intros H. apply run_atom_inv in H. destruct H as ((ps' & H) & ->). split; auto.
  apply run_seq_inv in H. destruct H as (? & m1 & r1 & ? & m2 & H1 & H2 & _ & ->).
  apply run_seq_inv in H1. destruct H1 as (? & ? & ? & ? & ? & H3 & H4 & _ & ->).
  apply run_str_inv in H3. destruct H3 as (_ & -> & _). apply run_PUpTo in H4. destruct H4 as (k & Hk & ->).
  change ([43%N] ++ repeat 43%N k) with (repeat 43%N (S k)).
  apply run_opt_inv in H2. destruct H2 as [H2|[_ H2]].
  - apply run_seq_inv in H2. destruct H2 as (? & ? & ? & ? & ? & H3 & H4 & _ & ->).
    apply run_str_inv in H3. destruct H3 as (_ & -> & _). apply run_not_inv in H4. destruct H4 as [_ H4]. injection H4 as _ -> _.
    apply sh_heading_star. lia.
  - injection H2 as _ -> _. rewrite app_nil_r. apply sh_heading. lia.
Qed.
Lemma url_inv pos s ps m r : run g_url pos s = Some (ps, m, r) -> ps = [Pair R_url pos m []] /\ shape TUrl m.
Proof.
  unfold g_url. intros H. apply run_atom_inv in H. destruct H as ((ps' & H) & ->). split; auto. cbn [PSeqs] in H.
  apply run_seq_inv in H. destruct H as (? & m1 & r1 & ? & m2 & H1 & H2 & _ & ->).
  apply run_seq_inv in H2. destruct H2 as (? & ? & ? & ? & ? & H3 & H4 & _ & ->).
  apply run_str_inv in H3. destruct H3 as (_ & -> & ->).
  rewrite (run_PPlus_set _ _ (run_not_any _ _ url_stop)) in H4.
  match type of H4 with match ?u with _ => _ end = _ => destruct u as [|c u]; [discriminate|] end.
  destruct (url_char c) eqn:Ec; [|discriminate]. injection H4 as <- <- <-.
  apply sh_url; [|discriminate|].
  - apply run_alt_inv in H1. destruct H1 as [H1|[_ H1]].
    + apply run_seq_inv in H1. destruct H1 as (? & ? & ? & ? & ? & H5 & H6 & _ & ->).
      apply run_str_inv in H5. destruct H5 as (_ & -> & _). apply run_opt_inv in H6. destruct H6 as [H6|[_ H6]].
      * apply run_str_inv in H6. destruct H6 as (_ & -> & _). right; left; reflexivity.
      * injection H6 as _ -> _. left. reflexivity.
    + apply run_str_inv in H1. destruct H1 as (_ & -> & _). right; right; left; reflexivity.
  - constructor; [apply url_char_spec; auto|]. eapply Forall_impl; [|apply take_while_Forall]. apply url_char_spec.
Qed.
Lemma ident_inv pos s ps m r : run g_identifier pos s = Some (ps, m, r) ->
  ps = [Pair R_identifier pos m []] /\ m <> [] /\ Forall (fun c => is_alnum c = true) m /\ head_not is_alnum r.
Proof.
  unfold g_identifier. rewrite run_atom_eq, run_ident_body. destruct s as [|c s]; [discriminate|].
  destruct (is_alnum c) eqn:E; [|discriminate]. intros H. injection H as <- <- <-. split; auto. split; [discriminate|].
  split; [constructor; auto; apply take_while_Forall|apply head_not_take].
Qed.
Lemma space_inv pos s ps m r : run g_space pos s = Some (ps, m, r) ->
  ps = [Pair R_space pos m []] /\ m <> [] /\ Forall (fun c => In c [32; 9]%N) m /\ head_not is_sp r.
Proof.
  assert (Hsp : forall c, is_sp c = true -> In c [32; 9]%N).
  { intros c H. unfold is_sp in H. apply orb_prop in H. rewrite !ceqb_eq in H. simpl. intuition. }
  unfold g_space. rewrite run_atom_eq, run_space_body. destruct s as [|c s]; [discriminate|].
  destruct (is_sp c) eqn:E; [|discriminate]. intros H. injection H as <- <- <-. split; auto. split; [discriminate|].
  split; [|apply head_not_take]. constructor; auto. eapply Forall_impl; [|apply take_while_Forall]. auto.
Qed.
Lemma variable_inv pos s ps m r : run g_variable pos s = Some (ps, m, r) -> ps = [Pair R_variable pos m []] /\ shape TVariable m.
Proof.
  unfold g_variable. intros H. apply run_atom_inv in H. destruct H as ((ps' & H) & ->). split; auto. cbn [PSeqs] in H.
  apply run_seq_inv in H. destruct H as (? & m1 & r1 & ? & m2 & H1 & H2 & _ & ->).
  apply run_seq_inv in H2. destruct H2 as (? & ? & ? & ? & ? & H3 & H4 & _ & ->).
  apply run_str_inv in H1, H4. destruct H1 as (_ & -> & _), H4 as (_ & -> & _).
  apply ident_inv in H3. destruct H3 as (_ & Hn & Hf & _). apply sh_variable; auto.
Qed.
Lemma string_inv pos s ps m r : run g_string pos s = Some (ps, m, r) -> ps = [Pair R_string pos m []] /\ shape TString m.
Proof.
  unfold g_string. intros H. apply run_atom_inv in H. destruct H as ((ps' & H) & ->). split; auto. cbn [PSeqs] in H.
  apply run_seq_inv in H. destruct H as (? & m1 & r1 & ? & m2 & H1 & H2 & _ & ->).
  apply run_seq_inv in H2. destruct H2 as (? & ? & ? & ? & ? & H3 & H4 & _ & ->).
  apply run_str_inv in H1, H4. destruct H1 as (_ & -> & _), H4 as (_ & -> & _).
  apply g_char_star in H3. apply sh_string; auto.
Qed.
Lemma clear_float_inv (q : rule) pos s ps m r : run (PAtom q (PMin 3 (PStr [126%N]))) pos s = Some (ps, m, r) ->
  ps = [Pair q pos m []] /\ exists n, 3 <= n /\ m = repeat 126%N n.
Proof.
  intros H. apply run_atom_inv in H. destruct H as ((ps' & H) & ->). split; auto.
  apply run_PMin_char in H; [|lia]. destruct H as (n & Hn & -> & _). eauto.
Qed.
Lemma clear_float2_inv (q : rule) x pos s ps m r : run (PAtom q (PSeq (PMin 3 (PStr [126%N])) (PStr [x]))) pos s = Some (ps, m, r) ->
  ps = [Pair q pos m []] /\ exists n, 3 <= n /\ m = repeat 126%N n ++ [x].
Proof.
  intros H. apply run_atom_inv in H. destruct H as ((ps' & H) & ->). split; auto.
  apply run_seq_inv in H. destruct H as (? & ? & ? & ? & ? & H1 & H2 & _ & ->).
  apply run_PMin_char in H1; [|lia]. destruct H1 as (n & Hn & -> & _).
  apply run_str_inv in H2. destruct H2 as (_ & -> & _). eauto.
Qed.
Lemma triple_dash_inv pos s ps m r : run g_triple_dash pos s = Some (ps, m, r) ->
  ps = [Pair R_triple_dash pos m []] /\ shape TTripleDash m /\ m <> [] /\ head_not (ceqb 45) r.
Proof.
  intros H. apply run_atom_inv in H. destruct H as ((ps' & H) & ->). split; auto.
  apply run_PMin_char in H; [|lia]. destruct H as (n & Hn & -> & Hr). split; [apply sh_triple_dash; auto|]. split.
  - destruct n; [lia|discriminate].
  - destruct r as [|c r]; simpl; auto. apply ceqb_neq. intros <-. apply (Hr r). reflexivity.
Qed.
Lemma quote_inv pos s ps m r : run g_quote pos s = Some (ps, m, r) ->
  ps = [Pair R_quote pos m []] /\ shape TQuote m /\ m <> [] /\ head_not (ceqb 62) r.
Proof.
  intros H. apply run_atom_inv in H. destruct H as ((ps' & H) & ->). split; auto.
  change (PPlus (R:=rule) (PStr [62%N])) with (PMin (R:=rule) 1 (PStr [62%N])) in H.
  apply run_PMin_char in H; [|lia]. destruct H as (n & Hn & -> & Hr). split; [apply sh_quote; auto|]. split.
  - destruct n; [lia|discriminate].
  - destruct r as [|c r]; simpl; auto. apply ceqb_neq. intros <-. apply (Hr r). reflexivity.
Qed.
Lemma times2_inv (q : rule) c pos s ps m r : run (PAtom q (PTimes 2 (PStr [c]))) pos s = Some (ps, m, r) ->
  ps = [Pair q pos m []] /\ m = [c; c].
Proof.
  intros H. apply run_atom_inv in H. destruct H as ((ps' & H) & ->). split; auto. cbn [PTimes] in H.
  apply run_seq_inv in H. destruct H as (? & ? & ? & ? & ? & H1 & H2 & _ & ->).
  apply run_str_inv in H1, H2. destruct H1 as (_ & -> & _), H2 as (_ & -> & _). reflexivity.
Qed.
Lemma item_inv (q : rule) c pos s ps m r : run (PAtom q (PSeq (PStr [c]) (PNot (PStr [c])))) pos s = Some (ps, m, r) ->
  ps = [Pair q pos m []] /\ m = [c].
Proof.
  intros H. apply run_atom_inv in H. destruct H as ((ps' & H) & ->). split; auto.
  apply run_seq_inv in H. destruct H as (? & ? & ? & ? & ? & H1 & H2 & _ & ->).
  apply run_str_inv in H1. destruct H1 as (_ & -> & _). apply run_not_inv in H2. destruct H2 as [_ H2]. injection H2 as _ -> _.
  reflexivity.
Qed.
Lemma item_none (q : rule) c pos r : run (PAtom q (PSeq (PStr [c]) (PNot (PStr [c])))) pos (c :: r) = None -> exists u, r = c :: u.
Proof.
  rewrite run_atom_eq. cbn [run strip_prefix]. rewrite ceqb_refl.
  destruct r as [|d r]; [discriminate|]. cbn [strip_prefix]. destruct (ceqb c d) eqn:E; [|discriminate].
  apply ceqb_eq in E. subst. eauto.
Qed.
Lemma seq2_inv q1 s1 q2 s2 pos s ps m r : run (PSeq (TK q1 s1) (TK q2 s2)) pos s = Some (ps, m, r) ->
  ps = [Pair q1 pos (lit s1) []; Pair q2 (pos + blen (lit s1)) (lit s2) []] /\ m = lit s1 ++ lit s2.
Proof.
  intros H. apply run_seq_inv in H. destruct H as (? & ? & ? & ? & ? & H1 & H2 & -> & ->).
  apply run_TK in H1, H2. destruct H1 as (-> & -> & ->), H2 as (-> & -> & ->). auto.
Qed.
Lemma shape_nonempty t s : shape t s -> s <> [].
Proof.
  destruct 1; try (destruct n; [lia|discriminate]); try discriminate; auto.
  - simpl in H. repeat (destruct H as [H|H]; [injection H as <- <-; discriminate|]). contradiction.
  - simpl in H. destruct H as [<-|[<-|[<-|[]]]]; discriminate.
  - inversion H; discriminate.
  - inversion H0; subst; try lia; discriminate.
Qed.

Lemma run_PAlts_cons {R} (a b : peg R) l pos s x : run (PAlts (a :: b :: l)) pos s = Some x ->
  run a pos s = Some x \/ (run a pos s = None /\ run (PAlts (b :: l)) pos s = Some x).
Proof. apply run_alt_inv. Qed.

Ltac in_symbols := simpl; repeat (first [left; reflexivity | right]).
Ltac tk_case H :=
  apply run_TK in H; destruct H as (-> & -> & _);
  eapply step_symbol; [reflexivity|in_symbols|discriminate|exact I].
Lemma run_seq_some {R} (a b : peg R) pos s : run a pos s <> None -> (forall p t, run b p t <> None) -> run (PSeq a b) pos s <> None.
Proof.
  intros Ha Hb. cbn [run]. destruct (run a pos s) as [[[p m] r]|]; [|congruence].
  specialize (Hb (pos + blen m) r). destruct (run b _ r) as [[[? ?] ?]|]; congruence.
Qed.
Lemma run_opt_some {R} (a : peg R) pos s : run (POpt a) pos s <> None.
Proof. cbn [run]. destruct (run a pos s); discriminate. Qed.
Lemma heading_some pos r : run g_heading pos (43%N :: r) <> None.
Proof.
  unfold g_heading. rewrite run_atom_eq.
  match goal with |- match ?x with _ => _ end <> None => assert (X : x <> None) end.
  { apply run_seq_some; [|intros; apply run_opt_some].
    apply run_seq_some; [|intros; apply run_opt_some]. rewrite run_str1, ceqb_refl. discriminate. }
  destruct (run _ pos (43%N :: r)) as [[[? ?] ?]|]; congruence.
Qed.
Lemma other_not_special pos c r :
  run (PAlts (removelast token_alts)) pos (c :: r) = None ->
  is_alnum c = false /\ ~ In c (lit "[]|=:_>+*# " ++ [9; 10; 13]%N).
Proof.
  intros H.
  assert (Hn : forall p, In p (removelast token_alts) -> run p pos (c :: r) = None).
  { intros p Hp. destruct (run p pos (c :: r)) eqn:E; auto. exfalso.
    eapply run_PAlts_in; [exact Hp| |exact H]. congruence. }
  clear H. split.
  - apply (run_ident_none pos c r). apply Hn. unfold token_alts. cbn [removelast]. do 6 right. left. reflexivity.
  - assert (Htk : forall q s, In (TK q s) (removelast token_alts) -> forall u, c :: r <> lit s ++ u).
    { intros q s Hq u Hu. pose proof (Hn _ Hq) as X. rewrite Hu, run_TK_some in X. discriminate. }
    assert (Hst : c = 42%N \/ c = 35%N -> False).
    { intros [-> | ->].
      - assert (X : run g_bullet_item pos (42%N :: r) = None) by (apply Hn; unfold token_alts; cbn [removelast]; in_symbols).
        apply item_none in X. destruct X as (u & ->).
        apply (Htk R_bold "**"%string) with (u := u); [unfold token_alts; cbn [removelast]; in_symbols|reflexivity].
      - assert (X : run g_numbered_item pos (35%N :: r) = None) by (apply Hn; unfold token_alts; cbn [removelast]; in_symbols).
        apply item_none in X. destruct X as (u & ->).
        apply (Htk R_color "##"%string) with (u := u); [unfold token_alts; cbn [removelast]; in_symbols|reflexivity]. }
    assert (Hq : c = 62%N -> False).
    { intros ->. assert (X : run g_quote pos (62%N :: r) = None) by (apply Hn; unfold token_alts; cbn [removelast]; in_symbols).
      unfold g_quote in X. rewrite run_atom_eq in X.
      rewrite (run_PPlus_set (R:=rule) (PStr [62%N]) (ceqb 62)) in X.
      - discriminate.
      - intros p t. rewrite run_str1. destruct t as [|x t]; [reflexivity|].
        destruct (ceqb 62 x) eqn:E; [|reflexivity]. apply ceqb_eq in E. subst; reflexivity. }
    assert (Hh : c = 43%N -> False).
    { intros ->. assert (X : run g_heading pos (43%N :: r) = None) by (apply Hn; unfold token_alts; cbn [removelast]; in_symbols).
      exact (heading_some _ _ X). }
    assert (Hnl : is_nl c = true -> False).
    { intros Hc. assert (X : run g_line_break pos (c :: r) = None) by (apply Hn; unfold token_alts; cbn [removelast]; in_symbols).
      unfold g_line_break in X. rewrite run_atom_eq in X.
      assert (Y : run (R:=rule) NEWLINE pos (c :: r) = None) by (destruct (run NEWLINE pos (c :: r)) as [[[? ?] ?]|]; congruence).
      apply newline_none in Y. congruence. }
    assert (Hs : is_sp c = true -> False).
    { intros Hc. assert (X : run g_space pos (c :: r) = None) by (apply Hn; unfold token_alts; cbn [removelast]; in_symbols).
      unfold g_space in X. rewrite run_atom_eq, run_space_body, Hc in X. discriminate. }
    assert (H1 : forall q s, In (TK q s) (removelast token_alts) -> lit s = [c] -> False).
    { intros q s Hin Hl. apply (Htk q s Hin r). rewrite Hl. reflexivity. }
    intros Hin. simpl in Hin.
    destruct Hin as [<-|Hin]; [apply (H1 R_left_bracket "["%string); [unfold token_alts; cbn [removelast]; in_symbols|reflexivity]|].
    destruct Hin as [<-|Hin]; [apply (H1 R_right_bracket "]"%string); [unfold token_alts; cbn [removelast]; in_symbols|reflexivity]|].
    destruct Hin as [<-|Hin]; [apply (H1 R_pipe "|"%string); [unfold token_alts; cbn [removelast]; in_symbols|reflexivity]|].
    destruct Hin as [<-|Hin]; [apply (H1 R_equals "="%string); [unfold token_alts; cbn [removelast]; in_symbols|reflexivity]|].
    destruct Hin as [<-|Hin]; [apply (H1 R_colon ":"%string); [unfold token_alts; cbn [removelast]; in_symbols|reflexivity]|].
    destruct Hin as [<-|Hin]; [apply (H1 R_underscore "_"%string); [unfold token_alts; cbn [removelast]; in_symbols|reflexivity]|].
    destruct Hin as [<-|Hin]; [auto|].
    destruct Hin as [<-|Hin]; [auto|].
    destruct Hin as [<-|Hin]; [auto|].
    destruct Hin as [<-|Hin]; [auto|].
    destruct Hin as [<-|Hin]; [auto|].
    destruct Hin as [<-|Hin]; [auto|].
    destruct Hin as [<-|Hin]; [auto|].
    destruct Hin as [<-|Hin]; [auto|].
    contradiction.
Qed.

Lemma PAlts_snoc {R} (l : list (peg R)) z pos s x : l <> [] -> run (PAlts (l ++ [z])) pos s = Some x ->
  run (PAlts l) pos s = Some x \/ (run (PAlts l) pos s = None /\ run z pos s = Some x).
Proof.
  induction l as [|a l IH]; intros Hl H; [congruence|]. destruct l as [|b l].
  - apply run_alt_inv in H. auto.
  - change ((a :: b :: l) ++ [z]) with (a :: (b :: l) ++ [z]) in H.
    apply run_PAlts_cons in H. change (PAlts (a :: b :: l)) with (PAlt a (PAlts (b :: l))).
    cbn [run]. destruct H as [->|[-> H]]; [left; reflexivity|]. apply IH; [discriminate|auto].
Qed.

Lemma token_step pos s ps m r : run g_token pos s = Some (ps, m, r) ->
  exists ts, convert_pairs ps = Some ts /\ step_ok pos ts m r.
Proof.
  unfold g_token. change token_alts with (removelast token_alts ++ [g_other]). intros H.
  apply PAlts_snoc in H; [|discriminate]. destruct H as [H|[Hn H]].
  2:{ unfold g_other in H. apply run_atom_inv in H. destruct H as ((? & H) & ->). unfold ANY in H.
      apply run_set_inv in H. destruct H as (c & _ & -> & -> & ->).
      apply other_not_special in Hn. destruct Hn. eapply step_one; [reflexivity| |discriminate|exact I].
      apply sh_other; auto. }
  unfold token_alts in H. cbn [removelast] in H.
  repeat (apply run_PAlts_cons in H; destruct H as [H|[?N H]]; [try (now tk_case H)|]).
  all: try (now tk_case H).
  all: repeat match goal with X : run (TK _ _) _ _ = None |- _ => clear X end.
  - apply url_inv in H. destruct H as (-> & H). eapply step_one; [reflexivity|auto|eapply shape_nonempty; eauto|exact I].
  - apply ident_inv in H. destruct H as (-> & H1 & H2 & H3). eapply step_one; [reflexivity|apply sh_identifier; auto|auto|exact H3].
  - rewrite email_never in H. discriminate.
  - apply variable_inv in H. destruct H as (-> & H). eapply step_one; [reflexivity|auto|eapply shape_nonempty; eauto|exact I].
  - apply string_inv in H. destruct H as (-> & H). eapply step_one; [reflexivity|auto|eapply shape_nonempty; eauto|exact I].
  - apply seq2_inv in H. destruct H as (-> & ->). eapply step_two; [reflexivity|reflexivity|in_symbols|in_symbols|discriminate|discriminate|auto].
  - apply seq2_inv in H. destruct H as (-> & ->). eapply step_two; [reflexivity|reflexivity|in_symbols|in_symbols|discriminate|discriminate|auto].
  - apply clear_float2_inv in H. destruct H as (-> & n & Hk & ->).
    eapply step_one; [reflexivity|apply sh_float_left; auto|destruct n; [lia|discriminate]|exact I].
  - apply clear_float2_inv in H. destruct H as (-> & n & Hk & ->).
    eapply step_one; [reflexivity|apply sh_float_right; auto|destruct n; [lia|discriminate]|exact I].
  - apply clear_float_inv in H. destruct H as (-> & n & Hk & ->).
    eapply step_one; [reflexivity|apply sh_float_both; auto|destruct n; [lia|discriminate]|exact I].
  - apply triple_dash_inv in H. destruct H as (-> & H1 & H2 & H3). eapply step_one; [reflexivity|auto|auto|exact H3].
  - apply times2_inv in H. destruct H as (-> & ->). eapply step_one; [reflexivity|apply sh_symbol; in_symbols|discriminate|exact I].
  - apply times2_inv in H. destruct H as (-> & ->). eapply step_one; [reflexivity|apply sh_symbol; in_symbols|discriminate|exact I].
  - apply quote_inv in H. destruct H as (-> & H1 & H2 & H3). eapply step_one; [reflexivity|auto|auto|exact H3].
  - apply heading_inv in H. destruct H as (-> & H). eapply step_one; [reflexivity|auto|eapply shape_nonempty; eauto|exact I].
  - apply item_inv in H. destruct H as (-> & ->). eapply step_one; [reflexivity|apply sh_symbol; in_symbols|discriminate|exact I].
  - apply item_inv in H. destruct H as (-> & ->). eapply step_one; [reflexivity|apply sh_symbol; in_symbols|discriminate|exact I].
  - apply run_atom_inv in H. destruct H as ((ps' & H) & ->). apply paragraph_break_inv in H.
    destruct H as ((n & Hk & Hnl) & Hr).
    assert (shape TParagraphBreak m) by (eapply sh_paragraph_break; eauto).
    eapply step_one; [reflexivity|auto|eapply shape_nonempty; eauto|exact Hr].
  - destruct s as [|c s]; [discriminate|]. pose proof H as H0.
    apply run_atom_inv in H. destruct H as ((ps' & H) & ->).
    assert (Hc : is_nl c = true).
    { destruct (is_nl c) eqn:E; auto. apply (newline_none pos c s) in E. congruence. }
    assert (Hr : head_not is_nl r) by (eapply two_newlines; eauto; congruence).
    apply newline_inv in H. destruct H as (_ & _ & H).
    assert (Hs : shape TLineBreak m).
    { apply sh_line_break. destruct H as [->|[->|[-> _]]]; repeat constructor. discriminate. }
    eapply step_one; [reflexivity|auto|eapply shape_nonempty; eauto|exact Hr].
  - apply space_inv in H. destruct H as (-> & H1 & H2 & H3). eapply step_one; [reflexivity|apply sh_whitespace; auto|auto|exact H3].
Qed.

Lemma newlines_head n s : newlines (S n) s -> exists c r, s = c :: r /\ is_nl c = true.
Proof. intros H. inversion H; subst; eauto. Qed.
Lemma doubled_spec c : In c doubled -> is_alnum c = false /\ ~ In c [32; 9; 10; 13; 62; 43; 91; 93; 61; 58]%N.
Proof. intro H. cbn in H. repeat (destruct H as [<-|H]; [split; [reflexivity|cbn; intuition discriminate]|]). destruct H. Qed.
(** Doubled marks are read together. *)
Lemma token_double pos c r ps r' : In c doubled -> run g_token pos (c :: c :: r) = Some (ps, [c], r') -> False.
Proof.
  intros Hc. pose proof (doubled_spec c Hc) as [Ha Hs]. unfold g_token. change token_alts with (removelast token_alts ++ [g_other]). intros H.
  apply PAlts_snoc in H; [|discriminate].
  assert (Htk : forall q s, lit s = [c; c] -> run (TK q s) pos (c :: c :: r) <> None).
  { intros q s E. change (c :: c :: r) with ([c; c] ++ r). rewrite <- E, run_TK_some. discriminate. }
  destruct H as [H|[Hn H]].
  - unfold token_alts in H. cbn [removelast] in H.
    assert (Hx : forall q s p x y, run (TK q s) p x = Some (ps, [c], y) -> lit s = [c]) by (intros q s p x y X; apply run_TK in X; destruct X as (_ & X & _); auto).
    repeat (apply run_PAlts_cons in H; destruct H as [H|[?N H]];
      [try (apply Hx in H; first [discriminate H | injection H as <-; exfalso; apply Hs; cbn; tauto]) |]);
    try (apply Hx in H; injection H as <-; match goal with N : run (TK ?q ?z) _ _ = None |- _ => exact (Htk q z eq_refl N) end).
    + apply url_inv in H as [_ H]. inversion H as [k s0 Hk| |scheme s0 X| | | | | | | | | | | | |]; subst; [cbn in Hk; intuition discriminate|]. destruct X as [<-|[<-|[<-|[]]]]; discriminate.
    + apply ident_inv in H as (_ & _ & H & _). inversion H; congruence.
    + rewrite email_never in H. discriminate.
    + apply variable_inv in H as [_ H]. inversion H as [k s0 Hk| | | | | | | | | | | | | | |]; subst; try (cbn in Hk; intuition discriminate); try (destruct s; discriminate).
    + apply string_inv in H as [_ H]. inversion H as [k s0 Hk| | | | | | | | | | | | | | |]; subst; try (cbn in Hk; intuition discriminate); try (destruct s; discriminate).
    + apply seq2_inv in H as [_ H]. discriminate.
    + apply seq2_inv in H as [_ H]. discriminate.
    + apply clear_float2_inv in H as (_ & n & Hk & H). destruct n as [|[|n]]; [lia|lia|]. discriminate.
    + apply clear_float2_inv in H as (_ & n & Hk & H). destruct n as [|[|n]]; [lia|lia|]. discriminate.
    + apply clear_float_inv in H as (_ & n & Hk & H). destruct n as [|[|n]]; [lia|lia|]. discriminate.
    + apply triple_dash_inv in H as (_ & H1 & _ & _). inversion H1 as [k s0 Hk| | | | | | | |n Hn| | | | | | |]; subst; [cbn in Hk; intuition discriminate|]. destruct n as [|[|n]]; [lia|lia|]. discriminate.
    + apply times2_inv in H as (_ & H). discriminate.
    + apply times2_inv in H as (_ & H). discriminate.
    + apply quote_inv in H as (_ & H1 & _ & _). inversion H1 as [k s0 Hk| | | | | | | | |n Hn| | | | | |]; subst; [cbn in Hk; intuition discriminate|]. destruct n as [|n]; [lia|]. match goal with X : _ = [c] |- _ => injection X as <- _ end. apply Hs. cbn. tauto.
    + apply heading_inv in H as (_ & H). inversion H as [k s0 Hk| | | | | | | | | |n Hn|n Hn| | | |]; subst; [cbn in Hk; intuition discriminate| |];
        (destruct n as [|n]; [lia|]); match goal with X : _ = [c] |- _ => injection X as <- _ end; apply Hs; cbn; tauto.
    + pose proof H as H0. apply item_inv in H as (_ & H). injection H as ->. 
      match goal with N : run (TK ?q ?z) _ _ = None |- _ => exact (Htk q z eq_refl N) end.
    + apply item_inv in H as (_ & H). injection H as ->.
      match goal with N : run (TK ?q ?z) _ _ = None |- _ => exact (Htk q z eq_refl N) end.
    + apply run_atom_inv in H as ((ps' & H) & _). apply paragraph_break_inv in H as ((n & Hk & Hnl) & _). destruct n; [lia|]. apply newlines_head in Hnl as (x & u & E & Hx'). injection E as <- _.
      unfold is_nl in Hx'. apply orb_true_iff in Hx' as [X|X]; apply ceqb_eq in X; subst; apply Hs; cbn; tauto.
    + apply run_atom_inv in H as ((ps' & H) & _). apply newline_inv in H as (_ & _ & [H|[H|[H _]]]); [|discriminate|]; injection H as ->; apply Hs; cbn; tauto.
    + apply space_inv in H as (_ & _ & H & _). inversion H; subst. apply Hs. destruct H2 as [<-|[<-|[]]]; cbn; tauto.
  - cbn in Hc.
    assert (Hn' : forall p, In p (removelast token_alts) -> run p pos (c :: c :: r) = None).
    { intros p Hp. destruct (run p pos (c :: c :: r)) eqn:E; auto. exfalso. eapply run_PAlts_in; [exact Hp| |exact Hn]. congruence. }
    assert (Hq : forall q s, lit s = [c; c] -> In (TK q s) (removelast token_alts) -> False) by (intros q s E Hi; apply (Htk q s E); auto).
    unfold token_alts in *. cbn [removelast] in *.
    repeat (destruct Hc as [<-|Hc]; [first
      [ apply (Hq R_raw "@@"%string eq_refl); in_symbols; fail | apply (Hq R_bold "**"%string eq_refl); in_symbols; fail
      | apply (Hq R_italics "//"%string eq_refl); in_symbols; fail | apply (Hq R_underline "__"%string eq_refl); in_symbols; fail
      | apply (Hq R_superscript "^^"%string eq_refl); in_symbols; fail | apply (Hq R_subscript ",,"%string eq_refl); in_symbols; fail
      | apply (Hq R_color "##"%string eq_refl); in_symbols; fail | apply (Hq R_left_monospace "{{"%string eq_refl); in_symbols; fail
      | apply (Hq R_right_monospace "}}"%string eq_refl); in_symbols; fail | apply (Hq R_left_double_angle "<<"%string eq_refl); in_symbols; fail
      | apply (Hq R_left_parens "(("%string eq_refl); in_symbols; fail | apply (Hq R_right_parens "))"%string eq_refl); in_symbols; fail
      | apply (Hq R_table_column "||"%string eq_refl); in_symbols; fail
      | assert (X : run g_double_tilde pos (126%N :: 126%N :: r) = None) by (apply Hn'; in_symbols); discriminate X
      | assert (X : run g_double_dash pos (45%N :: 45%N :: r) = None) by (apply Hn'; in_symbols); discriminate X ] |]); contradiction.
Qed.
Lemma token_some pos c r : run g_token pos (c :: r) <> None.
Proof.
  unfold g_token. apply run_PAlts_in with g_other.
  - unfold token_alts. in_symbols.
  - discriminate.
Qed.
Lemma token_nonempty : nonempty g_token.
Proof.
  intros pos s ps m r H. apply token_step in H. destruct H as (ts & _ & _ & Hm & Hs & Hx). subst m.
  destruct Hx as (t0 & [[-> _]|(t1 & -> & _)]); inversion Hs; subst; simpl;
    intros E; apply app_eq_nil in E; destruct E as [E _]; eapply shape_nonempty; eauto.
Qed.

(** Consecutive tokens. *)
Inductive chain : list xtoken -> Prop :=
| chain_nil : chain []
| chain_one t : chain [t]
| chain_cons t u ts : ~ In (t_token t, t_token u) never_adjacent ->
    (forall c v, In c doubled -> t_slice t = [c] -> t_slice u <> c :: v) -> chain (u :: ts) -> chain (t :: u :: ts).

Lemma follow_next t r t' sl post : follow_ok t r -> r = sl ++ post -> shape t' sl -> ~ In (t, t') never_adjacent.
Proof.
  intros Hf -> Hs Hin. unfold never_adjacent in Hin. simpl in Hin.
  assert (Hsym : forall k s, In (k, s) symbols -> ~ In k [TIdentifier; TUrl; TWhitespace; TLineBreak; TParagraphBreak; TQuote; TTripleDash]
                                               /\ (k = TDoubleDash -> s = lit "--")).
  { intros k s H. simpl in H.
    repeat (destruct H as [H|H]; [injection H as <- <-; split; [simpl; intuition discriminate|try discriminate; auto]|]).
    contradiction. }
  repeat (destruct Hin as [Hin|Hin]; [injection Hin as <- <-; simpl in Hf;
    inversion Hs as [k s0 Hk| | | | | | | | | | | | | | | ]; subst;
    try (destruct (Hsym _ _ Hk) as [Hx _]; apply Hx; simpl; tauto) |]); try contradiction.
  - destruct sl as [|c sl]; [congruence|]. simpl in Hf. inversion H0; subst. congruence.
  - simpl in H. destruct H as [<-|[<-|[<-|[]]]]; discriminate.
  - destruct sl as [|c sl]; [congruence|]. simpl in Hf. inversion H0; subst. destruct H3 as [<-|[<-|[]]]; discriminate.
  - apply newlines_head in H. destruct H as (c & u & -> & Hc). simpl in Hf. congruence.
  - destruct n; [lia|]. apply newlines_head in H0. destruct H0 as (c & u & -> & Hc). simpl in Hf. congruence.
  - apply newlines_head in H. destruct H as (c & u & -> & Hc). simpl in Hf. congruence.
  - destruct n; [lia|]. apply newlines_head in H0. destruct H0 as (c & u & -> & Hc). simpl in Hf. congruence.
  - destruct n; [lia|]. discriminate.
  - destruct n; [lia|]. discriminate.
  - destruct (Hsym _ _ Hk) as [_ Hx]. rewrite Hx in Hf by reflexivity. discriminate.
Qed.
Lemma bracket_slices t s : shape t s -> In t [TLeftBracket; TLeftLink; TRightLink; TRightBracket] -> forall c, s = [c] -> ~ In c doubled.
Proof.
  intros H Ht c ->. inversion H as [k s0 Hk| | | | | | | | | | | | | | |]; subst; try (cbn in Ht; intuition discriminate).
  cbn in Ht. cbn in Hk. intro Hc. apply doubled_spec in Hc as [_ Hc]. apply Hc.
  destruct Ht as [<-|[<-|[<-|[<-|[]]]]]; repeat (destruct Hk as [Hk|Hk]; [try discriminate Hk; injection Hk as <-; cbn; tauto|]); destruct Hk.
Qed.
Lemma lex_star pos s ps m r : star_rel (run g_token) pos s ps m r ->
  r = [] /\ exists ts, convert_pairs ps = Some ts /\ contiguous pos ts (pos + blen s) /\
    concat (map t_slice ts) = s /\ Forall (fun t => shape (t_token t) (t_slice t)) ts /\ chain ts.
Proof.
  intros H. remember (run g_token) as f. induction H as [pos s Hn|pos s ps m r ps' m' r' E Hm Hrest IH]; subst f.
  - destruct s as [|c s]; [|exfalso; eapply token_some; eauto]. split; auto. exists []. simpl. rewrite Nat.add_0_r.
    repeat split; constructor.
  - destruct IH as (-> & ts' & Hc' & Hct' & Hcc' & Hs' & Hch'). split; auto.
    pose proof (run_split _ _ _ _ _ _ E) as ->. pose proof E as E0.
    apply token_step in E. destruct E as (ts & Hc & Hct & Hcc & Hs & Hx).
    exists (ts ++ ts'). rewrite convert_pairs_app, Hc, Hc'. split; auto.
    split; [|split; [|split]].
    + rewrite blen_app, Nat.add_assoc. eapply contiguous_app; eauto.
    + rewrite map_app, concat_app. congruence.
    + apply Forall_app; auto.
    + destruct ts' as [|u ts'].
      { rewrite app_nil_r. destruct Hx as (t0 & [[-> _]|(t1 & -> & Hk)]); [constructor|].
        constructor; [| |constructor]; [destruct Hk as [[-> ->]|[-> ->]]; simpl; intuition discriminate|].
        intros c v Hd Hc1. exfalso. inversion Hs; subst. eapply bracket_slices; eauto. destruct Hk as [[-> _]|[-> _]]; cbn; auto. }
      simpl in Hcc'.
      destruct Hx as (t0 & [[-> Hf]|(t1 & -> & Hk)]); simpl.
      * constructor; auto.
        { eapply follow_next; [exact Hf|symmetry; exact Hcc'|]. inversion Hs'; auto. }
        intros c v Hd Hc1 Hv. rewrite Hv in Hcc'. cbn [map concat app] in Hcc, Hcc'. rewrite app_nil_r in Hcc. rewrite Hc1 in Hcc. subst m r. exact (token_double _ c _ _ _ Hd E0).
      * constructor; [destruct Hk as [[-> ->]|[-> ->]]; simpl; intuition discriminate| |].
        { intros c v Hd Hc1. exfalso. inversion Hs; subst. eapply bracket_slices; eauto. destruct Hk as [[-> _]|[-> _]]; cbn; auto. }
        constructor; auto; [destruct Hk as [[_ ->]|[_ ->]]; simpl; intuition discriminate|].
        intros c v Hd Hc1. exfalso. inversion Hs as [|? ? _ Hs2]; subst. inversion Hs2; subst. eapply bracket_slices; eauto. destruct Hk as [[_ ->]|[_ ->]]; cbn; auto.
Qed.

Lemma extract_all_spec text : exists mid,
  extract_all text = Some (XT TInputStart [] 0 0 :: mid ++ [XT TInputEnd [] (blen text) (blen text)]) /\
  contiguous 0 mid (blen text) /\ concat (map t_slice mid) = text /\
  Forall (fun t => shape (t_token t) (t_slice t)) mid /\ chain mid.
Proof.
  unfold extract_all, g_document.
  destruct (run (PStar g_token) 0 text) as [[[ps m] r]|] eqn:E; [|cbn [run] in E; discriminate].
  pose proof (run_split _ _ _ _ _ _ E) as Hs.
  assert (Heq : run (PSeq (PStar g_token) (PRule R_EOI PEnd)) 0 text =
    match run (PRule R_EOI PEnd) (0 + blen m) r with Some (p2, m2, r2) => Some (ps ++ p2, m ++ m2, r2) | None => None end).
  { cbn [run] in E |- *. destruct (star (run g_token) _ _ _) as [[? ?] ?]. injection E as -> -> ->. reflexivity. }
  rewrite Heq. apply run_star_rel in E; [|apply token_nonempty]. apply lex_star in E.
  destruct E as (-> & ts & Hc & Hct & Hcc & Hsh & Hch). rewrite app_nil_r in Hs. subst m. cbn [run].
  rewrite convert_pairs_app, Hc. cbn. exists ts. rewrite Nat.add_0_r. simpl in Hct. repeat split; auto.
Qed.

Lemma contiguous_slices a ts b : contiguous a ts b -> forall pre post, a = blen pre ->
  forall t, In t ts -> bslice (pre ++ concat (map t_slice ts) ++ post) (t_start t) (t_end t) = Some (t_slice t).
Proof.
  induction 1 as [a|a t ts b H1 H2 H3 H IH]; intros pre post Ha u Hu; [destruct Hu|].
  simpl. rewrite <- app_assoc. destruct Hu as [<-|Hu].
  - rewrite H2, H1, Ha. apply bslice_app.
  - rewrite app_assoc. apply IH; auto. rewrite blen_app. lia.
Qed.
Lemma contiguous_boundary a ts b : contiguous a ts b -> forall pre post, a = blen pre ->
  forall t, In t ts -> exists p, (exists q, pre ++ concat (map t_slice ts) ++ post = p ++ t_slice t ++ q) /\ t_start t = blen p /\ t_end t = blen (p ++ t_slice t).
Proof.
  induction 1 as [a|a t ts b H1 H2 H3 H IH]; intros pre post Ha u Hu; [destruct Hu|].
  simpl. destruct Hu as [<-|Hu].
  - exists pre. rewrite blen_app. split; [exists (concat (map t_slice ts) ++ post); rewrite <- app_assoc; auto|]. lia.
  - rewrite <- app_assoc, app_assoc. apply IH; auto. rewrite blen_app. lia.
Qed.

(** *** The text of a token determines its kind *)
Fixpoint sym_lookup (l : list (token * str)) (s : str) : option token :=
  match l with [] => None | (t, x) :: l' => if seqb x s then Some t else sym_lookup l' s end.
Definition kind (s : str) : token :=
  match sym_lookup symbols s with
  | Some t => t
  | None =>
      match s with
      | [] => TOther
      | c :: _ =>
          if is_alnum c then (if forallb is_alnum s then TIdentifier else TUrl)
          else if ceqb c 123 && negb (seqb s [123%N]) then TVariable
          else if ceqb c 34 && negb (seqb s [34%N]) then TString
          else if ceqb c 126 && negb (seqb s [126%N]) then
            (if ceqb (last s 0%N) 60 then TClearFloatLeft else if ceqb (last s 0%N) 62 then TClearFloatRight else TClearFloatBoth)
          else if ceqb c 45 && negb (seqb s [45%N]) then TTripleDash
          else if ceqb c 62 then TQuote
          else if ceqb c 43 then THeading
          else if is_nl c then (if smem s [[10%N]; [13%N]; [13%N; 10%N]] then TLineBreak else TParagraphBreak)
          else if is_sp c then TWhitespace
          else TOther
      end
  end.
Lemma sym_none s : (forall t x, In (t, x) symbols -> x <> s) -> sym_lookup symbols s = None.
Proof.
  generalize symbols. intros l H. induction l as [|[t x] l IH]; [reflexivity|]. simpl.
  destruct (seqb x s) eqn:E; [apply seqb_eq in E; exfalso; eapply H; [left; reflexivity|auto]|].
  apply IH. intros. eapply H. right; eauto.
Qed.
Lemma sym_first c s : ~ In c (map (fun e => hd 0%N (snd e)) symbols) -> sym_lookup symbols (c :: s) = None.
Proof.
  intros H. apply sym_none. intros t x Hin ->. apply H. apply in_map_iff. exists (t, c :: s). auto.
Qed.
Lemma last_app_one {A} (l : list A) x d : last (l ++ [x]) d = x.
Proof. induction l as [|a l IH]; [reflexivity|]. simpl. destruct (l ++ [x]) eqn:E; [destruct l; discriminate|]. exact IH. Qed.
Lemma last_repeat {A} (x : A) n d : last (repeat x (S n)) d = x.
Proof. induction n as [|n IH]; [reflexivity|]. exact IH. Qed.
Lemma kind_spec t s : shape t s -> kind s = t.
Proof.
  assert (Halnum : forall c, is_alnum c = true -> ~ In c (map (fun e => hd 0%N (snd e)) symbols)).
  { intros c Hc Hin. simpl in Hin. repeat (destruct Hin as [<-|Hin]; [discriminate|]). contradiction. }
  destruct 1.
  - simpl in H. repeat (destruct H as [H|H]; [injection H as <- <-; reflexivity|]). contradiction.
  - destruct s as [|c s]; [congruence|]. inversion H0; subst. unfold kind. rewrite sym_first by auto. rewrite H3.
    replace (forallb is_alnum (c :: s)) with true; auto. symmetry. apply forallb_forall. rewrite Forall_forall in H0. auto.
  - simpl in H. destruct H as [<-|[<-|[<-|[]]]]; unfold kind; simpl app; rewrite sym_first; reflexivity || (simpl; intuition discriminate).
  - unfold kind. simpl app. destruct s as [|c s]; [congruence|]. unfold symbols. cbn [sym_lookup lit seqb]. reflexivity.
  - unfold kind. simpl app. rewrite sym_first by (simpl; intuition discriminate).
    destruct s; reflexivity.
  - destruct n as [|[|[|n]]]; try lia. unfold kind.
    replace (last (repeat 126%N (S (S (S n)))) 0%N) with 126%N by (rewrite last_repeat; reflexivity).
    simpl repeat. reflexivity.
  - destruct n as [|[|[|n]]]; try lia. unfold kind. rewrite last_app_one. simpl repeat. simpl app. reflexivity.
  - destruct n as [|[|[|n]]]; try lia. unfold kind. rewrite last_app_one. simpl repeat. simpl app. reflexivity.
  - destruct n as [|[|[|n]]]; try lia. unfold kind. simpl repeat. reflexivity.
  - destruct n as [|n]; try lia. unfold kind. destruct n as [|n]; reflexivity.
  - destruct n as [|n]; try lia. unfold kind. simpl repeat. rewrite sym_first by (simpl; intuition discriminate). reflexivity.
  - destruct n as [|n]; try lia. unfold kind. simpl repeat. simpl app. rewrite sym_first by (simpl; intuition discriminate). reflexivity.
  - inversion H; subst;
      match goal with X : newlines 0 _ |- _ => inversion X; subst end;
      unfold kind; (rewrite sym_first by (simpl; intuition discriminate)); reflexivity.
  - destruct n as [|[|n]]; try lia. inversion H0; subst;
      match goal with X : newlines (S n) _ |- _ => inversion X; subst end;
      unfold kind; (rewrite sym_first by (simpl; intuition discriminate)); try reflexivity.
    all: exfalso; match goal with X : forall u, _ <> _ |- _ => eapply X; reflexivity end.
  - destruct s as [|c s]; [congruence|]. inversion H0; subst. unfold kind.
    rewrite sym_first by (destruct H3 as [<-|[<-|[]]]; simpl; intuition discriminate).
    destruct H3 as [<-|[<-|[]]]; reflexivity.
  - unfold kind. rewrite sym_none.
    + rewrite H. simpl in H0. unfold is_nl, is_sp.
      assert (X : forall d, c <> d -> ceqb c d = false) by (intros; apply ceqb_neq; auto).
      assert (Y : forall d, c <> d -> ceqb d c = false) by (intros; apply ceqb_neq; auto).
      assert (Z : forall d, ceqb c d && negb (seqb [c] [d]) = false).
      { intros d. cbn [seqb]. destruct (ceqb c d); reflexivity. }
      rewrite !Z. rewrite (X 62%N), (X 43%N), (X 10%N), (X 13%N), (Y 32%N), (Y 9%N) by intuition. reflexivity.
    + intros t x Hin ->. apply H0. simpl in Hin.
      repeat (destruct Hin as [Hin|Hin]; [first [discriminate Hin | injection Hin as <- <-; simpl; tauto]|]). contradiction.
Qed.
